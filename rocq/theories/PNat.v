(** Replacing the content of a node by one with mapped values maps the values of the node. *)
From Verif Require Import Base BaseLemmas Content SpecArray SpecForm SpecAxis OmapLemmas PCore PList POption.

Lemma sublist_map (g G : value -> value) ws a b : (forall l, G (VList l) = VList (map g l)) ->
  sublist (map g ws) a b = option_map G (sublist ws a b).
Proof.
  intros HG. unfold sublist. rewrite zlen_map. destruct (a =? b); simpl; [rewrite HG; reflexivity|].
  destruct ((0 <=? a) && (a <=? b) && (b <=? zlen ws)); simpl; [|reflexivity]. rewrite HG, slice_map. reflexivity.
Qed.
Lemma omap_sublist_map (g G : value -> value) ws l : (forall l, G (VList l) = VList (map g l)) ->
  omap (fun ab => sublist (map g ws) (fst ab) (snd ab)) l = option_map (map G) (omap (fun ab => sublist ws (fst ab) (snd ab)) l).
Proof. intros HG. rewrite <- omap_option_map. apply omap_ext. intros x _. apply sublist_map; exact HG. Qed.

Lemma nat_lista (g G : value -> value) s t c c' ws vs : (forall l, G (VList l) = VList (map g l)) ->
  den c = Some ws -> den c' = Some (map g ws) -> den (ListA s t c) = Some vs -> den (ListA s t c') = Some (map G vs).
Proof.
  intros HG Hc Hc' H. cbn [den] in *. rewrite Hc in H. rewrite Hc'. destruct (zlen s <=? zlen t); [|discriminate].
  rewrite (omap_sublist_map g G) by exact HG. rewrite H. reflexivity.
Qed.
Lemma nat_listoffset (g G : value -> value) o c c' ws vs : (forall l, G (VList l) = VList (map g l)) ->
  den c = Some ws -> den c' = Some (map g ws) -> den (ListOffset o c) = Some vs -> den (ListOffset o c') = Some (map G vs).
Proof.
  intros HG Hc Hc' H. cbn [den] in *. rewrite Hc in H. rewrite Hc'. destruct (1 <=? zlen o); [|discriminate].
  rewrite (omap_sublist_map g G) by exact HG. rewrite H. reflexivity.
Qed.
Lemma map_repeat {A B} (f : A -> B) x n : map f (repeat x n) = repeat (f x) n.
Proof. induction n; simpl; congruence. Qed.
Lemma nat_regular (g G : value -> value) size zl zl' c c' ws vs : (forall l, G (VList l) = VList (map g l)) ->
  (size = 0 -> zl' = zl) ->
  den c = Some ws -> den c' = Some (map g ws) -> den (Regular size zl c) = Some vs -> den (Regular size zl' c') = Some (map G vs).
Proof.
  intros HG Hz Hc Hc' H. cbn [den] in *. rewrite Hc in H. rewrite Hc', zlen_map. destruct (0 <? size) eqn:Hs.
  - rewrite <- (omap_map (fun ab => sublist (map g ws) (fst ab) (snd ab)) (fun i => (i * size, (i + 1) * size))).
    rewrite <- (omap_map (fun ab => sublist ws (fst ab) (snd ab)) (fun i => (i * size, (i + 1) * size))) in H.
    rewrite (omap_sublist_map g G) by exact HG. rewrite H. reflexivity.
  - destruct (size =? 0) eqn:Hs0; [|discriminate]. rewrite Hz by lia. cbn [andb] in *. destruct (0 <=? zl); [|discriminate].
    injection H as <-. rewrite map_repeat, HG. reflexivity.
Qed.
Lemma nat_indexed (g : value -> value) i c c' ws vs :
  den c = Some ws -> den c' = Some (map g ws) -> den (Indexed i c) = Some vs -> den (Indexed i c') = Some (map g vs).
Proof.
  intros Hc Hc' H. cbn [den] in *. rewrite Hc in H. rewrite Hc'.
  replace (Some (map g vs)) with (option_map (map g) (omap (nthZ ws) i)) by (rewrite H; reflexivity).
  rewrite <- omap_option_map. apply omap_ext. intros x _. apply nthZ_map.
Qed.
Lemma nat_indexedoption (g : value -> value) i c c' ws vs : g VNone = VNone ->
  den c = Some ws -> den c' = Some (map g ws) -> den (IndexedOption i c) = Some vs -> den (IndexedOption i c') = Some (map g vs).
Proof.
  intros HG Hc Hc' H. cbn [den] in *. rewrite Hc in H. rewrite Hc'.
  replace (Some (map g vs)) with (option_map (map g) (omap (fun i => if i <? 0 then Some VNone else nthZ ws i) i)) by (rewrite H; reflexivity).
  rewrite <- omap_option_map. apply omap_ext. intros x _. rewrite nthZ_map. destruct (x <? 0); simpl; [rewrite HG|]; reflexivity.
Qed.

Lemma mapres_map (f : content -> res content) (g : value -> value) cs vss :
  omap den cs = Some vss -> (forall c vs, In c cs -> den c = Some vs -> exists c', f c = Ok c' /\ den c' = Some (map g vs)) ->
  exists cs', mapres f cs = Ok cs' /\ omap den cs' = Some (map (map g) vss) /\ zlen cs' = zlen cs.
Proof.
  intros H Hf. destruct (mapres_den f den (fun v => Some (map g v)) cs vss H) as [cs' [ys [A [B [C D]]]]].
  - intros c v Hin Hd. destruct (Hf c v Hin Hd) as [c' [E1 E2]]. exists c', (map g v). auto.
  - rewrite omap_Some_map in C. injection C as <-. eauto.
Qed.

Lemma nat_record (g G : value -> value) keys len cs cs' vss vs : (forall vals, G (mkrow keys vals) = mkrow keys (map g vals)) ->
  omap den cs = Some vss -> omap den cs' = Some (map (map g) vss) -> zlen cs' = zlen cs ->
  den (Record keys len cs) = Some vs -> den (Record keys len cs') = Some (map G vs).
Proof.
  intros HG Hc Hc' Hl H. cbn [den] in *. rewrite Hc in H. rewrite Hc', Hl. destruct ((0 <=? len) && keys_ok keys (zlen cs)); [|discriminate].
  match type of H with ?x = _ => replace (Some (map G vs)) with (option_map (map G) x) by (rewrite H; reflexivity) end.
  rewrite <- omap_option_map. apply omap_ext. intros i _. rewrite omap_map.
  rewrite (omap_ext (fun x => nthZ (map g x) i) (fun x => option_map g (nthZ x i))) by (intros; apply nthZ_map).
  rewrite omap_option_map. destruct (omap (fun vs0 => nthZ vs0 i) vss); simpl; [rewrite HG|]; reflexivity.
Qed.
Lemma nat_union (g : value -> value) tags index cs cs' vss vs :
  omap den cs = Some vss -> omap den cs' = Some (map (map g) vss) -> zlen cs' = zlen cs ->
  den (Union tags index cs) = Some vs -> den (Union tags index cs') = Some (map g vs).
Proof.
  intros Hc Hc' Hl H. cbn [den] in *. rewrite Hc in H. rewrite Hc', Hl. destruct ((1 <=? zlen cs) && (zlen tags <=? zlen index)); [|discriminate].
  match type of H with ?x = _ => replace (Some (map g vs)) with (option_map (map g) x) by (rewrite H; reflexivity) end.
  rewrite <- omap_option_map. apply omap_ext. intros [t i] _. cbn [fst snd]. rewrite nthZ_map.
  destruct (nthZ vss t) as [x|]; cbn [option_map]; [apply nthZ_map|reflexivity].
Qed.

Lemma lift_list f k l : k <> 1 -> lift f k (VList l) = VList (map (lift f (k - 1)) l).
Proof. intros H. cbn [lift]. destruct (k =? 1) eqn:E; [lia|reflexivity]. Qed.
Lemma lift_row f k keys vals : lift f k (mkrow keys vals) = mkrow keys (map (lift f k) vals).
Proof.
  destruct keys as [ks|]; cbn [mkrow lift]; [|reflexivity]. f_equal.
  revert vals. induction ks as [|x ks IH]; intros vals; [reflexivity|]. destruct vals as [|v vals]; [reflexivity|]. simpl. f_equal. apply IH.
Qed.

(** the fields of a record or union that denotes something denote something *)
Lemma record_inv keys len cs vs : den (Record keys len cs) = Some vs -> exists vss, omap den cs = Some vss.
Proof. cbn [den]. destruct (omap den cs); [eauto|discriminate]. Qed.
Lemma union_inv tags index cs vs : den (Union tags index cs) = Some vs -> exists vss, omap den cs = Some vss.
Proof. cbn [den]. destruct (omap den cs); [eauto|discriminate]. Qed.
Lemma content_inv1 c vs : den c = Some vs ->
  match c with
  | ListA _ _ c' | ListOffset _ c' | Regular _ _ c' | Indexed _ c' | IndexedOption _ c' | ByteMasked _ _ c' | BitMasked _ _ _ _ c' | Unmasked c' =>
      exists ws, den c' = Some ws
  | _ => True
  end.
Proof. destruct c; cbn [den]; intros H; try exact I; destruct (den c); try discriminate; eauto. Qed.
