(** Proofs about validityerror and to_list. *)
From Verif Require Export PAt SpecValid.

Lemma fold_Forall {A} (P : A -> Prop) l : fold_right (fun c p => P c /\ p) True l <-> Forall P l.
Proof. induction l; cbn; split; intros H; auto; [constructor; tauto|inversion H; subst; tauto]. Qed.

(** loops that only check *)
Lemma for_check {X} (xs : list X) (ok : X -> bool) (body : Z -> unit -> res unit) :
  (forall i x, nthZ xs i = Some x -> (ok x = true -> body i tt = Ok tt) /\ (ok x = false -> exists m, body i tt = Err m)) ->
  (for_ 0 (zlen xs) body tt = Ok tt /\ forallb ok xs = true) \/ ((exists m, for_ 0 (zlen xs) body tt = Err m) /\ forallb ok xs = false).
Proof.
  intros H.
  assert (G : forall n k, 0 <= k -> Z.of_nat n = zlen xs - k ->
    (loop n k body tt = Ok tt /\ forallb ok (slice k (zlen xs) xs) = true) \/
    ((exists m, loop n k body tt = Err m) /\ forallb ok (slice k (zlen xs) xs) = false)).
  { induction n; intros k Hk Hn.
    - left. split; [reflexivity|]. rewrite slice_empty by lia. reflexivity.
    - destruct (nthZ_lt xs k) as [x Hx]; [lia|]. rewrite (slice_cons_nth k (zlen xs) xs x) by (auto; lia). cbn [forallb loop].
      destruct (H k x Hx) as [H1 H2]. destruct (ok x).
      + rewrite H1 by reflexivity. cbn [bind]. apply IHn; lia.
      + right. destruct H2 as [m ->]; [reflexivity|]. split; [exists m; reflexivity|reflexivity]. }
  specialize (G (Z.to_nat (zlen xs - 0)) 0). rewrite slice_full in G. unfold for_. apply G; pose proof (zlen_nonneg xs); lia.
Qed.

Definition sub_ok (n : Z) (ab : Z * Z) : bool := (fst ab =? snd ab) || ((0 <=? fst ab) && (fst ab <=? snd ab) && (snd ab <=? n)).
Lemma sublist_ok ws a b : (if sub_ok (zlen ws) (a, b) then exists v, sublist ws a b = Some v else sublist ws a b = None).
Proof. unfold sub_ok, sublist; cbn [fst snd]. destruct (a =? b); cbn [orb]; [eauto|]. destruct ((0 <=? a) && (a <=? b) && (b <=? zlen ws)); eauto. Qed.
Lemma omap_sub_ok ws l : (exists r, omap (fun ab => sublist ws (fst ab) (snd ab)) l = Some r) <-> forallb (sub_ok (zlen ws)) l = true.
Proof.
  rewrite forallb_forall. split.
  - intros [r Hr] [a b] Hin. destruct (omap_In _ _ _ _ Hr Hin) as (y & Hy & _). cbn in Hy. pose proof (sublist_ok ws a b) as H.
    destruct (sub_ok (zlen ws) (a, b)); [reflexivity|congruence].
  - intros H. apply omap_total. intros [a b] Hin. specialize (H _ Hin). pose proof (sublist_ok ws a b) as H'. rewrite H in H'. exact H'.
Qed.
Lemma list_validity starts stops n len : zlen starts <= zlen stops -> n = zlen starts ->
  (awkward_ListArray_validity starts stops n len = Ok tt /\ forallb (sub_ok len) (combine starts stops) = true)
  \/ ((exists m, awkward_ListArray_validity starts stops n len = Err m) /\ forallb (sub_ok len) (combine starts stops) = false).
Proof.
  intros Hle Hn. rewrite <- (zlen_combine_le starts stops Hle) in Hn. subst n. unfold awkward_ListArray_validity. apply for_check.
  intros i [a b] Hab. rewrite nthZ_combine in Hab. destruct (nthZ starts i) eqn:Ea; [|discriminate].
  destruct (nthZ stops i) eqn:Eb; [|discriminate]. injection Hab as -> ->.
  rewrite (proj2 (rd_Ok _ _ _) Ea), (proj2 (rd_Ok _ _ _) Eb). cbn [bind]. unfold sub_ok; cbn [fst snd].
  destruct (Z.eqb_spec a b), (Z.ltb_spec b a), (Z.ltb_spec a 0), (Z.ltb_spec len b), (Z.leb_spec 0 a), (Z.leb_spec a b), (Z.leb_spec b len);
    try lia; cbn; split; intros; try discriminate; eauto.
Qed.
Lemma list_validity_o offsets len : 1 <= zlen offsets ->
  let starts := slice 0 (zlen offsets - 1) offsets in let stops := slice 1 (zlen offsets) offsets in
  (awkward_ListArray_validity starts stops (zlen starts) len = Ok tt /\ forallb (sub_ok len) (pairs offsets) = true)
  \/ ((exists m, awkward_ListArray_validity starts stops (zlen starts) len = Err m) /\ forallb (sub_ok len) (pairs offsets) = false).
Proof.
  intros H starts stops. rewrite <- combine_starts_stops by lia. apply list_validity; [|reflexivity].
  unfold starts, stops. rewrite !zlen_slice by lia. lia.
Qed.
Definition idx_ok (isoption : bool) (len i : Z) : bool := (isoption || (0 <=? i)) && (i <? len).
Lemma index_validity index n len isoption : n = zlen index ->
  (awkward_IndexedArray_validity index n len isoption = Ok tt /\ forallb (idx_ok isoption len) index = true)
  \/ ((exists m, awkward_IndexedArray_validity index n len isoption = Err m) /\ forallb (idx_ok isoption len) index = false).
Proof.
  intros ->. unfold awkward_IndexedArray_validity. apply for_check. intros i x Hx. rewrite (proj2 (rd_Ok _ _ _) Hx). cbn [bind].
  unfold idx_ok. destruct isoption, (Z.ltb_spec x 0), (Z.leb_spec len x), (Z.leb_spec 0 x), (Z.ltb_spec x len); try lia; cbn; split; intros; try discriminate; eauto.
Qed.
Definition tag_ok (lens : list Z) (ti : Z * Z) : bool :=
  match nthZ lens (fst ti) with Some n => (0 <=? snd ti) && (snd ti <? n) | None => false end.
Lemma union_validity tags index lens n k : zlen tags <= zlen index -> n = zlen tags -> k = zlen lens ->
  (awkward_UnionArray_validity tags index n k lens = Ok tt /\ forallb (tag_ok lens) (combine tags index) = true)
  \/ ((exists m, awkward_UnionArray_validity tags index n k lens = Err m) /\ forallb (tag_ok lens) (combine tags index) = false).
Proof.
  intros Hle Hn ->. rewrite <- (zlen_combine_le tags index Hle) in Hn. subst n. unfold awkward_UnionArray_validity. apply for_check.
  intros i [a b] Hab. rewrite nthZ_combine in Hab. destruct (nthZ tags i) eqn:Ea; [|discriminate].
  destruct (nthZ index i) eqn:Eb; [|discriminate]. injection Hab as -> ->.
  rewrite (proj2 (rd_Ok _ _ _) Ea), (proj2 (rd_Ok _ _ _) Eb). cbn [bind]. unfold tag_ok; cbn [fst snd].
  destruct (Z.ltb_spec a 0); [rewrite nthZ_neg by lia; split; intros; try discriminate; eauto|].
  destruct (Z.ltb_spec b 0).
  { assert (match nthZ lens a with Some n => (0 <=? b) && (b <? n) | None => false end = false) as ->
      by (destruct (nthZ lens a); lia). split; intros; try discriminate; eauto. }
  destruct (Z.leb_spec (zlen lens) a); [rewrite nthZ_ge by lia; split; intros; try discriminate; eauto|].
  destruct (rd_in lens a) as (len & -> & ->); [lia|]. cbn [bind].
  destruct (Z.leb_spec len b), (Z.leb_spec 0 b), (Z.ltb_spec b len); try lia; cbn; split; intros; try discriminate; eauto.
Qed.

Lemma needs_simplify_iff c : needs_simplify c = true <-> option_or_indexed c.
Proof. destruct c; cbn; split; intros; auto; try discriminate; contradiction. Qed.
Lemma all_valid_Ok f cs : all_valid f cs = Ok None <-> forall c, In c cs -> f c = Ok None.
Proof.
  induction cs as [|c cs IH]; cbn; [split; auto; intros _ c []|]. split.
  - destruct (f c) as [[m|]| |] eqn:E; cbn; try discriminate. intros H c' [<-|Hc]; [exact E|apply IH; auto].
  - intros H. rewrite (H c) by now left. cbn. apply IH. intros; apply H; now right.
Qed.
Lemma all_valid_UB f cs : (forall c, In c cs -> f c <> UB) -> all_valid f cs <> UB.
Proof.
  induction cs as [|c cs IH]; cbn; intros H; [discriminate|]. specialize (H c (or_introl eq_refl)) as Hc.
  destruct (f c) as [[m|]| |]; cbn; try discriminate; [|congruence]. apply IH. intros; apply H; now right.
Qed.
Lemma all_valid_Err f cs m : (forall c m, In c cs -> f c <> Err m) -> all_valid f cs <> Err m.
Proof.
  induction cs as [|c cs IH]; cbn; intros H; [discriminate|]. pose proof (fun m => H c m (or_introl eq_refl)) as Hc.
  destruct (f c) as [[m'|]|m'|]; cbn; try discriminate; [|intros _; exact (Hc m' eq_refl)]. apply IH. intros; apply H; now right.
Qed.

Ltac case_valid H := let H1 := fresh in let m := fresh "m" in let H2 := fresh in
  destruct H as [[H1 H2]|[[m H1] H2]]; rewrite H1; cbn [check].

(** the validity check itself never misbehaves *)
Lemma validity_total c : built c -> exists r, validityerror c = Ok r.
Proof.
  induction c using content_ind'; cbn [built validityerror]; intros HB; unfold report; eauto.
  - destruct HB as [HB HB']. unfold mkListA in HB. destruct (Z.ltb_spec (zlen stops) (zlen starts)); [eauto|].
    case_valid (list_validity starts stops (zlen starts) (length_ c) ltac:(lia) eq_refl); eauto.
  - destruct HB as [HB HB']. destruct (Z.ltb_spec (zlen offsets) 1); [eauto|].
    rewrite make_starts_spec, make_stops_spec by lia. cbn [bind]. case_valid (list_validity_o offsets (length_ c) ltac:(lia)); eauto.
  - destruct HB as [HB HB']. destruct (size <? 0); eauto.
  - case_valid (index_validity index (zlen index) (length_ c) false eq_refl); eauto. destruct (needs_simplify c); eauto.
  - case_valid (index_validity index (zlen index) (length_ c) true eq_refl); eauto. destruct (needs_simplify c); eauto.
  - destruct HB as [HB HB']. destruct (length_ c <? zlen mask); eauto. destruct (needs_simplify c); eauto.
  - destruct HB as (HB & HB' & HB''). destruct (zlen mask * 8 <? len); eauto. destruct (length_ c <? len); eauto. destruct (needs_simplify c); eauto.
  - destruct (needs_simplify c); eauto.
  - destruct HB as (HB & HB' & HB''). apply fold_Forall in HB''. destruct (existsb _ cs); eauto.
    destruct (all_valid validityerror cs) eqn:E; eauto.
    + exfalso. eapply all_valid_Err; [|exact E]. rewrite Forall_forall in *. intros c m Hc. destruct (H c Hc (HB'' c Hc)) as [r ->]. discriminate.
    + exfalso. eapply all_valid_UB; [|exact E]. rewrite Forall_forall in *. intros c Hc. destruct (H c Hc (HB'' c Hc)) as [r ->]. discriminate.
  - destruct HB as (HB & HB''). apply fold_Forall in HB''. destruct (existsb is_union cs); eauto.
    destruct (Z.ltb_spec (zlen index) (zlen tags)); eauto.
    case_valid (union_validity tags index (map length_ cs) (zlen tags) (zlen cs) ltac:(lia) eq_refl ltac:(now rewrite zlen_map)); eauto.
    destruct (all_valid validityerror cs) eqn:E; eauto.
    + exfalso. eapply all_valid_Err; [|exact E]. rewrite Forall_forall in *. intros c m Hc. destruct (H c Hc (HB'' c Hc)) as [r ->]. discriminate.
    + exfalso. eapply all_valid_UB; [|exact E]. rewrite Forall_forall in *. intros c Hc. destruct (H c Hc (HB'' c Hc)) as [r ->]. discriminate.
Qed.

Lemma idx_ok_den (ws : list value) index : forallb (idx_ok false (zlen ws)) index = true -> exists r, omap (nthZ ws) index = Some r.
Proof. rewrite forallb_forall. intros H. apply omap_nthZ_total. intros i Hi. specialize (H i Hi). unfold idx_ok in H. lia. Qed.
Lemma idx_ok_den_opt (ws : list value) index : forallb (idx_ok true (zlen ws)) index = true ->
  exists r, omap (fun i => if i <? 0 then Some VNone else nthZ ws i) index = Some r.
Proof.
  rewrite forallb_forall. intros H. apply omap_total. intros i Hi. specialize (H i Hi). unfold idx_ok in H.
  destruct (Z.ltb_spec i 0); [eauto|]. apply nthZ_lt. lia.
Qed.
Lemma omap_den_lengths cs vss : omap den cs = Some vss -> map length_ cs = map zlen vss.
Proof.
  revert vss; induction cs as [|c cs IH]; intros vss; cbn; [intros [= <-]; reflexivity|].
  destruct (den c) eqn:E; [|discriminate]. destruct (omap den cs); [|discriminate]. intros [= <-]. cbn.
  now rewrite (den_length _ _ E), (IH _ eq_refl).
Qed.
Lemma tag_ok_den (vss : list (list value)) l : forallb (tag_ok (map zlen vss)) l = true <->
  exists r, omap (fun ti => match nthZ vss (fst ti) with Some vs => nthZ vs (snd ti) | None => None end) l = Some r.
Proof.
  rewrite forallb_forall. split.
  - intros H. apply (omap_total (B := value)). intros [t i] Hi. specialize (H _ Hi). unfold tag_ok in H. cbn [fst snd] in *. rewrite nthZ_map in H.
    destruct (nthZ vss t); cbn in H; [|discriminate]. apply nthZ_lt. lia.
  - intros [r Hr] [t i] Hi. destruct (omap_In _ _ _ _ Hr Hi) as (y & Hy & _). unfold tag_ok; cbn [fst snd] in *. rewrite nthZ_map.
    destruct (nthZ vss t); [|discriminate]. cbn. apply nthZ_Some in Hy. lia.
Qed.

Lemma valid_den c : built c -> validityerror c = Ok None -> exists vs, den c = Some vs.
Proof.
  induction c using content_ind'; cbn [built validityerror]; intros HB HV; unfold report in HV.
  - cbn; eauto.
  - cbn; eauto.
  - destruct HB as [HB HB']. unfold mkListA in HB. destruct (Z.ltb_spec (zlen stops) (zlen starts)); [discriminate|].
    revert HV. case_valid (list_validity starts stops (zlen starts) (length_ c) ltac:(lia) eq_refl); [|discriminate]. intros HV.
    destruct (IHc HB' HV) as [ws Hws]. cbn [den]. rewrite Hws. destruct (Z.leb_spec (zlen starts) (zlen stops)); [|lia].
    apply omap_sub_ok. rewrite <- (den_length _ _ Hws). assumption.
  - destruct HB as [HB HB']. revert HV. destruct (Z.ltb_spec (zlen offsets) 1); [discriminate|].
    rewrite make_starts_spec, make_stops_spec by lia. cbn [bind]. case_valid (list_validity_o offsets (length_ c) ltac:(lia)); [|discriminate]. intros HV.
    destruct (IHc HB' HV) as [ws Hws]. cbn [den]. rewrite Hws. destruct (Z.leb_spec 1 (zlen offsets)); [|lia].
    apply omap_sub_ok. rewrite <- (den_length _ _ Hws). assumption.
  - destruct HB as [HB HB']. destruct (Z.ltb_spec size 0); [discriminate|]. destruct (IHc HB' HV) as [ws Hws].
    unfold mkRegular in HB. cbn [length_] in HB. destruct (Z.ltb_spec size 0); [discriminate|]. cbn [den]. rewrite Hws.
    destruct (Z.ltb_spec 0 size).
    + apply omap_total. intros i Hi. apply In_zseq in Hi. unfold sublist. pose proof (zlen_nonneg ws).
      destruct (Z.eqb_spec (i * size) ((i + 1) * size)); [eauto|].
      destruct (Z.leb_spec 0 (i * size)), (Z.leb_spec (i * size) ((i + 1) * size)), (Z.leb_spec ((i + 1) * size) (zlen ws)); try nia; cbn; eauto.
    + assert (size = 0) by lia; subst. change (0 =? 0) with true in *. cbn [negb] in HB. destruct (Z.ltb_spec zl 0); [discriminate|].
      destruct (Z.leb_spec 0 zl); [|lia]. cbn; eauto.
  - revert HV. case_valid (index_validity index (zlen index) (length_ c) false eq_refl); [|discriminate].
    destruct (needs_simplify c); [discriminate|]. intros HV. destruct (IHc HB HV) as [ws Hws]. cbn [den]. rewrite Hws.
    apply idx_ok_den. rewrite <- (den_length _ _ Hws). assumption.
  - revert HV. case_valid (index_validity index (zlen index) (length_ c) true eq_refl); [|discriminate].
    destruct (needs_simplify c); [discriminate|]. intros HV. destruct (IHc HB HV) as [ws Hws]. cbn [den]. rewrite Hws.
    apply idx_ok_den_opt. rewrite <- (den_length _ _ Hws). assumption.
  - destruct HB as [HB HB']. destruct (Z.ltb_spec (length_ c) (zlen mask)); [discriminate|]. destruct (needs_simplify c); [discriminate|].
    destruct (IHc HB' HV) as [ws Hws]. cbn [den]. rewrite Hws. rewrite (den_length _ _ Hws) in *.
    destruct (Z.leb_spec (zlen mask) (zlen ws)); [|lia]. eauto.
  - destruct HB as (HB & HB' & HB''). destruct (Z.ltb_spec (zlen mask * 8) len); [discriminate|].
    destruct (Z.ltb_spec (length_ c) len); [discriminate|]. destruct (needs_simplify c); [discriminate|].
    destruct (IHc HB'' HV) as [ws Hws]. cbn [den]. rewrite Hws. rewrite (den_length _ _ Hws) in *.
    assert ((0 <=? len) && (len <=? zlen ws) && (len <=? 8 * zlen mask) = true) as -> by lia.
    apply omap_total. intros i Hi. apply In_zseq in Hi. rewrite mask_bit_val by lia. destruct (nthZ_lt ws i) as [w ->]; [lia|]. eauto.
  - destruct (needs_simplify c); [discriminate|]. destruct (IHc HB HV) as [ws Hws]. cbn [den]. eauto.
  - destruct HB as (HB & HB' & HB''). apply fold_Forall in HB''. destruct (existsb (fun c => length_ c <? len) cs) eqn:Ex; [discriminate|].
    rewrite all_valid_Ok in HV. rewrite Forall_forall in *. cbn [den].
    destruct (omap_total den cs) as [vss Hvss]; [intros c Hc; apply H; auto|]. rewrite Hvss.
    assert (keys_ok keys (zlen cs) = true) as ->.
    { unfold mkRecord in HB. destruct keys as [ks|]; [|reflexivity]. cbn. destruct (zlen ks =? zlen cs); [reflexivity|discriminate]. }
    destruct (Z.leb_spec 0 len); [|lia]. cbn [andb]. apply omap_total. intros i Hi. apply In_zseq in Hi.
    destruct (omap_total (fun vs => nthZ vs i) vss) as [row ->]; [|cbn; eauto]. intros vs Hvs. apply nthZ_lt.
    destruct (In_nthZ _ _ Hvs) as [k Hk]. destruct (omap_nth' _ _ _ _ _ Hvss Hk) as (c & Hc & Hd). apply nthZ_In in Hc.
    pose proof (den_length _ _ Hd). destruct (Z.ltb_spec (length_ c) len) as [Hlt|]; [|lia].
    assert (existsb (fun c => length_ c <? len) cs = true) as Hex by (apply existsb_exists; exists c; split; [exact Hc|lia]). congruence.
  - destruct HB as (HB & HB''). apply fold_Forall in HB''. destruct (existsb is_union cs); [discriminate|].
    destruct (Z.ltb_spec (zlen index) (zlen tags)); [discriminate|]. revert HV.
    case_valid (union_validity tags index (map length_ cs) (zlen tags) (zlen cs) ltac:(lia) eq_refl ltac:(now rewrite zlen_map)); [|discriminate].
    intros HV. rewrite all_valid_Ok in HV. rewrite Forall_forall in *. cbn [den].
    destruct (omap_total den cs) as [vss Hvss]; [intros c Hc; apply H; auto|]. rewrite Hvss.
    unfold mkUnion in HB. destruct cs as [|c0 cs0]; [discriminate|]. rewrite zlen_cons. pose proof (zlen_nonneg cs0).
    assert ((1 <=? zlen cs0 + 1) && (zlen tags <=? zlen index) = true) as -> by lia.
    apply tag_ok_den. rewrite <- (omap_den_lengths _ _ Hvss). assumption.
Qed.

(** ... and accepts every meaningful array that is simplified *)
Lemma den_valid c vs : den c = Some vs -> simplified c -> validityerror c = Ok None.
Proof.
  revert vs; induction c using content_ind'; intros vs Hd HS; cbn [simplified validityerror] in *; unfold report; auto.
  - cbn [den] in Hd. destruct (den c) as [ws|] eqn:Ec; [|discriminate]. destruct (Z.leb_spec (zlen starts) (zlen stops)); [|discriminate].
    destruct (Z.ltb_spec (zlen stops) (zlen starts)); [lia|].
    case_valid (list_validity starts stops (zlen starts) (length_ c) ltac:(lia) eq_refl); [eauto|].
    exfalso. assert (forallb (sub_ok (zlen ws)) (combine starts stops) = true) as Ht by (apply omap_sub_ok; eauto).
    rewrite <- (den_length _ _ Ec) in Ht. congruence.
  - cbn [den] in Hd. destruct (den c) as [ws|] eqn:Ec; [|discriminate]. destruct (Z.leb_spec 1 (zlen offsets)); [|discriminate].
    destruct (Z.ltb_spec (zlen offsets) 1); [lia|]. rewrite make_starts_spec, make_stops_spec by lia. cbn [bind].
    case_valid (list_validity_o offsets (length_ c) ltac:(lia)); [eauto|].
    exfalso. assert (forallb (sub_ok (zlen ws)) (pairs offsets) = true) as Ht by (apply omap_sub_ok; eauto).
    rewrite <- (den_length _ _ Ec) in Ht. congruence.
  - destruct (regular_inv _ _ _ _ Hd) as (ws & segs & Ec & Hs & _). destruct (Z.ltb_spec size 0); [lia|]. eauto.
  - destruct HS as [HS HS']. cbn [den] in Hd. destruct (den c) as [ws|] eqn:Ec; [|discriminate].
    case_valid (index_validity index (zlen index) (length_ c) false eq_refl).
    + destruct (needs_simplify c) eqn:En; [apply needs_simplify_iff in En; contradiction|]. eauto.
    + exfalso. assert (forallb (idx_ok false (length_ c)) index = true) as Ht; [|congruence]. rewrite (den_length _ _ Ec).
      apply forallb_forall. intros i Hi. pose proof (omap_nthZ_range _ _ _ Hd i Hi). unfold idx_ok. lia.
  - destruct HS as [HS HS']. cbn [den] in Hd. destruct (den c) as [ws|] eqn:Ec; [|discriminate].
    case_valid (index_validity index (zlen index) (length_ c) true eq_refl).
    + destruct (needs_simplify c) eqn:En; [apply needs_simplify_iff in En; contradiction|]. eauto.
    + exfalso. assert (forallb (idx_ok true (length_ c)) index = true) as Ht; [|congruence]. rewrite (den_length _ _ Ec).
      apply forallb_forall. intros i Hi. destruct (omap_In _ _ _ _ Hd Hi) as (y & Hy & _). pose proof (zlen_nonneg ws). unfold idx_ok.
      destruct (Z.ltb_spec i 0).
      * cbn. pose proof (zlen_nonneg ws). lia.
      * apply nthZ_Some in Hy. lia.
  - destruct HS as [HS HS']. cbn [den] in Hd. destruct (den c) as [ws|] eqn:Ec; [|discriminate]. rewrite (den_length _ _ Ec).
    destruct (Z.leb_spec (zlen mask) (zlen ws)); [|discriminate]. destruct (Z.ltb_spec (zlen ws) (zlen mask)); [lia|].
    destruct (needs_simplify c) eqn:En; [apply needs_simplify_iff in En; contradiction|]. eauto.
  - destruct HS as [HS HS']. cbn [den] in Hd. destruct (den c) as [ws|] eqn:Ec; [|discriminate]. rewrite (den_length _ _ Ec).
    destruct ((0 <=? len) && (len <=? zlen ws) && (len <=? 8 * zlen mask)) eqn:E; [|discriminate].
    destruct (Z.ltb_spec (zlen mask * 8) len); [lia|]. destruct (Z.ltb_spec (zlen ws) len); [lia|].
    destruct (needs_simplify c) eqn:En; [apply needs_simplify_iff in En; contradiction|]. eauto.
  - destruct HS as [HS HS']. destruct (needs_simplify c) eqn:En; [apply needs_simplify_iff in En; contradiction|]. eauto.
  - apply fold_Forall in HS. rewrite Forall_forall in *. cbn [den] in Hd. destruct (omap den cs) as [vss|] eqn:Ecs; [|discriminate].
    destruct (Z.leb_spec 0 len); [|discriminate]. destruct (keys_ok keys (zlen cs)); [|discriminate]. cbn [andb] in Hd.
    destruct (existsb (fun c => length_ c <? len) cs) eqn:Ex.
    + exfalso. apply existsb_exists in Ex. destruct Ex as (c & Hc & Hlt). destruct (omap_In _ _ _ _ Ecs Hc) as (ws & Hws & Hin).
      rewrite (den_length _ _ Hws) in Hlt. destruct (omap_nth _ _ _ (zlen ws) (zlen ws) Hd) as [_ [y Hy]].
      { pose proof (zlen_nonneg ws). rewrite nthZ_zseq by lia. f_equal; lia. }
      destruct (omap (fun vs => nthZ vs (zlen ws)) vss) as [row|] eqn:Er; [|discriminate].
      destruct (omap_In _ _ _ _ Er Hin) as (z & Hz & _). apply nthZ_Some in Hz. lia.
    + apply all_valid_Ok. intros c Hc. destruct (omap_In _ _ _ _ Ecs Hc) as (ws & Hws & Hin). eauto.
  - apply (fold_Forall (fun c => (match c with Union _ _ _ => False | _ => True end) /\ simplified c)) in HS. rewrite Forall_forall in *.
    cbn [den] in Hd. destruct (omap den cs) as [vss|] eqn:Ecs; [|discriminate].
    destruct ((1 <=? zlen cs) && (zlen tags <=? zlen index)) eqn:E; [|discriminate].
    destruct (existsb is_union cs) eqn:Ex.
    { apply existsb_exists in Ex. destruct Ex as (c & Hc & Hu). destruct (HS c Hc) as [Hn _]. destruct c; try discriminate; contradiction. }
    destruct (Z.ltb_spec (zlen index) (zlen tags)); [lia|].
    case_valid (union_validity tags index (map length_ cs) (zlen tags) (zlen cs) ltac:(lia) eq_refl ltac:(now rewrite zlen_map)).
    + apply all_valid_Ok. intros c Hc. destruct (omap_In _ _ _ _ Ecs Hc) as (ws & Hws & Hin). destruct (HS c Hc). eauto.
    + exfalso. rewrite (omap_den_lengths _ _ Ecs) in *.
      assert (forallb (tag_ok (map zlen vss)) (combine tags index) = true) by (apply tag_ok_den; eauto). congruence.
Qed.

(** to_list *)
Fixpoint vdepth (v : value) : nat :=
  match v with
  | VList l => S (fold_right (fun v n => Nat.max (vdepth v) n) O l)
  | VTuple l => S (fold_right (fun v n => Nat.max (vdepth v) n) O l)
  | VRec fs => S (fold_right (fun kv n => Nat.max (vdepth (snd kv)) n) O fs)
  | _ => O
  end.
Definition vdepths (l : list value) : nat := fold_right (fun v n => Nat.max (vdepth v) n) O l.
Lemma vdepths_In l v : In v l -> (vdepth v <= vdepths l)%nat.
Proof. induction l; cbn; intros []; [subst; lia|]. specialize (IHl H). unfold vdepths in *. lia. Qed.
Lemma mapres_intro {A B} (f : A -> res B) l ys : zlen ys = zlen l ->
  (forall i x y, nthZ l i = Some x -> nthZ ys i = Some y -> f x = Ok y) -> mapres f l = Ok ys.
Proof.
  revert ys; induction l as [|x l IH]; intros ys Hl H; cbn [mapres].
  { now rewrite (zlen_0 ys) by exact Hl. }
  destruct ys as [|y ys]; [rewrite zlen_cons in Hl; change (zlen (@nil B)) with 0 in Hl; pose proof (zlen_nonneg l); lia|].
  rewrite !zlen_cons in Hl.
  rewrite (H 0 x y); [|reflexivity|reflexivity]. cbn [bind]. rewrite (IH ys); [reflexivity|lia|].
  intros i x' y' Hx Hy. pose proof (nthZ_Some _ _ _ Hx). apply (H (i + 1)); rewrite nthZ_cons; destruct (Z.eqb_spec (i+1) 0); try lia; replace (i + 1 - 1) with i by lia; assumption.
Qed.
Lemma tolist_with_den f c vs : den c = Some vs ->
  (forall it v, In v vs -> item_den it = Some v -> f it = Ok v) -> tolist_with f c = Ok vs.
Proof.
  intros Hd H. unfold tolist_with. pose proof (den_length _ _ Hd) as HL. apply mapres_intro; rewrite HL, ?zlen_zseq by apply zlen_nonneg; [lia|].
  intros i x v Hx Hv. pose proof (nthZ_Some _ _ _ Hv). rewrite nthZ_zseq in Hx by lia. injection Hx as <-. rewrite Z.add_0_l.
  destruct (at_den c vs i v Hd Hv) as (it & -> & Hit). cbn [bind]. apply H; [eapply nthZ_In; eauto|exact Hit].
Qed.
Lemma item_value_den fuel it v : item_den it = Some v -> (vdepth v < fuel)%nat -> item_value fuel it = Ok v.
Proof.
  revert it v; induction fuel; intros it v Hit Hdep; [lia|]. cbn [item_value]. destruct it as [dt z| |c|c i]; cbn [item_den] in Hit.
  - congruence.
  - congruence.
  - destruct (den c) as [l|] eqn:Ec; [|discriminate]. injection Hit as <-. cbn [vdepth] in Hdep.
    rewrite (tolist_with_den _ c l Ec); [reflexivity|]. intros it v Hv Hd. apply IHfuel; [exact Hd|]. pose proof (vdepths_In _ _ Hv). unfold vdepths in *. lia.
  - destruct c; try discriminate. rename contents into cs.
    destruct (den (Record keys length cs)) as [vs|] eqn:Ec; [|discriminate].
    assert (Hrow : exists row, v = mkrow keys row /\ zlen row = zlen cs).
    { cbn [den] in Ec. destruct (omap den cs) as [vss|] eqn:Ecs; [|discriminate]. destruct ((0 <=? length) && keys_ok keys (zlen cs)); [|discriminate].
      destruct (omap_nth' _ _ _ _ _ Ec Hit) as (i' & _ & Hr). destruct (omap (fun vs => nthZ vs i') vss) as [row|] eqn:Er; [|discriminate].
      injection Hr as <-. exists row. split; [reflexivity|]. rewrite (omap_zlen _ _ _ Er). apply (omap_zlen _ _ _ Ecs). }
    assert (Hkeys : keys_ok keys (zlen cs) = true).
    { cbn [den] in Ec. destruct (omap den cs) as [vss|] eqn:Ecs; [|discriminate]. destruct (0 <=? length); [|discriminate]. destruct (keys_ok keys (zlen cs)); [reflexivity|discriminate]. }
    destruct Hrow as (row & -> & Hlen).
    assert (Hinj : forall row', mkrow keys row = mkrow keys row' -> zlen row' = zlen row -> row' = row).
    { intros row' Heq Hl'. unfold mkrow in Heq. destruct keys as [ks|]; [|congruence]. cbn in Hkeys. apply Z.eqb_eq in Hkeys.
      injection Heq as Heq. assert (map snd (combine ks row) = row) as E1 by (clear - Hlen Hkeys; assert (H : zlen ks = zlen row) by lia; clear - H;
        revert row H; induction ks; intros [|x row] H; cbn; rewrite ?zlen_cons in H; change (zlen (@nil string)) with 0 in H; change (zlen (@nil value)) with 0 in H; try reflexivity;
          [pose proof (zlen_nonneg row); lia|rewrite IHks by lia; reflexivity]).
      assert (map snd (combine ks row') = row') as E2 by (clear - Hlen Hkeys Hl'; assert (H : zlen ks = zlen row') by lia; clear - H;
        revert row' H; induction ks; intros [|x row] H; cbn; rewrite ?zlen_cons in H; change (zlen (@nil string)) with 0 in H; change (zlen (@nil value)) with 0 in H; try reflexivity;
          [pose proof (zlen_nonneg row); lia|rewrite IHks by lia; reflexivity]).
      congruence. }
    rewrite (mapres_intro _ _ row); [reflexivity|rewrite zlen_zseq; pose proof (zlen_nonneg cs); lia|].
    intros k x w Hx Hw. pose proof (nthZ_Some _ _ _ Hw) as Hk. rewrite nthZ_zseq in Hx by lia. injection Hx as <-. rewrite Z.add_0_l.
    destruct (record_field_den keys length cs vs i _ k Ec Hit ltac:(lia)) as (it & w' & -> & Hitd & row' & Hr1 & Hr2 & Hr3).
    assert (row' = row) by (apply Hinj; [exact Hr1|lia]). subst row'. assert (w' = w) by congruence. subst w'. cbn [bind].
    apply IHfuel; [exact Hitd|]. apply nthZ_In in Hw.
    assert (vdepth w < vdepth (mkrow keys row))%nat; [|lia]. unfold mkrow. destruct keys as [ks|].
    + cbn [vdepth]. cbn in Hkeys. apply Z.eqb_eq in Hkeys. assert (H : zlen ks = zlen row) by lia. clear - H Hw. revert ks H.
      induction row as [|r row IH]; intros ks H; [contradiction|]. destruct ks as [|k ks]; [rewrite zlen_cons in H; change (zlen (@nil string)) with 0 in H; pose proof (zlen_nonneg row); lia|].
      rewrite !zlen_cons in H. cbn. destruct Hw as [->|Hw]; [lia|]. specialize (IH Hw ks ltac:(lia)). lia.
    + cbn [vdepth]. pose proof (vdepths_In _ _ Hw). unfold vdepths in *. lia.
Qed.
Lemma tolist_den c vs : den c = Some vs -> tolist (S (vdepths vs)) c = Ok vs.
Proof.
  intros Hd. apply tolist_with_den; [exact Hd|]. intros it v Hv Hit. apply item_value_den; [exact Hit|]. pose proof (vdepths_In _ _ Hv). lia.
Qed.
