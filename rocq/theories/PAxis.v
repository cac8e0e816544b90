(** Lemmas shared by the operations along an axis. *)
From Verif Require Import Base BaseLemmas LoopLemmas Content KCore Core KConvert Convert KOption Option KAxis Axis
  SpecArray SpecForm SpecAxis SpecOption OmapLemmas PCore PCarry PList PConvert POption PForm PNat.

(** the outcome of a call: values, or an error (never undefined behaviour) *)
Definition good (r : res content) (o : option (list value)) : Prop :=
  match o with Some vs => exists c, r = Ok c /\ den c = Some vs | None => exists m, r = Err m end.

(** ** nextcarry and outindex *)
Fixpoint ranks {X} (p : X -> bool) (k : Z) (xs : list X) : list Z :=
  match xs with [] => [] | x :: t => if p x then k :: ranks p (k + 1) t else -1 :: ranks p k t end.
Lemma ranks_app {X} (p : X -> bool) xs ys k : ranks p k (xs ++ ys) = ranks p k xs ++ ranks p (k + zlen (filter p xs)) ys.
Proof.
  revert k. induction xs as [|x xs IH]; intros k; simpl; [f_equal; change (zlen (@nil X)) with 0; lia|].
  destruct (p x); rewrite IH; simpl; do 3 f_equal. rewrite zlen_cons. lia.
Qed.
Lemma zlen_ranks {X} (p : X -> bool) xs k : zlen (ranks p k xs) = zlen xs.
Proof. revert k. induction xs as [|x xs IH]; intros k; simpl; [reflexivity|]. destruct (p x); rewrite !zlen_cons, IH; reflexivity. Qed.

Lemma filter_app_snoc {X} (p : X -> bool) d x : filter p (d ++ [x]) = filter p d ++ (if p x then [x] else []).
Proof. rewrite filter_app. simpl. destruct (p x); reflexivity. Qed.
Lemma zlen_filter_split {X} (p : X -> bool) d x r xs : d ++ x :: r = xs -> p x = true -> zlen (filter p d) < zlen (filter p xs).
Proof. intros <- H. rewrite filter_app. simpl. rewrite H, zlen_app, zlen_cons. pose proof (zlen_nonneg (filter p r)). lia. Qed.

Lemma for_nextcarry {X} (xs : list X) (p : X -> bool) (h : X -> Z) (body : Z -> Z * list Z * list Z -> res (Z * list Z * list Z)) tc oi n :
  n = zlen xs -> zlen tc = zlen (filter p xs) -> zlen oi = n ->
  (forall i x k t o, nthZ xs i = Some x -> body i (k, t, o) =
     if p x then let* t := wr t k (h x) in let* o := wr o i k in Ok (k + 1, t, o) else let* o := wr o i (-1) in Ok (k, t, o)) ->
  for_ 0 n body (0, tc, oi) = Ok (zlen (filter p xs), map h (filter p xs), ranks p 0 xs).
Proof.
  intros -> Ht Ho Hb.
  destruct (for_list xs (fun d st => exists r1 r2, st = (zlen (filter p d), map h (filter p d) ++ r1, ranks p 0 d ++ r2)
              /\ zlen (filter p d) + zlen r1 = zlen (filter p xs) /\ zlen d + zlen r2 = zlen xs) body (0, tc, oi)) as (s & -> & r1 & r2 & -> & H1 & H2).
  - exists tc, oi. simpl. split; [reflexivity|]. change (zlen (@nil X)) with 0. lia.
  - intros d x r t E (r1 & r2 & -> & H1 & H2).
    assert (Hx : nthZ xs (zlen d) = Some x) by (rewrite <- E; apply nthZ_mid).
    rewrite (Hb _ _ _ _ _ Hx).
    assert (Hr2 : 0 < zlen r2). { pose proof (zlen_nonneg r). apply (f_equal zlen) in E. rewrite zlen_app, zlen_cons in E. lia. }
    destruct (p x) eqn:Hp.
    + pose proof (zlen_filter_split p _ _ _ _ E Hp).
      destruct (wr_push' (map h (filter p d)) r1 (h x)) as (r1' & W1 & L1); [lia|]. rewrite zlen_map in W1. rewrite W1. cbn [bind].
      destruct (wr_push' (ranks p 0 d) r2 (zlen (filter p d))) as (r2' & W2 & L2); [lia|]. rewrite zlen_ranks in W2. rewrite W2. cbn [bind].
      eexists. split; [reflexivity|]. exists r1', r2'. rewrite filter_app_snoc, Hp, ranks_app, map_app, !zlen_app. simpl. rewrite Hp.
      change (zlen [x]) with 1. split; [reflexivity|]. lia.
    + destruct (wr_push' (ranks p 0 d) r2 (-1)) as (r2' & W2 & L2); [lia|]. rewrite zlen_ranks in W2. rewrite W2. cbn [bind].
      eexists. split; [reflexivity|]. exists r1, r2'. rewrite filter_app_snoc, Hp, ranks_app, app_nil_r, !zlen_app. simpl. rewrite Hp.
      change (zlen [x]) with 1. split; [reflexivity|]. lia.
  - rewrite (zlen_0 r1), (zlen_0 r2), !app_nil_r by lia. reflexivity.
Qed.

Lemma ranks_den {X} (p : X -> bool) (h : X -> Z) (get : Z -> option value) xs vs :
  omap (fun x => if p x then get (h x) else Some VNone) xs = Some vs ->
  exists ws, omap get (map h (filter p xs)) = Some ws /\
    forall pre, omap (fun i => if i <? 0 then Some VNone else nthZ (pre ++ ws) i) (ranks p (zlen pre) xs) = Some vs.
Proof.
  revert vs. induction xs as [|x xs IH]; intros vs H; simpl in H.
  - injection H as <-. exists []. split; reflexivity.
  - destruct (p x) eqn:Hp.
    + destruct (get (h x)) as [v|] eqn:Hv; [|discriminate]. destruct (omap _ xs) as [vs'|]; [|discriminate]. injection H as <-.
      destruct (IH _ eq_refl) as (ws & A & B). exists (v :: ws). simpl. rewrite Hp. simpl. rewrite Hv, A. split; [reflexivity|].
      intros pre. simpl. pose proof (zlen_nonneg pre). destruct (Z.ltb_spec (zlen pre) 0); [lia|]. rewrite nthZ_mid.
      specialize (B (pre ++ [v])). rewrite zlen_app in B. change (zlen [v]) with 1 in B. rewrite <- app_assoc in B. simpl in B. rewrite B. reflexivity.
    + destruct (omap _ xs) as [vs'|]; [|discriminate]. injection H as <-.
      destruct (IH _ eq_refl) as (ws & A & B). exists ws. simpl. rewrite Hp. split; [exact A|]. intros pre. simpl. rewrite B. reflexivity.
Qed.

(** ** passing through an option-type node *)
Lemma simplify_io index out vs : den (IndexedOption index out) = Some vs ->
  exists c', simplify_optiontype (IndexedOption index out) = Ok c' /\ den c' = Some vs.
Proof. intros H. destruct (simplify_den _ _ H eq_refl) as (c' & A & B & _). eauto. Qed.

Lemma option_path_good' lazy rec pair c' ws vs g (ok : bool) :
  den c' = Some ws -> g VNone = VNone ->
  (exists nc oi ws', pair = Ok (nc, oi) /\ omap (nthZ ws) nc = Some ws' /\ omap (fun i => if i <? 0 then Some VNone else nthZ ws' i) oi = Some vs) ->
  (forall nc next ws', carry c' nc lazy = Ok next -> den next = Some ws' -> good (rec next) (if ok then Some (map g ws') else None)) ->
  good (option_path lazy rec pair c') (if ok then Some (map g vs) else None).
Proof.
  intros Hc Hg (nc & oi & ws' & -> & Hnc & Hoi) Hrec. unfold option_path. cbn [bind].
  destruct (carry_den _ _ _ _ lazy Hc Hnc) as (next & En & Hn). rewrite En. cbn [bind].
  specialize (Hrec nc next ws' En Hn). destruct ok.
  - destruct Hrec as (out & -> & Ho). cbn [bind]. unfold good.
    destruct (simplify_io oi out (map g vs)) as (r & -> & Hr); [|eauto].
    eapply nat_indexedoption; [exact Hg|exact Hn|exact Ho|]. cbn [den]. rewrite Hn. exact Hoi.
  - destruct Hrec as (m & ->). exists m. reflexivity.
Qed.

Definition ranked (oi : list Z) (n : Z) : Prop := exists (p : Z -> bool) xs, oi = ranks p 0 xs /\ n = zlen (filter p xs).
Lemma bytemasked_nextcarry' mask vw c ws vs : den c = Some ws -> den (ByteMasked mask vw c) = Some vs ->
  exists nc oi ws', ByteMasked_nextcarry_outindex mask vw = Ok (nc, oi) /\ omap (nthZ ws) nc = Some ws' /\
    omap (fun i => if i <? 0 then Some VNone else nthZ ws' i) oi = Some vs /\ ranked oi (zlen nc).
Proof.
  intros Hc Hd. cbn [den] in Hd. rewrite Hc in Hd. destruct (Z.leb_spec (zlen mask) (zlen ws)); [|discriminate]. injection Hd as <-.
  pose proof (zlen_nonneg mask). unfold ByteMasked_nextcarry_outindex, awkward_ByteMaskedArray_numnull, awkward_ByteMaskedArray_getitem_nextcarry_outindex.
  set (p := fun i => match nthZ mask i with Some m => Bool.eqb (negb (m =? 0)) vw | None => false end).
  rewrite (for_count (zseq 0 (zlen mask)) (fun i => negb (p i))).
  2: rewrite zlen_zseq; lia.
  2: { intros i x k Hx. zpos Hx Hi. unfold p. destruct (rd_in mask i) as (x & -> & ->); [lia|]. reflexivity. }
  cbn [bind]. pose proof (filter_negb p (zseq 0 (zlen mask))) as Hn. rewrite zlen_zseq in Hn by lia. pose proof (zlen_nonneg (filter p (zseq 0 (zlen mask)))).
  rewrite (for_nextcarry (zseq 0 (zlen mask)) p (fun i => i)).
  2: rewrite zlen_zseq; lia.
  2: rewrite zlen_alloc; lia.
  2: rewrite zlen_alloc; lia.
  2: { intros i x k t o Hx. zpos Hx Hi. unfold p. destruct (rd_in mask i) as (x & -> & ->); [lia|]. reflexivity. }
  cbn [bind]. 
  destruct (ranks_den p (fun i => i) (nthZ ws) (zseq 0 (zlen mask)) (map (fun mv => if Bool.eqb (negb (fst mv =? 0)) vw then snd mv else VNone) (combine mask ws))) as (ws' & A & B).
  - rewrite <- (omap_Some_map (fun mv => if Bool.eqb (negb (fst mv =? 0)) vw then snd mv else VNone)).
    assert (E : omap (nthZ (combine mask ws)) (zseq 0 (zlen mask)) = Some (combine mask ws)).
    { rewrite omap_nthZ_zseq by (rewrite ?zlen_combine_le; lia). rewrite slice_full'; [reflexivity|]. rewrite zlen_combine_le; lia. }
    rewrite (omap_comp _ _ _ _ E). apply omap_ext. intros i Hi. apply In_zseq in Hi. rewrite nthZ_combine. unfold p.
    destruct (nthZ_lt mask i) as [m ->]; [lia|]. destruct (nthZ_lt ws i) as [w ->]; [lia|]. cbn [fst snd]. destruct (Bool.eqb _ vw); reflexivity.
  - exists (map (fun i => i) (filter p (zseq 0 (zlen mask)))), (ranks p 0 (zseq 0 (zlen mask))), ws'. split; [reflexivity|]. split; [exact A|]. split; [exact (B [])|]. exists p. eexists. split; [reflexivity|apply zlen_map].
Qed.
Lemma bytemasked_nextcarry mask vw c ws vs : den c = Some ws -> den (ByteMasked mask vw c) = Some vs ->
  exists nc oi ws', ByteMasked_nextcarry_outindex mask vw = Ok (nc, oi) /\ omap (nthZ ws) nc = Some ws' /\
    omap (fun i => if i <? 0 then Some VNone else nthZ ws' i) oi = Some vs.
Proof. intros Hc Hd. destruct (bytemasked_nextcarry' _ _ _ _ _ Hc Hd) as (nc & oi & ws' & A & B & C & _). exists nc, oi, ws'. auto. Qed.
Lemma indexedoption_nextcarry' index c ws vs : den c = Some ws -> den (IndexedOption index c) = Some vs ->
  exists nc oi ws', IndexedOption_nextcarry_outindex index c = Ok (nc, oi) /\ omap (nthZ ws) nc = Some ws' /\
    omap (fun i => if i <? 0 then Some VNone else nthZ ws' i) oi = Some vs /\ ranked oi (zlen nc).
Proof.
  intros Hc Hd. cbn [den] in Hd. rewrite Hc in Hd. pose proof (zlen_nonneg index).
  unfold IndexedOption_nextcarry_outindex, awkward_IndexedArray_numnull, awkward_IndexedArray_getitem_nextcarry_outindex.
  set (p := fun i => 0 <=? i).
  assert (Hr : forall i j, nthZ index i = Some j -> j < zlen ws).
  { intros i j Hj. destruct (omap_nth _ _ _ _ _ Hd Hj) as (_ & v & Hv). destruct (Z.ltb_spec j 0); [pose proof (zlen_nonneg ws); lia|]. apply nthZ_Some in Hv. lia. }
  rewrite (for_count index (fun i => negb (p i))).
  2: reflexivity.
  2: { intros i x k Hx. unfold p. apply rd_Ok in Hx. rewrite Hx. cbn [bind]. destruct (Z.ltb_spec x 0), (Z.leb_spec 0 x); try lia; reflexivity. }
  cbn [bind]. pose proof (filter_negb p index) as Hn. pose proof (zlen_nonneg (filter p index)).
  rewrite (for_nextcarry index p (fun i => i)).
  2: reflexivity.
  2: rewrite zlen_alloc; lia.
  2: rewrite zlen_alloc; lia.
  2: { intros i x k t o Hx. pose proof (Hr _ _ Hx). unfold p. apply rd_Ok in Hx. rewrite Hx. cbn [bind]. rewrite (den_length _ _ Hc).
       destruct (Z.leb_spec (zlen ws) x); [lia|]. destruct (Z.ltb_spec x 0), (Z.leb_spec 0 x); try lia; reflexivity. }
  cbn [bind].
  destruct (ranks_den p (fun i => i) (nthZ ws) index vs) as (ws' & A & B).
  - rewrite <- Hd. apply omap_ext. intros i _. unfold p. destruct (Z.ltb_spec i 0), (Z.leb_spec 0 i); try lia; reflexivity.
  - exists (map (fun i => i) (filter p index)), (ranks p 0 index), ws'. split; [reflexivity|]. split; [exact A|]. split; [exact (B [])|]. exists p. eexists. split; [reflexivity|apply zlen_map].
Qed.
Lemma indexedoption_nextcarry index c ws vs : den c = Some ws -> den (IndexedOption index c) = Some vs ->
  exists nc oi ws', IndexedOption_nextcarry_outindex index c = Ok (nc, oi) /\ omap (nthZ ws) nc = Some ws' /\
    omap (fun i => if i <? 0 then Some VNone else nthZ ws' i) oi = Some vs.
Proof. intros Hc Hd. destruct (indexedoption_nextcarry' _ _ _ _ Hc Hd) as (nc & oi & ws' & A & B & C & _). exists nc, oi, ws'. auto. Qed.

Definition carried_option (c : content) : bool := match c with ByteMasked _ _ _ | BitMasked _ _ _ _ _ | IndexedOption _ _ => true | _ => false end.
Lemma option_path_of_good' lazy rec c vs g (ok : bool) :
  den c = Some vs -> carried_option c = true -> g VNone = VNone ->
  (forall nc next ws, carry (below c) nc lazy = Ok next -> den next = Some ws -> good (rec next) (if ok then Some (map g ws) else None)) ->
  good (option_path_of lazy rec c) (if ok then Some (map g vs) else None).
Proof.
  intros Hd Hk Hg Hrec. destruct c; try discriminate Hk; cbn [option_path_of below] in *.
  - destruct (content_inv1 _ _ Hd) as [ws Hws]. eapply option_path_good'; eauto. apply indexedoption_nextcarry; assumption.
  - destruct (content_inv1 _ _ Hd) as [ws Hws]. eapply option_path_good'; eauto. eapply bytemasked_nextcarry; eassumption.
  - destruct (to_byte_masked _ _ Hd) as (m & vw & c' & E & Hd' & _); [left; eauto 8|]. rewrite E. cbn [bind].
    assert (c' = c) as ->. { cbn [toByteMaskedArray] in E. binv E. mkinv E. congruence. }
    destruct (content_inv1 _ _ Hd') as [ws Hws]. eapply option_path_good'; eauto. eapply bytemasked_nextcarry; eassumption.
Qed.
Lemma option_path_of_good lazy rec c vs g (ok : bool) :
  den c = Some vs -> carried_option c = true -> g VNone = VNone ->
  (forall next ws, form_of next = form_of (below c) -> bound next = bound (below c) -> den next = Some ws -> good (rec next) (if ok then Some (map g ws) else None)) ->
  good (option_path_of lazy rec c) (if ok then Some (map g vs) else None).
Proof.
  intros Hd Hk Hg Hrec. apply option_path_of_good'; try assumption. intros nc next ws E Hn. destruct (carry_same _ _ _ _ E) as [S1 S2]. apply Hrec; assumption.
Qed.

(** ** records and unions *)
Lemma forallb_map {A B} (f : B -> bool) (g : A -> B) l : forallb f (map g l) = forallb (fun x => f (g x)) l.
Proof. induction l; simpl; congruence. Qed.
Lemma mapres_good (f : content -> res content) (g : value -> value) (ok : content -> bool) cs vss :
  omap den cs = Some vss ->
  (forall c vs, In c cs -> den c = Some vs -> good (f c) (if ok c then Some (map g vs) else None)) ->
  if forallb ok cs then exists cs', mapres f cs = Ok cs' /\ omap den cs' = Some (map (map g) vss) /\ zlen cs' = zlen cs
  else exists m, mapres f cs = Err m.
Proof.
  revert vss. induction cs as [|c cs IH]; intros vss H Hf; simpl in H; cbn [forallb mapres].
  - injection H as <-. exists []. repeat split.
  - destruct (den c) as [vs|] eqn:Ec; [|discriminate]. destruct (omap den cs) as [vss'|] eqn:Ecs; [|discriminate]. injection H as <-.
    pose proof (Hf c vs (or_introl eq_refl) Ec) as Hc. destruct (ok c); cbn [andb].
    + destruct Hc as (c' & -> & Hc'). cbn [bind]. specialize (IH _ eq_refl (fun x v Hi => Hf x v (or_intror Hi))). destruct (forallb ok cs).
      * destruct IH as (cs' & -> & A & B). cbn [bind]. exists (c' :: cs'). split; [reflexivity|]. cbn [omap]. rewrite Hc', A, !zlen_cons, B. split; reflexivity.
      * destruct IH as (m & ->). exists m. reflexivity.
    + destruct Hc as (m & ->). exists m. reflexivity.
Qed.
Lemma record_good (r : res (list content)) keys len cs vss vs (g : value -> value) (ok : bool) :
  (forall vals, g (mkrow keys vals) = mkrow keys (map g vals)) -> omap den cs = Some vss -> den (Record keys len cs) = Some vs ->
  (if ok then exists cs', r = Ok cs' /\ omap den cs' = Some (map (map g) vss) /\ zlen cs' = zlen cs else exists m, r = Err m) ->
  good (let* contents := r in mkRecord keys len contents) (if ok then Some (map g vs) else None).
Proof.
  intros Hg Hc Hd H. destruct ok; destruct H as [cs' H].
  - destruct H as (-> & A & B). cbn [bind]. pose proof (nat_record g g keys len cs cs' vss vs Hg Hc A B Hd) as Hd'.
    cbn [good]. exists (Record keys len cs'). split; [|exact Hd']. unfold mkRecord. destruct keys as [ks|]; [|reflexivity].
    cbn [den] in Hd. rewrite Hc in Hd. cbn [keys_ok] in Hd. rewrite B. destruct (zlen ks =? zlen cs); [reflexivity|]. rewrite andb_false_r in Hd. discriminate.
  - rewrite H. exists cs'. reflexivity.
Qed.
Lemma union_good (r : res (list content)) tags index cs vss vs (g : value -> value) (ok : bool) :
  omap den cs = Some vss -> den (Union tags index cs) = Some vs ->
  (if ok then exists cs', r = Ok cs' /\ omap den cs' = Some (map (map g) vss) /\ zlen cs' = zlen cs else exists m, r = Err m) ->
  good (let* contents := r in mkUnion tags index contents) (if ok then Some (map g vs) else None).
Proof.
  intros Hc Hd H. destruct ok; destruct H as [cs' H].
  - destruct H as (-> & A & B). cbn [bind]. pose proof (nat_union g tags index cs cs' vss vs Hc A B Hd) as Hd'.
    cbn [good]. exists (Union tags index cs'). split; [|exact Hd']. unfold mkUnion.
    cbn [den] in Hd. rewrite Hc in Hd. destruct (Z.leb_spec 1 (zlen cs)); [|discriminate]. destruct (Z.leb_spec (zlen tags) (zlen index)); [|discriminate].
    destruct cs'; [change (zlen (@nil content)) with 0 in B; lia|]. destruct (Z.ltb_spec (zlen index) (zlen tags)); [lia|reflexivity].
  - rewrite H. exists cs'. reflexivity.
Qed.

(** ** IndexedArray: project and go on *)
Lemma project_indexed i c vs : den (Indexed i c) = Some vs ->
  exists p, project (Indexed i c) = Ok p /\ den p = Some vs /\ form_of p = form_of c /\ bound p = bound c.
Proof.
  intros Hd. destruct (project_den _ _ Hd eq_refl) as (p & E & Hp). exists p. split; [exact E|]. destruct (indexed_project_same _ _ _ E) as [S1 S2].
  split; [|auto]. rewrite Hp. rewrite (present_all (Indexed i c)); [|apply zlen_nonneg|].
  - rewrite omap_nthZ_zseq by (pose proof (zlen_nonneg vs); lia). now rewrite slice_full.
  - intros k Hk. cbn [missing_at]. rewrite <- (den_length _ _ Hd) in Hk. cbn [length_] in Hk. destruct (nthZ_lt i k) as [x ->]; [lia|]. reflexivity.
Qed.

(** ** the constructors of list nodes succeed on lists *)
Lemma mkListA_den s t c vs : den (ListA s t c) = Some vs -> mkListA s t c = Ok (ListA s t c).
Proof. cbn [den]. unfold mkListA. destruct (den c); [|discriminate]. destruct (Z.leb_spec (zlen s) (zlen t)); [|discriminate]. destruct (Z.ltb_spec (zlen t) (zlen s)); [lia|reflexivity]. Qed.
Lemma mkListOffset_den o c vs : den (ListOffset o c) = Some vs -> mkListOffset o c = Ok (ListOffset o c).
Proof. cbn [den]. unfold mkListOffset. destruct (den c); [|discriminate]. destruct (Z.leb_spec 1 (zlen o)); [|discriminate]. destruct (Z.eqb_spec (zlen o) 0); [lia|reflexivity]. Qed.
Lemma mkRegular_den s z c vs : den (Regular s z c) = Some vs -> mkRegular s z c = Ok (Regular s z c).
Proof.
  intros Hd. pose proof (den_length _ _ Hd) as HL. destruct (regular_inv _ _ _ _ Hd) as (ws & segs & _ & Hs & _).
  unfold mkRegular. destruct (Z.ltb_spec s 0); [lia|]. rewrite HL. pose proof (zlen_nonneg vs). destruct (Z.ltb_spec (zlen vs) 0); [lia|reflexivity].
Qed.

(** ** the depth of an array in which all branches have the same depth *)
Lemma minmax_const d mms acc : (forall mm, In mm mms -> mm = (d, d)) -> fst acc = d /\ snd acc = d ->
  fold_left (fun acc mm => (if fst mm <? fst acc then fst mm else fst acc, if snd acc <? snd mm then snd mm else snd acc)) mms acc = (d, d).
Proof.
  revert acc. induction mms as [|mm mms IH]; intros acc H [H1 H2]; simpl; [destruct acc; simpl in *; congruence|].
  apply IH; [intros; apply H; right; assumption|]. rewrite (H mm (or_introl eq_refl)). simpl. rewrite H1, H2, Z.ltb_irrefl. auto.
Qed.
Lemma uniform_pos f : forall d, uniform_depth f = Some d -> 1 <= d.
Proof.
  revert f. fix IH 1. intros [| | f | f | keys fs | fs] d H; cbn [uniform_depth] in H.
  - injection H as <-; lia.
  - injection H as <-; lia.
  - destruct (uniform_depth f) eqn:E; [|discriminate]. apply IH in E. simpl in H. injection H as <-. lia.
  - eapply IH; eassumption.
  - discriminate.
  - destruct fs as [|f fs]; [discriminate|]. cbn [map] in H. destruct (uniform_depth f) eqn:E; [|discriminate]. apply IH in E.
    destruct (forallb _ _); [|discriminate]. injection H as <-. exact E.
Qed.
Lemma union_uniform fs d : uniform_depth (FUnion fs) = Some d -> exists f fs', fs = f :: fs' /\ forall g, In g fs -> uniform_depth g = Some d.
Proof.
  cbn [uniform_depth]. destruct fs as [|f fs]; [discriminate|]. cbn [map]. destruct (uniform_depth f) as [d0|] eqn:E; [|discriminate].
  destruct (forallb _ _) eqn:Ef; [|discriminate]. intros H; injection H as <-. exists f, fs. split; [reflexivity|].
  intros g [<-|Hg]; [exact E|]. rewrite forallb_forall in Ef. specialize (Ef (uniform_depth g)). rewrite in_map_iff in Ef.
  specialize (Ef (ex_intro _ g (conj eq_refl Hg))). destruct (uniform_depth g) as [d1|]; [|discriminate]. f_equal; lia.
Qed.
Lemma uniform_depths c : forall d, uniform_depth (form_of c) = Some d -> d <= kMaxInt64 -> purelist_depth c = d /\ minmax_depth c = (d, d).
Proof.
  induction c as [|dt data|s t c IH|o c IH|s z c IH|i c IH|i c IH|m v c IH|m v l n c IH|c IH|k n cs IH|t i cs IH] using content_ind'; intros d H Hk; cbn [form_of uniform_depth purelist_depth minmax_depth] in *;
    try (injection H as <-; split; reflexivity); try (apply IH; assumption);
    try (destruct (uniform_depth (form_of c)) as [d0|] eqn:E; [|discriminate]; simpl in H; injection H as <-;
         destruct (IH d0 eq_refl) as [A B]; [lia|]; rewrite A, B; split; [|f_equal]; lia).
  - discriminate.
  - apply union_uniform in H as (f & fs' & E & Hf). destruct cs as [|c cs]; [discriminate|].
    assert (HA : forall x, In x (c :: cs) -> purelist_depth x = d /\ minmax_depth x = (d, d)).
    { intros x Hx. rewrite Forall_forall in IH. apply IH; [exact Hx| |exact Hk]. apply Hf. apply in_map. exact Hx. }
    split.
    + cbn [map]. rewrite (proj1 (HA c (or_introl eq_refl))). replace (forallb _ (map purelist_depth cs)) with true; [reflexivity|].
      symmetry. apply forallb_forall. intros y Hy. apply in_map_iff in Hy as (x & <- & Hx). rewrite (proj1 (HA x (or_intror Hx))). apply Z.eqb_refl.
    + cbn [map fold_left fst snd]. rewrite (proj2 (HA c (or_introl eq_refl))). cbn [fst snd].
      assert (1 <= d). { eapply uniform_pos. apply Hf. left. reflexivity. }
      apply minmax_const.
      * intros mm Hy. apply in_map_iff in Hy as (x & <- & Hx). apply (HA x (or_intror Hx)).
      * cbn [fst snd]. destruct (Z.ltb_spec d kMaxInt64), (Z.ltb_spec 0 d); split; lia.
Qed.
Lemma wrap_uniform c axis d : axis < 0 -> uniform_depth (form_of c) = Some d -> d <= kMaxInt64 ->
  axis_wrap_if_negative c axis = if d + axis <? 0 then Err "axis exceeds the depth of this array" else Ok (d + axis).
Proof.
  intros Ha Hu Hk. destruct (uniform_depths _ _ Hu Hk) as [A B]. unfold axis_wrap_if_negative. rewrite A, B. destruct (Z.leb_spec 0 axis); [lia|].
  rewrite Z.eqb_refl. reflexivity.
Qed.
Lemma wrap_nonneg c axis : 0 <= axis -> axis_wrap_if_negative c axis = Ok axis.
Proof. intros H. unfold axis_wrap_if_negative. destruct (Z.leb_spec 0 axis); [reflexivity|lia]. Qed.

(** ** compacting a list node and going on with its content *)
Lemma compact_deeper w c l c' vs (g G : value -> value) (rec : content -> res content) (ok : bool) :
  den c = Some vs -> list_view c = Some (l, c') -> (forall l, G (VList l) = VList (map g l)) ->
  (forall o c'' ws, toListOffsetArray64 w true c = Ok (ListOffset o c'') -> den c'' = Some ws -> good (rec c'') (if ok then Some (map g ws) else None)) ->
  good (let* compact := toListOffsetArray64 w true c in
        match compact with ListOffset offsets c'' => let* next := rec c'' in mkListOffset offsets next | _ => UB end)
       (if ok then Some (map G vs) else None).
Proof.
  intros Hd Hv HG Hrec. destruct (to_listoffset w true c l c' vs Hd Hv) as (o & c'' & E & Hd' & _). rewrite E. cbn [bind].
  destruct (content_inv1 _ _ Hd') as [ws Hws]. specialize (Hrec o c'' ws E Hws). destruct ok.
  - destruct Hrec as (next & -> & Hn). cbn [bind]. pose proof (nat_listoffset g G _ _ _ _ _ HG Hws Hn Hd') as D.
    rewrite (mkListOffset_den _ _ _ D). eexists. split; [reflexivity|exact D].
  - destruct Hrec as (m & ->). exists m. reflexivity.
Qed.
