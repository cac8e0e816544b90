(** Padding: proofs. *)
From Verif Require Import Base BaseLemmas LoopLemmas Content KCore Core KConvert Convert KOption Option KAxis Axis Combinations KMerge Merge KPad Pad
  SpecArray SpecForm SpecAxis SpecOption SpecMerge SpecPad OmapLemmas PCore PCarry PList PConvert POption PForm PNat PAxis PLocalIndex PTidy PPadK.

Lemma tolistoffset_tidy w c l c' vs o c'' : den c = Some vs -> list_view c = Some (l, c') -> (forall s z x, c <> Regular s z x) -> tidy c ->
  toListOffsetArray64 w true c = Ok (ListOffset o c'') -> tidy c''.
Proof.
  intros Hd Hv Hnr Ht H. destruct (list_inv _ _ _ _ Hd Hv) as (ws & Hw & Hl & ->). set (segs := map (seg ws) l) in *.
  pose proof (compact_den w _ _ _ _ Hd Hv) as Hcd.
  assert (Hb : forall E : broadcast_tooffsets64 c (offsets_of (map zlen segs)) = Ok (ListOffset o c''), tidy c'').
  { intros E. pose proof (nonneg_zlens segs) as Hnn. pose proof (sumZ_nonneg _ Hnn) as Hs0.
    assert (K : forall starts stops a0, combine starts stops = l -> zlen starts <= zlen stops -> tidy c' ->
      awkward_ListArray_broadcast_tooffsets (alloc (sumZ (map zlen segs))) (offsets_of (map zlen segs)) (zlen (map zlen segs) + 1) starts stops (length_ c') = Ok a0 ->
      carry c' a0 true = Ok c'' -> tidy c'').
    { intros starts stops a0 EL Hss Hc' E1 E2. rewrite (den_length _ _ Hw) in E1.
      assert (Hzl : zlen l = zlen starts) by (rewrite <- EL, zlen_combine_le; lia).
      destruct (broadcast_kernel starts stops (map zlen segs) (zlen ws) (alloc (sumZ (map zlen segs))) Hss) as [[_ E3]|[_ (m & E3)]].
      - unfold segs. rewrite !zlen_map. lia.
      - rewrite EL. exact Hl.
      - exact Hnn.
      - apply zlen_alloc; exact Hs0.
      - rewrite E3 in E1. injection E1 as <-. eapply carry_tidy; [exact Hw| |exact Hc'|exact E2]. rewrite EL.
        apply omap_segs. apply forallb_forall. intros ab Hin. rewrite forallb_forall in Hl. apply Hl. eapply In_slice; exact Hin.
      - rewrite E3 in E1. discriminate. }
    destruct c; try discriminate Hv; cbn [broadcast_tooffsets64 tidy list_view] in *; try (exfalso; eapply Hnr; reflexivity); rewrite starts_at_0_ok, zlen_offsets_of, Z.add_simpl_r in E; injection Hv as Hv1 Hv2; subst c'.
    - binv E. rewrite rd_offsets_last in E0. injection E0 as <-. mkinv E. injection E as _ ->.
      refine (K starts stops _ Hv1 _ Ht E1 E2). cbn [den] in Hd. rewrite Hw in Hd. destruct (Z.leb_spec (zlen starts) (zlen stops)); [assumption|discriminate].
    - assert (Ho : 1 <= zlen offsets). { cbn [den] in Hd. rewrite Hw in Hd. destruct (Z.leb_spec 1 (zlen offsets)); [assumption|discriminate]. }
      rewrite make_starts_spec, make_stops_spec in E by exact Ho. cbn [bind] in E. binv E. rewrite rd_offsets_last in E0. injection E0 as <-. mkinv E. injection E as _ ->.
      refine (K _ _ _ _ _ Ht E1 E2); [rewrite combine_starts_stops by exact Ho; exact Hv1|]. rewrite !zlen_slice by lia. lia. }
  unfold toListOffsetArray64 in H. destruct c; try discriminate Hv; try (exfalso; eapply Hnr; reflexivity); cbn [tidy] in Ht.
  - rewrite Hcd in H. cbn [bind] in H. auto.
  - apply bind_Ok in H as (o0 & E0 & H). destruct (w && _).
    + injection H as _ <-. exact Ht.
    + rewrite Hcd in H. cbn [bind] in H. auto.
Qed.

(** ** arrays without empty ListArrays *)
Lemma nonempty_record n k keys len cs vs : nonempty_lists n k (Record keys len cs) vs <->
  forall j x, nth_error cs j = Some x -> if k =? 1 then nonempty_lists n k x (column j vs) else nonempty_lists 0 k x (values x).
Proof.
  cbn [nonempty_lists].
  assert (G : forall i, (fix go (i : nat) (cs : list content) : Prop :=
         match cs with
         | [] => True
         | c' :: cs => (if k =? 1 then nonempty_lists n k c' (column i vs) else nonempty_lists 0 k c' (values c')) /\ go (S i) cs
         end) i cs <-> forall j x, nth_error cs j = Some x -> if k =? 1 then nonempty_lists n k x (column (i + j) vs) else nonempty_lists 0 k x (values x)).
  { induction cs as [|c cs IH]; intros i; [split; [intros _ [|j] x H; discriminate|auto]|]. rewrite IH. split.
    - intros [A B] [|j] x H; cbn [nth_error] in H; [injection H as <-; rewrite Nat.add_0_r; exact A|]. specialize (B j x H). rewrite Nat.add_succ_comm in B. exact B.
    - intros H. split; [specialize (H O c eq_refl); rewrite Nat.add_0_r in H; exact H|]. intros j x Hj. rewrite Nat.add_succ_comm. apply (H (S j) x Hj). }
  apply (G O).
Qed.
Definition covers (us ws : list value) : Prop := forall v, In v us -> v <> VNone -> In v ws.
Lemma covers_column i us ws : covers us ws -> covers (column i us) (column i ws).
Proof.
  intros H v Hv Hn. unfold column in *. apply in_flat_map in Hv as (x & Hx & Hv). apply in_flat_map. exists x. split; [|exact Hv]. apply H; [exact Hx|]. intros ->. destruct Hv.
Qed.
Lemma covers_exists us ws : covers us ws -> (exists v, In v us /\ v <> VNone) -> exists v, In v ws /\ v <> VNone.
Proof. intros H (v & A & B). exists v. split; [apply H|]; assumption. Qed.
Lemma nonempty_mono c : forall n m us ws, (m <= n)%nat -> covers us ws -> nonempty_lists n 1 c us -> nonempty_lists m 1 c ws.
Proof.
  induction c using content_ind'; intros n' m us ws Hm Hc HN; cbn [nonempty_lists] in *; change (1 =? 1) with true in *; cbv iota in *; try exact I.
  - eapply covers_exists; eassumption.
  - destruct HN as [HN|HN]; [left; lia|right]. eapply covers_exists; eassumption.
  - refine (IHc _ _ _ _ _ Hc HN). lia.
  - refine (IHc _ _ _ _ _ Hc HN). lia.
  - refine (IHc _ _ _ _ _ Hc HN). lia.
  - refine (IHc _ _ _ _ _ Hc HN). lia.
  - refine (IHc _ _ _ _ _ Hc HN). lia.
  - apply (nonempty_record m 1 keys len cs ws). intros j x Hj. apply (proj1 (nonempty_record n' 1 keys len cs us)) with (j := j) (x := x) in HN; [|exact Hj].
    change (1 =? 1) with true in *. cbv iota in *. rewrite Forall_forall in H. refine (H x (nth_error_In _ _ Hj) _ _ _ _ Hm _ HN). apply covers_column. exact Hc.
Qed.
Lemma mapres_nth {A B} (f : A -> res B) l l' j y : mapres f l = Ok l' -> nth_error l' j = Some y -> exists x, nth_error l j = Some x /\ f x = Ok y.
Proof.
  revert l' j; induction l as [|a l IH]; intros l' j H Hj; simpl in H; [injection H as <-; destruct j; discriminate|]. binv H. injection H as <-.
  destruct j as [|j]; cbn [nth_error] in *; [injection Hj as <-; eauto|]. eapply IH; eauto.
Qed.

(** deep below: any list of values *)
Lemma range_nonempty_deep c : forall n us a b c', (1 <= n)%nat -> nonempty_lists (S n) 1 c us -> getitem_range_nowrap c a b = Ok c' -> nonempty_lists n 1 c' us.
Proof.
  induction c using content_ind'; intros n' us a b c' Hn HN H0; simpl in H0; binv H0; try (mkinv H0; subst; exact I);
    cbn [nonempty_lists] in HN; change (1 =? 1) with true in HN; cbv iota in HN.
  - mkinv H0; subst. exact HN.
  - mkinv H0; subst. cbn [nonempty_lists]. change (1 =? 1) with true; cbv iota. destruct HN; [lia|right; assumption].
  - mkinv H0; subst. cbn [nonempty_lists]. change (1 =? 1) with true; cbv iota. refine (nonempty_mono _ _ _ _ _ _ _ HN); [lia|intros v; auto].
  - mkinv H0; subst. cbn [nonempty_lists]. change (1 =? 1) with true; cbv iota. refine (nonempty_mono _ _ _ _ _ _ _ HN); [lia|intros v; auto].
  - mkinv H0; subst. cbn [nonempty_lists]. change (1 =? 1) with true; cbv iota. eapply IHc; [|exact HN|eassumption]. lia.
  - mkinv H0; subst. cbn [nonempty_lists]. change (1 =? 1) with true; cbv iota. eapply IHc; [|exact HN|eassumption]. lia.
  - injection H0 as <-. cbn [nonempty_lists]. change (1 =? 1) with true; cbv iota. eapply IHc; [|exact HN|eassumption]. lia.
  - change (nonempty_lists (S n') 1 (Record keys len cs) us) in HN. rewrite nonempty_record in HN. change (1 =? 1) with true in HN; cbv iota in HN.
    destruct cs as [|c0 cs]; [mkinv H0; subst; exact I|]. binv H0.
    + injection H0 as <-. apply nonempty_record. change (1 =? 1) with true; cbv iota. intros j x Hj. refine (nonempty_mono _ _ _ _ _ _ _ (HN j x Hj)); [lia|intros v; auto].
    + mkinv H0; subst. apply nonempty_record. change (1 =? 1) with true; cbv iota. intros j x Hj. destruct (mapres_nth _ _ _ _ _ E Hj) as (x0 & Hx0 & Ex).
      rewrite Forall_forall in H. eapply (H x0 (nth_error_In _ _ Hx0)); [exact Hn|exact (HN j x0 Hx0)|exact Ex].
Qed.
Lemma contiguous_nonempty_deep n us c cry k c' : (1 <= n)%nat -> nonempty_lists (S n) 1 c us -> carry_contiguous c cry k = Ok c' ->
  (k tt = Ok c' -> nonempty_lists n 1 c' us) -> nonempty_lists n 1 c' us.
Proof.
  unfold carry_contiguous; intros Hn HN H Hk. binv H.
  - injection H as <-. refine (nonempty_mono _ _ _ _ _ _ _ HN); [lia|intros v; auto].
  - eapply range_nonempty_deep; eassumption.
  - auto.
Qed.
Lemma carry_nonempty_deep c : forall n us cry c', (1 <= n)%nat -> nonempty_lists (S n) 1 c us -> carry c cry false = Ok c' -> nonempty_lists n 1 c' us.
Proof.
  induction c using content_ind'; intros n' us cry c' Hn HN H0; cbn [carry] in H0; [binv H0; injection H0 as <-; exact I|..];
    (eapply contiguous_nonempty_deep; [exact Hn|exact HN|exact H0|clear H0; intros H0; cbv beta in H0]); binv H0; try (mkinv H0; subst; exact I); try (injection H0 as <-; exact I);
    cbn [nonempty_lists] in HN; change (1 =? 1) with true in HN; cbv iota in HN.
  - mkinv H0; subst. exact HN.
  - mkinv H0; subst. cbn [nonempty_lists]. change (1 =? 1) with true; cbv iota. destruct HN; [lia|assumption].
  - mkinv H0; subst. cbn [nonempty_lists]. change (1 =? 1) with true; cbv iota. refine (nonempty_mono _ _ _ _ _ _ _ HN); [lia|intros v; auto].
  - mkinv H0; subst. cbn [nonempty_lists]. change (1 =? 1) with true; cbv iota. refine (nonempty_mono _ _ _ _ _ _ _ HN); [lia|intros v; auto].
  - mkinv H0; subst. cbn [nonempty_lists]. change (1 =? 1) with true; cbv iota. eapply IHc; [|exact HN|eassumption]. lia.
  - change (nonempty_lists n' 1 c' us).
    refine (contiguous_nonempty_deep n' us (ByteMasked a vw c) cry _ c' Hn HN H0 _). clear H0; intros H0; cbv beta in H0. binv H0. mkinv H0; subst. cbn [nonempty_lists]. change (1 =? 1) with true; cbv iota. eapply IHc; [|exact HN|eassumption]. lia.
  - injection H0 as <-. cbn [nonempty_lists]. change (1 =? 1) with true; cbv iota. eapply IHc; [|exact HN|eassumption]. lia.
  - change (nonempty_lists (S n') 1 (Record keys len cs) us) in HN. rewrite nonempty_record in HN. change (1 =? 1) with true in HN; cbv iota in HN.
    mkinv H0; subst. apply nonempty_record. change (1 =? 1) with true; cbv iota. intros j x Hj. destruct (mapres_nth _ _ _ _ _ E Hj) as (x0 & Hx0 & Ex).
    rewrite Forall_forall in H. eapply (H x0 (nth_error_In _ _ Hx0)); [exact Hn|exact (HN j x0 Hx0)|exact Ex].
Qed.

(** the column of a record is its field *)
Lemma column_mkrow j keys (rows : list (list value)) n : (forall r, In r rows -> zlen r = n) -> keys_ok keys n = true -> (Z.of_nat j < n) ->
  Some (column j (map (mkrow keys) rows)) = omap (fun r => nth_error r j) rows.
Proof.
  intros Hr Hk Hj. induction rows as [|r rows IH]; [reflexivity|]. cbn [map omap]. rewrite <- IH by (intros; apply Hr; right; assumption).
  pose proof (Hr r (or_introl eq_refl)) as Hz. destruct (nth_error r j) as [x|] eqn:E.
  - unfold column at 1. cbn [flat_map]. destruct keys as [ks|]; cbn [mkrow].
    + cbn [keys_ok] in Hk. assert (Hn : nth_error (combine ks r) j <> None). { apply nth_error_Some. rewrite combine_length. unfold zlen in *. lia. }
      destruct (nth_error (combine ks r) j) as [[s y]|] eqn:E2; [|contradiction]. 
      assert (y = x). { clear - E E2. revert ks r E E2. induction j as [|j IHj]; intros [|k0 ks] [|r0 r] E E2; try discriminate; cbn in *; [congruence|eauto]. }
      subst y. reflexivity.
    + rewrite E. reflexivity.
  - exfalso. apply nth_error_None in E. unfold zlen in Hz. lia.
Qed.
Lemma nth_error_nthZ {A} (l : list A) j : nth_error l j = nthZ l (Z.of_nat j).
Proof. unfold nthZ. destruct (Z.ltb_spec (Z.of_nat j) 0); [lia|]. now rewrite Nat2Z.id. Qed.
Lemma column_den keys len cs vs j x us : den (Record keys len cs) = Some vs -> Forall (fun c => length_ c = len) cs -> nth_error cs j = Some x -> den x = Some us -> column j vs = us.
Proof.
  intros Hd Hl Hj Hx. destruct (record_den _ _ _ _ Hd) as (vss & Hvss & Hlen & Hk & Hrows).
  assert (Hxl : zlen us = len). { rewrite <- (den_length _ _ Hx). rewrite Forall_forall in Hl. apply Hl. eapply nth_error_In; exact Hj. }
  assert (Hnj : nthZ vss (Z.of_nat j) = Some us).
  { rewrite nth_error_nthZ in Hj. destruct (omap_nth _ _ _ _ _ Hvss Hj) as [<- _]. exact Hx. }
  rewrite omap_option_map in Hrows. destruct (omap (fun i => omap (fun vs => nthZ vs i) vss) (zseq 0 len)) as [rows|] eqn:Er; [|discriminate]. cbn [option_map] in Hrows. injection Hrows as <-.
  assert (HR : forall r, In r rows -> zlen r = zlen cs).
  { intros r Hr. apply In_nthZ in Hr as (i & Hi). rewrite omap_F in Er. rewrite <- (omap_zlen _ _ _ Hvss).
    assert (exists i', omap (fun vs => nthZ vs i') vss = Some r).
    { clear - Er Hi. revert i Hi. induction Er as [|a y l l' Hh _ IH]; intros i Hi; [rewrite nthZ_nil in Hi; discriminate|]. rewrite nthZ_cons in Hi. destruct (i =? 0); [injection Hi as <-; eauto|eauto]. }
    destruct H as (i' & H). eapply omap_zlen; exact H. }
  assert (Some (column j (map (mkrow keys) rows)) = Some us); [|congruence].
  rewrite (column_mkrow j keys rows (zlen cs) HR Hk) by (rewrite nth_error_nthZ in Hj; apply nthZ_Some in Hj; lia).
  rewrite (omap_comp _ _ _ _ Er). transitivity (omap (nthZ us) (zseq 0 len)).
  - apply omap_ext. intros i Hi. destruct (omap (fun vs => nthZ vs i) vss) as [r|] eqn:Ei.
    + rewrite nth_error_nthZ. destruct (omap_nth _ _ _ _ _ Ei Hnj) as [A _]. symmetry. exact A.
    + exfalso. apply In_zseq in Hi. clear - Er Hi Ei. apply omap_F in Er. assert (HI : In i (zseq 0 len)) by (apply In_zseq; lia). induction Er as [|a y l l' Hh _ IH]; [destruct HI|]. destruct HI as [->|HI]; [congruence|auto].
  - rewrite omap_nthZ_zseq by lia. f_equal. apply slice_full'. lia.
Qed.

(** just below an indexed or option-type node *)
Lemma lists_not_none c l c' vs : den c = Some vs -> list_view c = Some (l, c') -> vs <> [] -> exists v, In v vs /\ v <> VNone.
Proof.
  intros Hd Hv Hne. destruct (list_inv _ _ _ _ Hd Hv) as (ws & _ & _ & ->). destruct l as [|x l]; [contradiction|]. exists (VList (seg ws x)). split; [left; reflexivity|discriminate].
Qed.
Lemma range_nonempty c : forall us vs a b c', den c = Some vs -> 0 <= a <= b -> b <= zlen vs -> tidy c -> covers us (slice a b vs) -> nonempty_lists 1 1 c us ->
  getitem_range_nowrap c a b = Ok c' -> nonempty_lists 0 1 c' (slice a b vs).
Proof.
  induction c using content_ind'; intros us vs a b c' Hd Hab Hb Ht Hc HN H0; destruct (range_den _ _ _ _ Hd Hab Hb) as (cc & Ecc & Dcc); rewrite H0 in Ecc; injection Ecc as <-;
    pose proof (range_tidy _ _ _ _ _ Hd Hab Hb Ht H0) as Ht'; simpl in H0; binv H0; try (mkinv H0; subst; exact I);
    cbn [nonempty_lists] in HN; change (1 =? 1) with true in HN; cbv iota in HN.
  - mkinv H0; subst. cbn [nonempty_lists]. change (1 =? 1) with true; cbv iota. eapply covers_exists; eassumption.
  - mkinv H0; subst. left. lia.
  - mkinv H0; subst. cbn [nonempty_lists]. change (1 =? 1) with true; cbv iota. refine (nonempty_mono _ _ _ _ _ _ Hc HN); lia.
  - mkinv H0; subst. cbn [nonempty_lists]. change (1 =? 1) with true; cbv iota. refine (nonempty_mono _ _ _ _ _ _ Hc HN); lia.
  - mkinv H0; subst. cbn [nonempty_lists]. change (1 =? 1) with true; cbv iota. eapply nonempty_mono; [apply le_n|exact Hc|]. eapply range_nonempty_deep; [|exact HN|eassumption]. lia.
  - mkinv H0; subst. cbn [nonempty_lists]. change (1 =? 1) with true; cbv iota. eapply nonempty_mono; [apply le_n|exact Hc|]. eapply range_nonempty_deep; [|exact HN|eassumption]. lia.
  - injection H0 as <-. cbn [nonempty_lists]. change (1 =? 1) with true; cbv iota. cbn [den] in Hd. eapply IHc; eassumption.
  - change (nonempty_lists 1 1 (Record keys len cs) us) in HN. rewrite nonempty_record in HN. change (1 =? 1) with true in HN; cbv iota in HN.
    destruct cs as [|c0 cs]; [mkinv H0; subst; exact I|]. binv H0.
    + injection H0 as <-. apply nonempty_record. change (1 =? 1) with true; cbv iota. intros j x Hj. refine (nonempty_mono _ _ _ _ _ _ _ (HN j x Hj)); [lia|apply covers_column; exact Hc].
    + mkinv H0; subst. apply nonempty_record. change (1 =? 1) with true; cbv iota. intros j x Hj. destruct (mapres_nth _ _ _ _ _ E Hj) as (x0 & Hx0 & Ex).
      apply tidy_record in Ht as (_ & _ & Hlen & Htall). apply tidy_record in Ht' as (_ & _ & Hlen' & _).
      destruct (record_den _ _ _ _ Hd) as (vss & Hvss & Hlp & Hk & Hrows). pose proof (den_length _ _ Hd) as HL. cbn [length_] in HL.
      destruct (omap_in _ _ _ _ Hvss (nth_error_In _ _ Hx0)) as (us0 & Hus0 & _).
      rewrite Forall_forall in Hlen. pose proof (Hlen x0 (nth_error_In _ _ Hx0)) as Hx0l. rewrite (den_length _ _ Hus0) in Hx0l.
      destruct (range_den x0 us0 a b Hus0 Hab ltac:(lia)) as (x1 & Ex1 & Dx1). rewrite Ex in Ex1. injection Ex1 as <-.
      pose proof (column_den _ _ _ _ _ _ _ Dcc Hlen' Hj Dx1) as HC. rewrite HC.
      rewrite Forall_forall in H, Htall. eapply (H x0 (nth_error_In _ _ Hx0)); [exact Hus0|exact Hab|lia|exact (Htall _ (nth_error_In _ _ Hx0))| |exact (HN j x0 Hx0)|exact Ex].
      rewrite <- HC. apply covers_column. exact Hc.
Qed.
Lemma contiguous_zseq c vs cry vs' k c' : den c = Some vs -> omap (nthZ vs) cry = Some vs' -> carry_contiguous c cry k = Ok c' ->
  (c' = c /\ vs' = vs) \/ (0 <= zlen cry <= zlen vs /\ vs' = slice 0 (zlen cry) vs /\ getitem_range_nowrap c 0 (zlen cry) = Ok c') \/ (cry <> [] /\ k tt = Ok c').
Proof.
  unfold carry_contiguous; intros Hd Ho H. destruct (iscontiguous_spec cry) as (b & Eb & Hb). rewrite Eb in H. cbn [bind] in H. pose proof (zlen_nonneg cry). destruct b.
  - assert (E : cry = zseq 0 (zlen cry)) by (apply Hb; reflexivity).
    assert (Hle : zlen cry <= zlen vs). { destruct (Z.eqb_spec (zlen cry) 0); [pose proof (zlen_nonneg vs); lia|]. pose proof (omap_nthZ_range _ _ _ Ho (zlen cry - 1)) as HR. assert (HI : In (zlen cry - 1) (zseq 0 (zlen cry))) by (apply In_zseq; lia). rewrite <- E in HI. specialize (HR HI). lia. }
    rewrite E, omap_nthZ_zseq in Ho by lia. injection Ho as Ho. binv H.
    + left. injection H as <-. split; [reflexivity|]. rewrite (den_length _ _ Hd) in Heqb. rewrite <- Ho. apply slice_full'. lia.
    + right; left. repeat split; auto; lia.
  - right; right. split; [|exact H]. intros ->. assert (false = true) by (apply Hb; reflexivity). discriminate.
Qed.
Lemma carry_nonempty c : forall us vs cry vs' c', den c = Some vs -> omap (nthZ vs) cry = Some vs' -> tidy c -> covers us vs' -> nonempty_lists 1 1 c us ->
  carry c cry false = Ok c' -> nonempty_lists 0 1 c' vs'.
Proof.
  assert (HZ : forall A (l : list A), l <> [] -> 0 < zlen l) by (intros A [|x l] Hl; [contradiction|rewrite zlen_cons; pose proof (zlen_nonneg l); lia]).
  assert (KK : forall x us vs cry vs' k c', den x = Some vs -> omap (nthZ vs) cry = Some vs' -> tidy x -> covers us vs' -> nonempty_lists 1 1 x us ->
     carry_contiguous x cry k = Ok c' -> (cry <> [] -> k tt = Ok c' -> nonempty_lists 0 1 c' vs') -> nonempty_lists 0 1 c' vs').
  { intros x us vs cry vs' k c' Hd Ho Ht Hc HN HH Hk. destruct (contiguous_zseq _ _ _ _ _ _ Hd Ho HH) as [[-> ->]|[(Hr & -> & Er)|[A B]]].
    - refine (nonempty_mono _ _ _ _ _ _ Hc HN). lia.
    - eapply range_nonempty; [exact Hd|lia|lia|exact Ht|exact Hc|exact HN|exact Er].
    - auto. }
  induction c using content_ind'; intros us vs cry vs' c' Hd Ho Ht Hc HN H0; destruct (carry_den _ _ _ _ false Hd Ho) as (cc & Ecc & Dcc); rewrite H0 in Ecc; injection Ecc as <-;
    pose proof (carry_tidy _ _ _ _ _ _ Hd Ho Ht H0) as Ht'; cbn [carry] in H0; [binv H0; injection H0 as <-; exact I|..];
    (eapply KK; [exact Hd|exact Ho|exact Ht|exact Hc|exact HN|exact H0|clear H0; intros Hne H0; cbv beta in H0]); binv H0; try (mkinv H0; subst; exact I); try (injection H0 as <-; exact I);
    cbn [nonempty_lists] in HN; change (1 =? 1) with true in HN; cbv iota in HN.
  - mkinv H0; subst. cbn [nonempty_lists]. change (1 =? 1) with true; cbv iota. eapply covers_exists; eassumption.
  - mkinv H0; subst. cbn [nonempty_lists]. change (1 =? 1) with true; cbv iota. eapply lists_not_none; [exact Dcc|reflexivity|]. intros ->. pose proof (omap_zlen _ _ _ Ho). specialize (HZ _ _ Hne). change (zlen (@nil value)) with 0 in *. lia.
  - mkinv H0; subst. cbn [nonempty_lists]. change (1 =? 1) with true; cbv iota. refine (nonempty_mono _ _ _ _ _ _ Hc HN); lia.
  - mkinv H0; subst. cbn [nonempty_lists]. change (1 =? 1) with true; cbv iota. refine (nonempty_mono _ _ _ _ _ _ Hc HN); lia.
  - mkinv H0; subst. cbn [nonempty_lists]. change (1 =? 1) with true; cbv iota. eapply nonempty_mono; [apply le_n|exact Hc|]. eapply carry_nonempty_deep; [|exact HN|eassumption]. lia.
  - destruct (bitmasked_den _ _ _ _ _ _ Hd) as [Hbl Hd']. rewrite bytemask0_spec in E by lia. injection E as <-. 
    refine (KK _ us vs cry vs' _ c' Hd' Ho Ht Hc HN H0 _). clear H0; intros _ H0; cbv beta in H0. binv H0. mkinv H0; subst. cbn [nonempty_lists]. change (1 =? 1) with true; cbv iota.
    eapply nonempty_mono; [apply le_n|exact Hc|]. eapply carry_nonempty_deep; [|exact HN|eassumption]. lia.
  - injection H0 as <-. cbn [nonempty_lists]. change (1 =? 1) with true; cbv iota. cbn [den] in Hd. eapply IHc; eassumption.
  - change (nonempty_lists 1 1 (Record keys len cs) us) in HN. rewrite nonempty_record in HN. change (1 =? 1) with true in HN; cbv iota in HN.
    mkinv H0; subst. apply nonempty_record. change (1 =? 1) with true; cbv iota. intros j x Hj. destruct (mapres_nth _ _ _ _ _ E Hj) as (x0 & Hx0 & Ex).
    apply tidy_record in Ht as (_ & _ & Hlen & Htall). apply tidy_record in Ht' as (_ & _ & Hlen' & _).
    destruct (record_den _ _ _ _ Hd) as (vss & Hvss & Hlp & Hk & Hrows). pose proof (den_length _ _ Hd) as HL. cbn [length_] in HL.
    destruct (omap_in _ _ _ _ Hvss (nth_error_In _ _ Hx0)) as (us0 & Hus0 & _).
    rewrite Forall_forall in Hlen. pose proof (Hlen x0 (nth_error_In _ _ Hx0)) as Hx0l. rewrite (den_length _ _ Hus0) in Hx0l.
    destruct (omap_nthZ_total us0 cry) as (us1 & Hus1); [intros i Hi; pose proof (omap_nthZ_range _ _ _ Ho i Hi); lia|].
    destruct (carry_den x0 us0 cry us1 false Hus0 Hus1) as (x1 & Ex1 & Dx1). rewrite Ex in Ex1. injection Ex1 as <-.
    pose proof (column_den _ _ _ _ _ _ _ Dcc Hlen' Hj Dx1) as HC. rewrite HC.
    rewrite Forall_forall in H, Htall. eapply (H x0 (nth_error_In _ _ Hx0)); [exact Hus0|exact Hus1|exact (Htall _ (nth_error_In _ _ Hx0))| |exact (HN j x0 Hx0)|exact Ex].
    rewrite <- HC. apply covers_column. exact Hc.
Qed.

(** ** rpad_axis0 *)
Lemma rpad_axis0_good c vs t clip : 0 <= t -> den c = Some vs -> good (rpad_axis0 c t clip) (Some (padded clip t vs)).
Proof.
  intros Ht Hd. unfold rpad_axis0. rewrite (den_length _ _ Hd). pose proof (zlen_nonneg vs). destruct (negb clip && (t <? zlen vs)) eqn:E.
  - eexists. split; [reflexivity|]. destruct clip; [discriminate|]. cbn [negb andb] in E. rewrite Hd, padded_id by lia. reflexivity.
  - unfold allocz. destruct (Z.ltb_spec t 0); [lia|]. cbn [bind]. unfold awkward_index_rpad_and_clip_axis0.
    replace (if t <? zlen vs then t else zlen vs) with (Z.min t (zlen vs)) by (destruct (Z.ltb_spec t (zlen vs)); lia).
    destruct (fill_row (Z.min t (zlen vs)) t 0 0 [] (alloc t)) as (r & F & L); [lia|reflexivity|rewrite zlen_alloc; lia|]. cbn [app] in F. rewrite zlen_alloc in L by lia.
    rewrite (for_ext 0 _ _ (fun j o => wr o (0 + j) (0 + j))) by (intros; rewrite Z.add_0_l; reflexivity).
    match goal with |- context [for_ 0 (Z.min t (zlen vs)) ?f ?x] => destruct (for_ 0 (Z.min t (zlen vs)) f x) as [o1| |] eqn:Eo end; cbn [bind] in F; try discriminate. cbn [bind].
    rewrite (for_ext _ _ _ (fun j o => wr o (0 + j) (-1))) by (intros; rewrite Z.add_0_l; reflexivity). rewrite F. cbn [bind]. rewrite (zlen_0 r), app_nil_r by lia.
    destruct (simplify_io (row0 (Z.min t (zlen vs)) t 0) c (padded clip t vs)) as (c' & -> & Hc'); [|eexists; split; [reflexivity|exact Hc']].
    cbn [den]. rewrite Hd. pose proof (prow_den clip t (0, zlen vs) vs Ht) as P. unfold prow, seg, diff in P. cbn [fst snd] in P. rewrite slice_full in P. rewrite Z.sub_0_r in P.
    replace (if clip then Z.min t (zlen vs) else zlen vs) with (Z.min t (zlen vs)) in P by (destruct clip; cbn [negb andb] in E; lia). apply P.
    unfold sub_ok. cbn [fst snd]. destruct (0 =? zlen vs); [reflexivity|]. cbn [orb]. lia.
Qed.

(** ** option-type nodes *)
Lemma ranks_kernel (mask : list Z) n out : n = zlen mask -> zlen out = n ->
  awkward_IndexedOptionArray_rpad_and_clip_mask_axis1 out mask n = Ok (ranks (fun m => m =? 0) 0 mask).
Proof.
  intros -> Ho. unfold awkward_IndexedOptionArray_rpad_and_clip_mask_axis1.
  match goal with |- bind (for_ 0 _ ?body ?s) _ = _ => destruct (for_list mask (fun d st => exists r, st = (zlen (filter (fun m => m =? 0) d), ranks (fun m => m =? 0) 0 d ++ r) /\ zlen d + zlen r = zlen mask) body s) as (st & E & r & -> & H) end.
  - exists out. split; [reflexivity|]. change (zlen (@nil Z)) with 0. lia.
  - intros d m r st E (r1 & -> & H). assert (N : rd mask (zlen d) = Ok m) by (apply rd_Ok; rewrite <- E; apply nthZ_mid). rewrite N. cbn [bind].
    assert (Hr : 0 < zlen r1). { pose proof (zlen_nonneg r). apply (f_equal zlen) in E. rewrite zlen_app, zlen_cons in E. lia. }
    rewrite filter_app, ranks_app. cbn [filter ranks]. destruct (Z.eqb_spec m 0); cbn [negb].
    + destruct (wr_push' (ranks (fun m => m =? 0) 0 d) r1 (zlen (filter (fun m => m =? 0) d))) as (r2 & W & L); [lia|]. rewrite zlen_ranks in W. rewrite W. cbn [bind].
      eexists. split; [reflexivity|]. exists r2. rewrite !zlen_app. change (zlen [m]) with 1. split; [|lia]. reflexivity.
    + destruct (wr_push' (ranks (fun m => m =? 0) 0 d) r1 (-1)) as (r2 & W & L); [lia|]. rewrite zlen_ranks in W. rewrite W. cbn [bind].
      eexists. split; [reflexivity|]. exists r2. rewrite app_nil_r, !zlen_app. change (zlen [m]) with 1. split; [|lia]. reflexivity.
  - rewrite E. cbn [bind snd]. rewrite (zlen_0 r), app_nil_r by lia. reflexivity.
Qed.
Lemma F2_flip {X Y} (R : X -> Y -> Prop) xs ys : Forall2 R xs ys -> Forall2 (fun y x => R x y) ys xs.
Proof. induction 1; constructor; assumption. Qed.
Lemma ranks_ext {X Y} (p : X -> bool) (q : Y -> bool) xs ys k : Forall2 (fun x y => p x = q y) xs ys -> ranks p k xs = ranks q k ys.
Proof. intros H. revert k. induction H as [|x y xs ys E _ IH]; intros k; cbn [ranks]; [reflexivity|]. rewrite E, !IH. reflexivity. Qed.
Lemma missing_none c vs i : den c = Some vs -> carried_option c = true -> 0 <= i < zlen vs -> missing_at c i = Some true -> nthZ vs i = Some VNone.
Proof.
  intros Hd Hk Hi Hm. destruct c; try discriminate Hk; cbn [missing_at] in Hm.
  - cbn [den] in Hd. destruct (den c) as [ws|]; [|discriminate]. destruct (nthZ index i) as [x|] eqn:E; [|discriminate]. cbn [option_map] in Hm. injection Hm as Hm.
    rewrite (indexed_nth index ws vs true Hd i x E). cbn [andb]. rewrite Hm. reflexivity.
  - cbn [den] in Hd. destruct (den c) as [ws|]; [|discriminate]. destruct (zlen mask <=? zlen ws) eqn:El; [|discriminate]. injection Hd as <-. destruct (nthZ mask i) as [x|] eqn:E; [|discriminate].
    rewrite zlen_map, zlen_combine_le in Hi by lia. rewrite nthZ_map, nthZ_combine, E. destruct (nthZ_lt ws i) as [w ->]; [lia|]. cbn [option_map fst snd] in *. injection Hm as Hm. destruct (Bool.eqb _ _); [discriminate|reflexivity].
  - pose proof (den_length _ _ Hd) as HL. cbn [length_] in HL. cbn [den] in Hd. destruct (den c) as [ws|]; [|discriminate]. destruct (_ && _) in Hd; [|discriminate].
    assert (N : nthZ (zseq 0 length) i = Some i) by (rewrite nthZ_zseq by lia; f_equal; lia). destruct (omap_nth _ _ _ _ _ Hd N) as [A _]. rewrite <- A.
    destruct (omap_nth _ _ _ _ _ Hd N) as (_ & v & Hv). destruct (mask_bit mask lsb_order i) as [b|]; [|discriminate]. cbn [option_map] in Hm. injection Hm as Hm. destruct (nthZ ws i); [|discriminate]. destruct (Bool.eqb b valid_when); [discriminate|reflexivity].
Qed.
Lemma option_rpad_good rec c vs g (ok : bool) : den c = Some vs -> carried_option c = true -> needs_simplify c = true -> g VNone = VNone ->
  (forall p ws, project c = Ok p -> den p = Some ws -> covers vs ws -> good (rec p) (if ok then Some (map g ws) else None)) ->
  good (option_rpad rec c) (if ok then Some (map g vs) else None).
Proof.
  intros Hd Hk Hns Hg Hrec. unfold option_rpad. pose proof (zlen_nonneg vs) as Hv0. destruct (bytemask_spec _ _ Hd Hns) as (m & -> & Hml & Hm). cbn [bind].
  rewrite ranks_kernel by (try reflexivity; rewrite zlen_alloc; lia). cbn [bind].
  destruct (project_den _ _ Hd Hns) as (p & Ep & Hp). rewrite Ep. cbn [bind].
  set (pr := fun i => match missing_at c i with Some false => true | _ => false end).
  assert (Hpr : forall i, 0 <= i < zlen vs -> missing_at c i = Some (negb (pr i))).
  { intros i Hi. unfold pr. rewrite <- (Hm i Hi). destruct (nthZ_lt m i) as [x ->]; [lia|]. cbn [option_map]. destruct (negb (x =? 0)); reflexivity. }
  destruct (ranks_den pr (fun i => i) (nthZ vs) (zseq 0 (zlen vs)) vs) as (ws & A & B).
  { transitivity (omap (nthZ vs) (zseq 0 (zlen vs))).
    - apply omap_ext. intros i Hi. apply In_zseq in Hi. destruct (pr i) eqn:E; [reflexivity|]. symmetry. apply missing_none with (c := c); try assumption. rewrite Hpr by assumption. rewrite E. reflexivity.
    - rewrite omap_nthZ_zseq by lia. now rewrite slice_full. }
  rewrite map_id in A. fold (present c (zlen vs)) in A. unfold present in Hp, A. fold pr in Hp, A. rewrite A in Hp. specialize (B []). cbn [app] in B. change (zlen (@nil value)) with 0 in B.
  assert (ER : ranks (fun x => x =? 0) 0 m = ranks pr 0 (zseq 0 (zlen vs))).
  { apply ranks_ext.
    assert (E : Forall2 (fun x y => nthZ m y = Some x) m (zseq 0 (zlen m))).
    { pose proof (omap_nthZ_zseq m 0 (zlen m)) as O. rewrite slice_full in O. specialize (O ltac:(lia) ltac:(lia)). apply omap_F in O. apply F2_flip. exact O. }
    rewrite <- Hml. assert (E' : forall y, In y (zseq 0 (zlen m)) -> 0 <= y < zlen vs) by (intros y Hy; apply In_zseq in Hy; lia).
    revert E'. generalize dependent (zseq 0 (zlen m)). intros l E. induction E as [|x y xs ys Exy _ IH]; intros E'; constructor.
    - pose proof (Hm y (E' y (or_introl eq_refl))) as M. rewrite Exy in M. cbn [option_map] in M. rewrite Hpr in M by (apply E'; left; reflexivity). injection M as M. destruct (x =? 0), (pr y); cbn in M; congruence.
    - apply IH. intros; apply E'; right; assumption. }
  rewrite ER.
  assert (HC : covers vs ws).
  { intros v Hin Hn. apply omap_F in B. clear - B Hin Hn. induction B as [|x y xs ys E _ IH]; [destruct Hin|]. destruct Hin as [->|Hin]; [|auto]. destruct (x <? 0); [congruence|]. eapply nthZ_In; exact E. }
  specialize (Hrec p ws Ep Hp HC). destruct ok.
  - destruct Hrec as (next & -> & Hn). cbn [bind].
    destruct (simplify_io (ranks pr 0 (zseq 0 (zlen vs))) next (map g vs)) as (c' & -> & Hc'); [|eexists; split; [reflexivity|exact Hc']].
    eapply nat_indexedoption; [exact Hg|exact Hp|exact Hn|]. cbn [den]. rewrite Hp. exact B.
  - destruct Hrec as (msg & ->). exists msg. reflexivity.
Qed.

Lemma nat_bytemasked (g : value -> value) mask vw c c' ws vs : g VNone = VNone -> den c = Some ws -> den c' = Some (map g ws) -> den (ByteMasked mask vw c) = Some vs ->
  den (ByteMasked mask vw c') = Some (map g vs) /\ mkByteMasked mask vw c' = Ok (ByteMasked mask vw c').
Proof.
  intros HG Hc Hc' H. unfold mkByteMasked. rewrite (den_length _ _ Hc'). cbn [den] in *. rewrite Hc in H. rewrite Hc', !zlen_map. destruct (Z.leb_spec (zlen mask) (zlen ws)); [|discriminate]. injection H as <-. split.
  - f_equal. rewrite map_map. rewrite <- (map_id mask) at 1. clear - HG. revert ws. induction mask as [|m mask IH]; intros [|w ws]; try reflexivity. cbn [map combine]. rewrite IH. cbn [fst snd]. destruct (Bool.eqb _ vw); rewrite ?HG; reflexivity.
  - destruct (Z.ltb_spec (zlen ws) (zlen mask)); [lia|reflexivity].
Qed.
Lemma minlength_const cs n : cs <> [] -> 0 <= n -> Forall (fun c => length_ c = n) cs -> minlength cs = n.
Proof.
  intros Hne Hn HF. destruct cs as [|c cs]; [contradiction|]. unfold minlength. inversion HF as [|? ? Hc Hcs]; subst. cbn [fold_left]. change (-1 <? 0) with true. cbn [orb].
  clear Hne HF. remember (length_ c) as n. clear Heqn c. induction Hcs as [|x cs Hx _ IH]; [reflexivity|]. cbn [fold_left]. rewrite Hx. destruct ((n <? 0) || (n <? n)); exact IH.
Qed.

Lemma covers_refl us : covers us us. Proof. intros v H _. exact H. Qed.
Lemma taken_facts clip c p us ws : taken c p -> den p = Some ws -> tidy c -> covers us ws -> (clip = true \/ nonempty_lists 1 1 c us) ->
  tidy p /\ form_of p = form_of c /\ bound p = bound c /\ (clip = true \/ nonempty_lists 0 1 p ws).
Proof.
  intros (cry & wb & ws' & Hb & Ho & Hc) Hp Ht HC HN. destruct (carry_same _ _ _ _ Hc) as [HF HB].
  destruct (carry_den c wb cry ws' false Hb Ho) as (p' & E & Hp'). rewrite E in Hc. injection Hc as ->. rewrite Hp' in Hp. injection Hp as ->.
  split; [exact (carry_tidy _ _ _ _ _ _ Hb Ho Ht E)|]. split; [exact HF|]. split; [exact HB|]. destruct HN as [HN|HN]; [left; exact HN|right].
  exact (carry_nonempty _ _ _ _ _ _ Hb Ho Ht HC HN E).
Qed.
Lemma padded_clip t l : zlen l <= t -> padded true t l = padded false t l.
Proof. intros H. unfold padded. pose proof (zlen_nonneg l). apply slice_full'. rewrite zlen_app, zlen_repeat. lia. Qed.

Lemma lift_none (f : list value -> value) k : lift f k VNone = VNone. Proof. reflexivity. Qed.
Lemma omap_cons_inv {X Y} (f : X -> option Y) x xs ys : omap f (x :: xs) = Some ys -> exists y ys', f x = Some y /\ omap f xs = Some ys' /\ ys = y :: ys'.
Proof. cbn [omap]. destruct (f x) as [y|]; [|discriminate]. destruct (omap f xs) as [ys'|]; [|discriminate]. intros [= <-]. eauto. Qed.

Section Rpad.
Variable is64 : content -> bool.
Variable rc : Z -> Z.
Variable narrow : content -> bool.
Variable refeq : content -> content -> bool.
Variable mfuel : nat.
Variable clip : bool.
Variable t : Z.
Hypothesis Ht : 0 <= t.

Lemma rpad_good fuel : forall c axis depth vs, (need c <= fuel)%nat -> den c = Some vs -> 0 <= depth < axis -> union_free (form_of c) = true -> tidy c ->
  (clip = true \/ nonempty_lists 0 (axis - depth) c vs) ->
  good (rpad is64 rc narrow refeq mfuel clip fuel c t axis depth)
       (if has_lists (axis - depth) (form_of c) then Some (map (lift (pad clip t) (axis - depth)) vs) else None).
Proof.
  induction fuel as [|fuel IH]; intros c axis depth vs Hf Hd Ha Hu Hti HN.
  { pose proof (need_pos c). lia. }
  assert (Hw : axis_wrap_if_negative c axis = Ok axis) by (apply wrap_nonneg; lia).
  (* a ListOffsetArray *)
  assert (LO : forall o x, den (ListOffset o x) = Some vs -> (bound x <= fuel)%nat -> union_free (form_of x) = true -> tidy x ->
     (clip = true \/ axis = depth + 1 \/ nonempty_lists 0 (axis - depth - 1) x (values x)) ->
     good (if axis =? depth + 1 then if clip then ListOffsetArray_rpad_and_clip o x t else ListOffsetArray_rpad o x t
           else let* next := rpad is64 rc narrow refeq mfuel clip fuel x t axis (depth + 1) in mkListOffset o next)
          (if (if axis - depth =? 1 then true else has_lists (axis - depth - 1) (form_of x)) then Some (map (lift (pad clip t) (axis - depth)) vs) else None)).
  { intros o x Dx Bx Ux Tx Nx. destruct (Z.eqb_spec axis (depth + 1)) as [->|Hne].
    - replace (depth + 1 - depth) with 1 by lia. rewrite Z.eqb_refl. destruct clip; [apply listoffset_clip_good|apply listoffset_rpad_good]; assumption.
    - destruct (Z.eqb_spec (axis - depth) 1); [lia|]. destruct (content_inv1 _ _ Dx) as [ws Hws]. pose proof (need_bound x).
      assert (G : good (rpad is64 rc narrow refeq mfuel clip fuel x t axis (depth + 1)) (if has_lists (axis - (depth + 1)) (form_of x) then Some (map (lift (pad clip t) (axis - (depth + 1))) ws) else None)).
      { apply IH; try assumption; try lia. replace (axis - (depth + 1)) with (axis - depth - 1) by lia. destruct Nx as [Nx|[Nx|Nx]]; [left; exact Nx|lia|right]. unfold values in Nx. cbn [below] in Hws. rewrite Hws in Nx. exact Nx. }
      replace (axis - (depth + 1)) with (axis - depth - 1) in G by lia. destruct (has_lists (axis - depth - 1) (form_of x)).
      + destruct G as (c' & -> & Hc'). cbn [bind].
        pose proof (nat_listoffset (lift (pad clip t) (axis - depth - 1)) (lift (pad clip t) (axis - depth)) _ _ _ _ _ (fun l => lift_list (pad clip t) (axis - depth) l ltac:(lia)) Hws Hc' Dx) as D.
        rewrite (mkListOffset_den _ _ _ D). eexists. split; [reflexivity|exact D].
      + destruct G as (m & ->). exists m. reflexivity. }
  (* an option-type node that needs projecting *)
  assert (OP : forall c0, den c0 = Some vs -> carried_option c0 = true -> (bound (below c0) <= fuel)%nat -> tidy (below c0) -> union_free (form_of (below c0)) = true ->
     axis = depth + 1 -> (clip = true \/ nonempty_lists 1 1 (below c0) vs) ->
     good (option_rpad (fun p => rpad is64 rc narrow refeq mfuel clip fuel p t axis depth) c0)
          (if has_lists (axis - depth) (form_of (below c0)) then Some (map (lift (pad clip t) (axis - depth)) vs) else None)).
  { intros c0 D0 K0 B0 T0 U0 -> N0. replace (depth + 1 - depth) with 1 by lia. apply option_rpad_good; try assumption; try reflexivity; [destruct c0; try discriminate; reflexivity|].
    intros p ws Ep Hp HC. assert (TK : taken (below c0) p).
    { destruct (project_taken c0 vs p D0 ltac:(destruct c0; try discriminate; reflexivity) Ep) as [->|TK]; [discriminate|exact TK]. }
    destruct (taken_facts clip _ _ _ _ TK Hp T0 HC N0) as (T1 & F1 & B1 & N1). pose proof (IH p (depth + 1) depth ws) as G. replace (depth + 1 - depth) with 1 in G by lia. rewrite F1 in G.
    apply G; try assumption; try lia. pose proof (need_bound p). lia. }
  assert (MK : forall m vw x, den (ByteMasked m vw x) = Some vs -> (bound x <= fuel)%nat -> tidy x -> union_free (form_of x) = true ->
     (clip = true \/ nonempty_lists 0 (axis - depth) (ByteMasked m vw x) vs) ->
     good (if axis =? depth + 1 then option_rpad (fun p => rpad is64 rc narrow refeq mfuel clip fuel p t axis depth) (ByteMasked m vw x)
           else let* next := rpad is64 rc narrow refeq mfuel clip fuel x t axis depth in mkByteMasked m vw next)
          (if has_lists (axis - depth) (form_of x) then Some (map (lift (pad clip t) (axis - depth)) vs) else None)).
  { intros m vw x Dx Bx Tx Ux Nx. destruct (Z.eqb_spec axis (depth + 1)) as [->|Hne].
    - apply (OP (ByteMasked m vw x)); try assumption; try reflexivity. destruct Nx as [Nx|Nx]; [left; exact Nx|right]. replace (depth + 1 - depth) with 1 in Nx by lia. exact Nx.
    - destruct (content_inv1 _ _ Dx) as [ws Hws]. cbn [below] in Hws. pose proof (need_bound x).
      assert (G : good (rpad is64 rc narrow refeq mfuel clip fuel x t axis depth) (if has_lists (axis - depth) (form_of x) then Some (map (lift (pad clip t) (axis - depth)) ws) else None)).
      { apply IH; try assumption; try lia. destruct Nx as [Nx|Nx]; [left; exact Nx|right]. cbn [nonempty_lists] in Nx. destruct (Z.eqb_spec (axis - depth) 1); [lia|]. unfold values in Nx. rewrite Hws in Nx. exact Nx. }
      destruct (has_lists (axis - depth) (form_of x)).
      + destruct G as (c' & -> & Hc'). cbn [bind]. destruct (nat_bytemasked (lift (pad clip t) (axis - depth)) m vw x c' ws vs (lift_none _ _) Hws Hc' Dx) as [D ->]. eexists. split; [reflexivity|exact D].
      + destruct G as (e & ->). exists e. reflexivity. }
  destruct c; cbn [rpad]; rewrite Hw; cbn [bind]; (destruct (Z.eqb_spec axis depth); [lia|]); cbn [form_of has_lists negb]; cbn [need bound] in Hf.
  - eexists. reflexivity.
  - eexists. reflexivity.
  - (* ListA *) destruct clip eqn:Ecl.
    + destruct (to_listoffset (is64 (ListA starts stops c)) true _ _ _ _ Hd eq_refl) as (o & c'' & E & D & _). rewrite E. cbn [bind].
      destruct (tolistoffset_same _ _ _ _ E) as (o' & x & Eq & S1 & S2). injection Eq as <- <-. cbn [form_of bound] in S1, S2. injection S1 as S1. injection S2 as S2.
      destruct (Z.eqb_spec axis depth); [lia|]. rewrite <- S1. apply LO; [exact D|lia|rewrite S1; exact Hu| |left; reflexivity].
      eapply tolistoffset_tidy; [exact Hd|reflexivity|discriminate|exact Hti|exact E].
    + destruct HN as [HN|HN]; [discriminate|]. cbn [nonempty_lists] in HN. destruct (Z.eqb_spec axis (depth + 1)) as [->|Hne].
      * replace (depth + 1 - depth) with 1 in * by lia. rewrite Z.eqb_refl in *. apply lista_rpad_good; [assumption|exact Hd|]. destruct HN as (v & Hv & _). intros ->. destruct Hv.
      * destruct (Z.eqb_spec (axis - depth) 1); [lia|]. destruct (content_inv1 _ _ Hd) as [ws Hws]. cbn [below] in Hws. pose proof (need_bound c).
        assert (G : good (rpad is64 rc narrow refeq mfuel false fuel c t axis (depth + 1)) (if has_lists (axis - (depth + 1)) (form_of c) then Some (map (lift (pad false t) (axis - (depth + 1))) ws) else None)).
        { apply IH; try assumption; try lia. replace (axis - (depth + 1)) with (axis - depth - 1) by lia. right. unfold values in HN. rewrite Hws in HN. exact HN. }
        replace (axis - (depth + 1)) with (axis - depth - 1) in G by lia. destruct (has_lists (axis - depth - 1) (form_of c)).
        -- destruct G as (c' & -> & Hc'). cbn [bind].
           pose proof (nat_lista (lift (pad false t) (axis - depth - 1)) (lift (pad false t) (axis - depth)) _ _ _ _ _ _ (fun l => lift_list (pad false t) (axis - depth) l ltac:(lia)) Hws Hc' Hd) as D.
           rewrite (mkListA_den _ _ _ _ D). eexists. split; [reflexivity|exact D].
        -- destruct G as (m & ->). exists m. reflexivity.
  - (* ListOffset *) apply LO; [exact Hd|lia|exact Hu|exact Hti|]. destruct HN as [HN|HN]; [left; exact HN|right]. cbn [nonempty_lists] in HN. destruct (Z.eqb_spec (axis - depth) 1); [left; lia|right; exact HN].
  - (* Regular *) destruct (Z.eqb_spec axis (depth + 1)) as [->|Hne].
    + replace (depth + 1 - depth) with 1 by lia. rewrite Z.eqb_refl.
      assert (HL : forall v, In v vs -> exists l, v = VList l /\ zlen l = size).
      { destruct (regular_inv _ _ _ _ Hd) as (ws & segs & Hws & Hs & -> & Hl & _). intros v Hv. apply in_map_iff in Hv as (l & <- & Hl'). exists l. split; [reflexivity|apply Hl; exact Hl']. }
      destruct (negb clip && (t <? size)) eqn:Eb.
      * destruct clip; [discriminate|]. cbn [negb andb] in Eb. eexists. split; [reflexivity|]. rewrite Hd. f_equal. symmetry. rewrite <- (map_id vs) at 2. apply map_ext_in. intros v Hv.
        destruct (HL v Hv) as (l & -> & Hl). cbn [lift]. change (1 =? 1) with true. cbv iota. unfold pad. rewrite padded_id by lia. reflexivity.
      * replace (map (lift (pad clip t) 1) vs) with (map (lift (pad true t) 1) vs); [apply regular_clip_good; assumption|]. destruct clip; [reflexivity|]. cbn [negb andb] in Eb. apply map_ext_in. intros v Hv.
        destruct (HL v Hv) as (l & -> & Hl). cbn [lift]. change (1 =? 1) with true. cbv iota. unfold pad. rewrite padded_clip by lia. reflexivity.
    + destruct (Z.eqb_spec (axis - depth) 1); [lia|]. rewrite (den_length _ _ Hd). destruct (regular_inv _ _ _ _ Hd) as (ws & segs & Hws & Hs & -> & Hl & Hi & Hz & Hn). rewrite zlen_map.
      pose proof (need_bound c).
      assert (G : good (rpad is64 rc narrow refeq mfuel clip fuel c t axis (depth + 1)) (if has_lists (axis - (depth + 1)) (form_of c) then Some (map (lift (pad clip t) (axis - (depth + 1))) ws) else None)).
      { apply IH; try assumption; try lia. replace (axis - (depth + 1)) with (axis - depth - 1) by lia. destruct HN as [HN|HN]; [left; exact HN|right]. cbn [nonempty_lists] in HN. destruct (Z.eqb_spec (axis - depth) 1); [lia|]. unfold values in HN. rewrite Hws in HN. exact HN. }
      replace (axis - (depth + 1)) with (axis - depth - 1) in G by lia. destruct (has_lists (axis - depth - 1) (form_of c)).
      * destruct G as (c' & -> & Hc'). cbn [bind].
        pose proof (nat_regular (lift (pad clip t) (axis - depth - 1)) (lift (pad clip t) (axis - depth)) size zeros_length (zlen segs) _ _ _ _ (fun l => lift_list (pad clip t) (axis - depth) l ltac:(lia)) (fun E => eq_sym (Hz E)) Hws Hc' Hd) as D.
        rewrite (mkRegular_den _ _ _ _ D). eexists. split; [reflexivity|exact D].
      * destruct G as (m & ->). exists m. reflexivity.
  - (* Indexed *) cbn [nonempty_lists] in HN. cbn [tidy form_of union_free] in Hti, Hu. destruct (Z.eqb_spec axis (depth + 1)) as [->|Hne].
    + replace (depth + 1 - depth) with 1 in * by lia. rewrite Z.eqb_refl in HN. destruct (project_indexed _ _ _ Hd) as (p & E & Hp & _). rewrite E. cbn [bind].
      assert (TK : taken c p) by (destruct (project_taken _ _ _ Hd eq_refl E) as [X|X]; [discriminate|exact X]).
      destruct (taken_facts clip _ _ _ _ TK Hp Hti (covers_refl _) HN) as (T1 & F1 & B1 & N1). pose proof (IH p (depth + 1) depth vs) as G. replace (depth + 1 - depth) with 1 in G by lia. rewrite F1 in G.
      apply G; try assumption; try lia. pose proof (project_need _ _ _ E) as PN. cbn [need bound] in PN. lia.
    + destruct (Z.eqb_spec (axis - depth) 1); [lia|]. destruct (content_inv1 _ _ Hd) as [ws Hws]. cbn [below] in Hws.
      assert (G : good (rpad is64 rc narrow refeq mfuel clip fuel c t axis depth) (if has_lists (axis - depth) (form_of c) then Some (map (lift (pad clip t) (axis - depth)) ws) else None)).
      { apply IH; try assumption; try lia; [destruct c; cbn [need bound] in *; try lia|]. destruct HN as [HN|HN]; [left; exact HN|right]. unfold values in HN. rewrite Hws in HN. exact HN. }
      destruct (has_lists (axis - depth) (form_of c)).
      * destruct G as (c' & -> & Hc'). cbn [bind]. eexists. split; [reflexivity|]. eapply nat_indexed; [exact Hws|exact Hc'|exact Hd].
      * destruct G as (e & ->). exists e. reflexivity.
  - (* IndexedOption *) cbn [nonempty_lists] in HN. cbn [tidy form_of union_free] in Hti, Hu. destruct (Z.eqb_spec axis (depth + 1)) as [->|Hne].
    + apply (OP (IndexedOption index c)); try assumption; try reflexivity; [cbn [below]; lia|]. replace (depth + 1 - depth) with 1 in HN by lia. exact HN.
    + destruct (Z.eqb_spec (axis - depth) 1); [lia|]. destruct (content_inv1 _ _ Hd) as [ws Hws]. cbn [below] in Hws. pose proof (need_bound c).
      assert (G : good (rpad is64 rc narrow refeq mfuel clip fuel c t axis depth) (if has_lists (axis - depth) (form_of c) then Some (map (lift (pad clip t) (axis - depth)) ws) else None)).
      { apply IH; try assumption; try lia. destruct HN as [HN|HN]; [left; exact HN|right]. unfold values in HN. rewrite Hws in HN. exact HN. }
      destruct (has_lists (axis - depth) (form_of c)).
      * destruct G as (c' & -> & Hc'). cbn [bind]. eexists. split; [reflexivity|]. eapply nat_indexedoption; [apply lift_none|exact Hws|exact Hc'|exact Hd].
      * destruct G as (e & ->). exists e. reflexivity.
  - (* ByteMasked *) apply MK; try assumption. lia.
  - (* BitMasked *) destruct (to_byte_masked _ _ Hd ltac:(left; eauto 6)) as (m & vw & x & E & D & _). rewrite E. cbn [bind]. destruct (Z.eqb_spec axis depth); [lia|].
    assert (x = c). { cbn [toByteMaskedArray] in E. binv E. unfold mkByteMasked in E. destruct (_ <? _) in E; [discriminate|]. injection E as <- <- <-. reflexivity. }
    subst x. apply MK; try assumption. lia.
  - (* Unmasked *) cbn [nonempty_lists] in HN. cbn [tidy form_of union_free den] in Hti, Hu, Hd. pose proof (need_bound c).
    assert (G : good (rpad is64 rc narrow refeq mfuel clip fuel c t axis depth) (if has_lists (axis - depth) (form_of c) then Some (map (lift (pad clip t) (axis - depth)) vs) else None)).
    { apply IH; try assumption; try lia. destruct HN as [HN|HN]; [left; exact HN|right]. unfold values in HN. rewrite Hd in HN. destruct (axis - depth =? 1); exact HN. }
    destruct (Z.eqb_spec axis (depth + 1)); [exact G|]. destruct (has_lists (axis - depth) (form_of c)).
    + destruct G as (c' & -> & Hc'). cbn [bind]. eexists. split; [reflexivity|exact Hc'].
    + destruct G as (e & ->). exists e. reflexivity.
  - (* Record *) destruct (record_inv _ _ _ _ Hd) as [vss Hvss]. rewrite forallb_map. destruct (proj1 (tidy_record _ _ _) Hti) as (Hne & _ & HLn & Htc). pose proof HLn as HLn'. rewrite Forall_forall in HLn', Htc.
    cbn [form_of union_free] in Hu. rewrite forallb_map, forallb_forall in Hu.
    assert (G : forall x us, In x contents -> den x = Some us -> good (rpad is64 rc narrow refeq mfuel clip fuel x t axis depth) (if has_lists (axis - depth) (form_of x) then Some (map (lift (pad clip t) (axis - depth)) us) else None)).
    { intros x us Hin Hx. apply IH; [|exact Hx|exact Ha|apply Hu; exact Hin|apply Htc; exact Hin|].
      - pose proof (need_bound x). pose proof (maxl_In _ _ (in_map bound _ _ Hin)). lia.
      - destruct HN as [HN|HN]; [left; exact HN|right]. rewrite nonempty_record in HN. apply In_nth_error in Hin as [j Hj]. specialize (HN j x Hj). destruct (Z.eqb_spec (axis - depth) 1) as [E|_].
        + rewrite E in *. rewrite (column_den _ _ _ _ _ _ _ Hd HLn Hj Hx) in HN. exact HN.
        + unfold values in HN. rewrite Hx in HN. exact HN. }
    pose proof (mapres_good (fun x => rpad is64 rc narrow refeq mfuel clip fuel x t axis depth) (lift (pad clip t) (axis - depth)) (fun x => has_lists (axis - depth) (form_of x)) contents vss Hvss G) as M.
    pose proof (record_good (mapres (fun x => rpad is64 rc narrow refeq mfuel clip fuel x t axis depth) contents) keys length contents vss vs (lift (pad clip t) (axis - depth)) (forallb (fun x => has_lists (axis - depth) (form_of x)) contents) (lift_row _ _ _) Hvss Hd M) as R.
    destruct (forallb (fun x => has_lists (axis - depth) (form_of x)) contents); [|destruct M as (e & ->); exists e; reflexivity].
    destruct M as (cs' & Ecs & Hcs' & Hlc). rewrite Ecs in *. cbn [bind] in *.
    assert (HF : Forall (fun x => length_ x = length) cs').
    { clear - Hcs' Hvss HLn. revert vss cs' Hvss Hcs'. induction HLn as [|x cs Hx _ IH]; intros vss cs' Hv Hc'.
      - cbn [omap] in Hv. injection Hv as <-. destruct cs'; [constructor|]. cbn [omap map] in Hc'. destruct (den c); [|discriminate]. destruct (omap den cs'); discriminate.
      - apply omap_cons_inv in Hv as (us & uss & Hus & Huss & ->). destruct cs' as [|c' cs']; [discriminate|]. cbn [map] in Hc'. apply omap_cons_inv in Hc' as (us' & uss' & Hus' & Huss' & Eq). injection Eq as <- <-.
        constructor; [rewrite (den_length _ _ Hus'), zlen_map, <- (den_length _ _ Hus); exact Hx|]. eapply IH; eassumption. }
    destruct cs' as [|c' cs']; [|rewrite minlength_const with (n := length); [exact R|discriminate| |exact HF]].
    + exact R.
    + destruct contents as [|x xs]; [contradiction|]. rewrite <- (HLn' x (or_introl eq_refl)). apply omap_cons_inv in Hvss as (us & uss & Hus & _). rewrite (den_length _ _ Hus). apply zlen_nonneg.
  - (* Union *) discriminate.
Qed.
End Rpad.
