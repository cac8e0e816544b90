(** Proofs about repartition. *)
From Verif Require Import Base BaseLemmas OmapLemmas Content SpecArray SpecForm SpecSlice KRange KCore Core Convert Option KMerge Merge SpecMerge Getitem Partition SpecPartition
  PRange PCore PCarry PAt PNat PAxis PForm PTidy PPromote PMergeable PMergeK PMerge PMergeC PMergeR PMergeM PPartition.

Section Re.
Variable rc : Z -> Z.
Notation none := (fun _ : content => false).
Variable refeq : content -> content -> bool.
Variable mfuel : nat.
Variables (p : parray) (vss : list (list value)).
Hypothesis HP : parts_hold p vss.
Notation parts := (partitions p).
Notation np := (zlen vss).
Notation N := (zlen (concat vss)).
Notation B := (begin vss).
Hypothesis Htidy : Forall tidy parts.
Hypothesis Hufree : Forall ufree parts.
Hypothesis Hopt : Forall (fun c => indexed_free c = true) parts \/ Forall ofree parts.
Hypothesis Hmerge : forall a b, In a parts -> In b parts -> mergeable false a b = true.
Hypothesis Hfuel : (S (sumw parts) <= mfuel)%nat.

Definition from (x : content) : Prop := exists a, In a parts /\ form_of x = form_of a /\ indexed_free x = indexed_free a /\ tidy x.
Lemma from_fm x y : from x -> from y -> fmc false x y.
Proof. intros (a & Ha & Fa & _) (b & Hb & Fb & _). unfold fmc. rewrite Fa, Fb, <- mergeable_form. apply Hmerge; assumption. Qed.
Lemma from_ufree x : from x -> ufree x.
Proof. intros (a & Ha & Fa & _). unfold ufree. rewrite Fa. rewrite Forall_forall in Hufree. exact (Hufree a Ha). Qed.
Lemma from_opt x : from x -> (Forall (fun c => indexed_free c = true) parts -> indexed_free x = true) /\ (Forall ofree parts -> ofree x).
Proof. intros (a & Ha & Fa & Ia & _). split; intros H; rewrite Forall_forall in H; specialize (H a Ha); [congruence|]. unfold ofree in *. congruence. Qed.

(** where the copying is: partition and position in it *)
Definition at_pos (pid index : Z) : Prop := 0 <= pid <= np /\ 0 <= index /\ (forall vs, nthZ vss pid = Some vs -> index <= zlen vs) /\ (pid = np -> index = 0).
(** what has been copied to the new partition that begins at [start] *)
Definition copied (dst : option content) (all : list content) (us : list value) : Prop :=
  match dst with None => all = [] /\ us = [] | Some d => exists vs', den d = Some vs' /\ Forall2 (promotes rc) us vs' /\ summ false all d /\ all <> [] end.

Lemma join_ok d all us piece ws : copied (Some d) all us -> Forall from all -> from piece -> den piece = Some ws -> (sumw all + weight piece <= sumw parts)%nat ->
  exists d', join_piece rc none refeq mfuel d piece = Ok d' /\ copied (Some d') (all ++ [piece]) (us ++ ws).
Proof.
  intros (vs' & D & PR & S & NE) HF Hf Dp HW. destruct S as (S1 & S2 & S3 & S4 & S5).
  assert (FM : fmc false d piece). { unfold fmc. apply S5. eapply Forall_impl; [|exact HF]. intros x Hx. exact (from_fm x piece Hx Hf). }
  assert (PRE : pre false d [piece] [vs'; ws]).
  { split; [constructor; [exact D|constructor; [exact Dp|constructor]]|]. split; [constructor; [exact S1|constructor; [destruct Hf as (a & _ & _ & _ & Ht); exact Ht|constructor]]|]. split.
    - destruct Hopt as [HO|HO]; [left; constructor; [apply (from_opt piece Hf); exact HO|constructor]|right]. constructor; [|constructor; [apply (from_opt piece Hf); exact HO|constructor]].
      apply S3. eapply Forall_impl; [|exact HF]. intros x Hx. apply (from_opt x Hx). exact HO.
    - constructor; [constructor; [exact FM|constructor]|]. constructor; [constructor|constructor]. }
  pose proof (mergemany_ok rc none false mfuel d [piece] _ PRE) as M. cbn [length] in M. assert (HU : ufree d) by (apply S4; eapply Forall_impl; [|exact HF]; intros x Hx; exact (from_ufree x Hx)).
  unfold join_piece. rewrite mergeable_form. unfold fmc in FM. rewrite FM. cbn [negb]. unfold merge.
  assert (HW2 : (sumw [d; piece] + 1 <= mfuel)%nat) by (rewrite !sumw_cons, sumw_nil; lia).
  specialize (M HW2). clear HW2. destruct (mergemany rc none mfuel d [piece]) as [d'| |]; cbn [outcome] in M.
  - destruct M as (ws' & D' & PR' & S'). cbn [bind]. exists d'.
    assert (HS : summ false (all ++ [piece]) d') by (eapply (summ_trans none false all d [piece]); [|exact S']; split; [exact S1|]; split; [exact S2|]; split; [exact S3|]; split; [exact S4|exact S5]).
    assert (HUd : ufree d') by (destruct S' as (_ & _ & _ & S4' & _); apply S4'; constructor; [exact HU|constructor; [exact (from_ufree piece Hf)|constructor]]).
    split; [destruct d'; try reflexivity; discriminate HUd|]. exists ws'. split; [exact D'|]. split; [|split; [exact HS|destruct all; discriminate]].
    cbn [concat] in PR'. rewrite app_nil_r in PR'. eapply prs_trans; [|exact PR']. apply Forall2_app; [exact PR|]. apply prs_refl.
  - exfalso. destruct M as [(x & Hx)|[Hx _]]; [discriminate|]. apply Hx. constructor; [exact HU|constructor; [exact (from_ufree piece Hf)|constructor]].
  - contradiction.
Qed.

Lemma take_ok pid index hi c : nthZ parts pid = Some c -> 0 <= index <= hi -> hi <= length_ c ->
  exists piece vs, getitem_range_nowrap c index hi = Ok piece /\ nthZ vss pid = Some vs /\ den piece = Some (slice index hi vs) /\ from piece /\ weight piece = weight c /\ zlen vs = length_ c.
Proof.
  intros Hc Hi Hh. destruct HP as (E & _ & _). destruct (omap_nth _ _ _ _ _ E Hc) as (Ev & vs & Dc). rewrite Dc in Ev. symmetry in Ev. pose proof (den_length _ _ Dc) as HL.
  destruct (range_den c vs index hi Dc Hi ltac:(lia)) as (q & Eq & Dq). exists q, vs. split; [exact Eq|]. split; [exact Ev|]. split; [exact Dq|]. split; [|split; [exact (range_weight c _ _ _ Eq)|lia]].
  exists c. pose proof (nthZ_In _ _ _ Hc) as Hin. split; [exact Hin|]. destruct (range_same c _ _ _ Eq) as [F _]. split; [exact F|]. split; [exact (range_indexed_free c _ _ _ Eq)|].
  rewrite Forall_forall in Htidy. eapply (range_tidy c vs index hi q); eauto; lia.
Qed.
Lemma slice_begin pid index hi vs : nthZ vss pid = Some vs -> 0 <= index <= hi -> hi <= zlen vs -> slice (B pid + index) (B pid + hi) (concat vss) = slice index hi vs.
Proof.
  intros Hi Hx Hh. pose proof (nthZ_Some _ _ _ Hi). pose proof (begin_next _ _ _ Hi) as BN. pose proof (begin_mono vss (pid + 1) np ltac:(lia)) as BM. rewrite begin_all in BM.
  pose proof (begin_mono vss 0 pid ltac:(lia)) as BM0. rewrite begin_0 in BM0.
  apply list_eqZ; [rewrite !zlen_slice by lia; lia|]. rewrite zlen_slice by lia. intros k Hk. rewrite !nthZ_slice by lia. rewrite <- (nth_begin vss pid vs (index + k) Hi) by lia. f_equal. lia.
Qed.

Lemma fill_ok : forall m pid index start len dst all, (Z.to_nat (np - pid) <= m)%nat -> at_pos pid index -> 0 <= start -> 0 <= len -> start + len <= N ->
  (dst = None -> start = B pid + index /\ pid < np) -> start <= B pid + index <= start + len ->
  copied dst all (slice start (B pid + index) (concat vss)) -> Forall from all -> (sumw all + sumw (slice pid np parts) <= sumw parts)%nat ->
  forall fuel, (2 * m + 3 <= fuel)%nat ->
  exists d pid' index' all', fill_partition rc none refeq mfuel fuel parts pid index len dst = Ok (d, pid', index') /\ at_pos pid' index' /\ B pid' + index' = start + len /\
    copied (Some d) all' (slice start (start + len) (concat vss)).
Proof.
  induction m as [|m IH]; intros pid index start len dst all Hm HA Hs Hl HN Hnone Hpos HC HF HW fuel Hfu.
  - (* nothing left *)
    destruct HA as (A1 & A2 & A3 & A4). assert (pid = np) by lia. subst pid. rewrite (A4 eq_refl) in *. rewrite Z.add_0_r, begin_all in *. destruct dst as [d|]; [|destruct (Hnone eq_refl); lia].
    destruct fuel as [|fuel]; [lia|]. cbn [fill_partition]. destruct HC as (vs' & D & PR & S & NE). pose proof (den_length _ _ D) as HL. rewrite <- (F2_zlen _ _ _ PR), zlen_slice in HL by lia.
    destruct (Z.ltb_spec (length_ d) len); [lia|]. exists d, np, 0, all. split; [reflexivity|]. split; [repeat split; try lia; auto|]. split; [rewrite Z.add_0_r, begin_all; lia|].
    exists vs'. replace (start + len) with N by lia. auto.
  - destruct HA as (A1 & A2 & A3 & A4).
    assert (HD : match dst with None => True | Some d => length_ d = B pid + index - start end).
    { destruct dst as [d|]; [|exact I]. destruct HC as (vs' & D & PR & _). rewrite (den_length _ _ D), <- (F2_zlen _ _ _ PR), zlen_slice; lia. }
    destruct fuel as [|[|fuel]]; [lia|lia|].
    assert (DONE : B pid + index = start + len -> dst <> None -> exists d pid' index' all', fill_partition rc none refeq mfuel (S (S fuel)) parts pid index len dst = Ok (d, pid', index') /\ at_pos pid' index' /\ B pid' + index' = start + len /\
       copied (Some d) all' (slice start (start + len) (concat vss))).
    { intros He Hd. destruct dst as [d|]; [|contradiction]. cbn [fill_partition]. destruct (Z.ltb_spec (length_ d) len); [lia|]. exists d, pid, index, all. split; [reflexivity|]. split; [repeat split; auto; lia|]. split; [exact He|]. rewrite He in HC. exact HC. }
    assert (STEP : (dst = None \/ B pid + index < start + len) -> fill_partition rc none refeq mfuel (S (S fuel)) parts pid index len dst = fill_step rc none refeq mfuel (S fuel) parts pid index len dst).
    { intros [->|Hlt]; [reflexivity|]. destruct dst as [d|]; [|reflexivity]. cbn [fill_partition]. destruct (Z.ltb_spec (length_ d) len); [reflexivity|lia]. }
    assert (CASE : (dst = None \/ B pid + index < start + len) \/ (B pid + index = start + len /\ dst <> None)) by (destruct dst; [destruct (Z.eq_dec (B pid + index) (start + len)); [right; split; [assumption|discriminate]|left; right; lia]|left; left; reflexivity]).
    destruct CASE as [CASE|[C1 C2]]; [|exact (DONE C1 C2)]. rewrite (STEP CASE). clear STEP DONE.
    assert (Hpid : pid < np). { destruct CASE as [->|Hlt]; [destruct (Hnone eq_refl); assumption|]. destruct (Z.eq_dec pid np) as [E|]; [|lia]. rewrite (A4 E), E, begin_all in Hlt. lia. }
    cbn [fill_step]. destruct (nthZ_lt parts pid) as (c & Ec); [rewrite (parts_len p vss HP); lia|]. unfold rd at 1. rewrite Ec. cbn [bind].
    destruct (part_at p vss HP pid ltac:(lia)) as (c1 & vs & Ec1 & Ev & _ & HLc). unfold rd in Ec1. rewrite Ec in Ec1. injection Ec1 as <-. specialize (A3 vs Ev).
    set (desired := match dst with None => len | Some d => len - length_ d end). assert (Hdes : desired = start + len - (B pid + index)). { unfold desired. destruct dst; [lia|]. destruct (Hnone eq_refl). lia. }
    assert (HWc : (sumw all + weight c + sumw (slice (pid + 1) np parts) <= sumw parts)%nat).
    { rewrite (slice_cons_nth pid np parts c Hpid Ec), sumw_cons in HW. lia. }
    (* joining a piece that ends at [hi] *)
    assert (JOIN : forall hi, index <= hi <= length_ c -> exists piece d', getitem_range_nowrap c index hi = Ok piece /\ from piece /\ weight piece = weight c /\
       (match dst with None => Ok piece | Some d => join_piece rc none refeq mfuel d piece end) = Ok d' /\ copied (Some d') (all ++ [piece]) (slice start (B pid + hi) (concat vss))).
    { intros hi Hhi. destruct (take_ok pid index hi c Ec) as (piece & vs0 & Ep & Ev0 & Dp & Fp & Wp & _); [lia|lia|]. rewrite Ev in Ev0. injection Ev0 as <-.
      assert (ES : slice start (B pid + hi) (concat vss) = slice start (B pid + index) (concat vss) ++ slice index hi vs) by (rewrite <- (slice_begin pid index hi vs Ev) by lia; apply slice_split; lia).
      exists piece. destruct dst as [d|].
      - destruct (join_ok d all _ piece _ HC HF Fp Dp) as (d' & Ej & Cj); [lia|]. exists d'. rewrite ES. auto.
      - destruct HC as [-> HC]. exists piece. split; [exact Ep|]. split; [exact Fp|]. split; [exact Wp|]. split; [reflexivity|]. rewrite ES, HC. cbn [app]. exists (slice index hi vs). split; [exact Dp|]. split; [apply prs_refl|].
        split; [|discriminate]. apply (summ_refl none). destruct Fp as (? & _ & _ & _ & Ht). exact Ht. }
    destruct (Z.leb_spec (length_ c - index) desired) as [Hle|Hgt].
    + destruct (JOIN (length_ c)) as (piece & d' & Ep & Fp & Wp & Ej & Cj); [lia|]. rewrite Ep. cbn [bind]. rewrite Ej. cbn [bind].
      pose proof (begin_next _ _ _ Ev) as BN.
      destruct (IH (pid + 1) 0 start len (Some d') (all ++ [piece])) with (fuel := fuel) as (d & pid' & index' & all' & R); try lia; try discriminate.
      * split; [lia|]. split; [lia|]. split; [intros; apply zlen_nonneg|reflexivity].
      * rewrite Z.add_0_r, BN. rewrite <- HLc. exact Cj.
      * apply Forall_app. split; [exact HF|constructor; [exact Fp|constructor]].
      * rewrite sumw_app, sumw_cons, sumw_nil. lia.
      * exists d, pid', index', all'. exact R.
    + destruct (JOIN (index + desired)) as (piece & d' & Ep & Fp & Wp & Ej & Cj); [lia|]. rewrite Ep. cbn [bind]. rewrite Ej. cbn [bind].
      destruct fuel as [|fuel]; [lia|]. cbn [fill_partition]. replace (B pid + (index + desired)) with (start + len) in Cj by lia.
      assert (HL' : length_ d' = len). { destruct Cj as (vs' & D & PR & _). rewrite (den_length _ _ D), <- (F2_zlen _ _ _ PR), zlen_slice; lia. }
      destruct (Z.ltb_spec (length_ d') len); [lia|]. exists d', pid, (index + desired), (all ++ [piece]). split; [reflexivity|]. split; [|split; [lia|exact Cj]].
      split; [lia|]. split; [lia|]. split; [|lia]. intros vs0 Ev0. rewrite Ev in Ev0. injection Ev0 as <-. lia.
Qed.

(** ** all the new partitions *)
Lemma removelast_nth {A} (l : list A) i x : 0 <= i < zlen l - 1 -> nthZ l i = Some x -> In x (removelast l).
Proof.
  intros Hi Hx. destruct (rev l) as [|y r] eqn:E; apply (f_equal (@rev _)) in E; rewrite rev_involutive in E; subst l; [cbn [rev] in Hx; rewrite nthZ_nil in Hx; discriminate|].
  cbn [rev] in *. rewrite removelast_last. rewrite zlen_app in Hi. change (zlen [y]) with 1 in Hi. rewrite nthZ_app in Hx. destruct (Z.ltb_spec i (zlen (rev r))); [|lia]. exact (nthZ_In _ _ _ Hx).
Qed.

Variable fuel : nat.
Variable stops : list Z.
Hypothesis Hfuel2 : (2 * length parts + 3 <= fuel)%nat.
(** the new partitions end in order, the last one at the end of the array, and no other one there *)
Hypothesis Hord : forall i a b, nthZ (0 :: stops) i = Some a -> nthZ (0 :: stops) (i + 1) = Some b -> a <= b.
Hypothesis Hlast : nthZ stops (zlen stops - 1) = Some N.
Hypothesis Hrest : Forall (fun s => s < N) (removelast stops).

Lemma stop_le i a : nthZ (0 :: stops) i = Some a -> 0 <= a <= N.
Proof.
  intros Ha. pose proof (nthZ_Some _ _ _ Ha) as Hi. rewrite zlen_cons in Hi. pose proof (zlen_nonneg (concat vss)) as HN.
  assert (H0 : forall k b, 0 <= k -> nthZ (0 :: stops) k = Some b -> 0 <= b).
  { intros k b Hk. revert b. pattern k. apply natlike_ind; [| |exact Hk]; [intros b Hb; injection Hb as <-; lia|]. intros x Hx IH b Hb. pose proof (nthZ_Some _ _ _ Hb).
    destruct (nthZ_lt (0 :: stops) x ltac:(lia)) as (y & Hy). specialize (IH y Hy). pose proof (Hord x y b Hy). replace (x + 1) with (Z.succ x) in H0 by lia. specialize (H0 Hb). lia. }
  split; [exact (H0 i a ltac:(lia) Ha)|]. destruct (Z.eq_dec i 0) as [->|]; [injection Ha as <-; exact HN|]. rewrite nthZ_cons in Ha. destruct (Z.eqb_spec i 0); [lia|].
  destruct (Z.eq_dec (i - 1) (zlen stops - 1)) as [E|]; [rewrite E, Hlast in Ha; injection Ha as <-; lia|]. rewrite Forall_forall in Hrest. specialize (Hrest a (removelast_nth stops (i - 1) a ltac:(lia) Ha)). lia.
Qed.

Lemma repartition_ok : stops <> pstops p -> exists p' vs', repartition rc none refeq mfuel fuel p stops = Ok p' /\ pstops p' = stops /\ holds p' vs' /\ Forall2 (promotes rc) (concat vss) vs'.
Proof.
  intros Hne. unfold repartition. destruct (list_eq_dec Z.eq_dec stops (pstops p)) as [|_]; [contradiction|]. rewrite (plength_ok p vss HP). unfold rd at 1. rewrite Hlast. cbn [bind]. rewrite Z.eqb_refl. cbn [negb].
  match goal with |- context [for_ 0 (zlen stops) ?f ?s0] => set (body := f); set (st0 := s0) end.
  destruct (for_inv (fun i st => let '(pid, index, ps) := st in exists pos uss, (i = 0 -> pid = 0) /\ nthZ (0 :: stops) i = Some pos /\ at_pos pid index /\ B pid + index = pos /\
      omap den ps = Some uss /\ ends 0 uss = slice 0 i stops /\ Forall2 (promotes rc) (slice 0 pos (concat vss)) (concat uss)) 0 (zlen stops) body st0) as (st & Est & I).
  - apply zlen_nonneg.
  - exists 0, []. split; [reflexivity|]. split; [reflexivity|]. split; [repeat split; try lia; [apply zlen_nonneg|intros; apply zlen_nonneg]|]. split; [rewrite begin_0; lia|]. split; [reflexivity|]. split; [rewrite slice_nil; reflexivity|]. rewrite slice_nil. constructor.
  - intros i [[pid index] ps] Hi (pos & uss & H0 & Epos & HA & Hpos & EP & EE & PR). destruct (nthZ_lt stops i Hi) as (stop & Estop).
    assert (Estop' : nthZ (0 :: stops) (i + 1) = Some stop) by (rewrite nthZ_cons; destruct (Z.eqb_spec (i + 1) 0); [lia|]; rewrite <- Estop; f_equal; lia).
    pose proof (stop_le _ _ Epos) as Lp. pose proof (stop_le _ _ Estop') as Ls. pose proof (Hord _ _ _ Epos Estop') as Lo.
    unfold body. unfold rd at 1. rewrite Estop. cbn [bind].
    assert (EL : (if i =? 0 then Ok stop else let* prev := rd stops (i - 1) in Ok (stop - prev)) = Ok (stop - pos)).
    { rewrite nthZ_cons in Epos. destruct (Z.eqb_spec i 0); [injection Epos as <-; f_equal; lia|]. unfold rd. rewrite Epos. reflexivity. }
    rewrite EL. cbn [bind].
    assert (Hpid : pid < np).
    { pose proof (parts_pos p vss HP) as NP. destruct HA as (A1 & A2 & A3 & A4). destruct (Z.eq_dec pid np) as [E|]; [|lia]. rewrite (A4 E), E, begin_all, Z.add_0_r in Hpos. rewrite nthZ_cons in Epos. destruct (Z.eqb_spec i 0).
      - specialize (H0 e). lia.
      - rewrite Forall_forall in Hrest. specialize (Hrest pos (removelast_nth stops (i - 1) pos ltac:(lia) Epos)). lia. }
    assert (HLp : zlen parts = np) by exact (parts_len p vss HP).
    destruct (fill_ok (Z.to_nat np) pid index pos (stop - pos) None []) with (fuel := fuel) as (d & pid' & index' & all' & EF & HA' & Hpos' & HC); try lia; try assumption; auto.
    + destruct HA; lia.
    + split; [reflexivity|]. rewrite Hpos, slice_nil. reflexivity.
    + rewrite sumw_nil. rewrite <- (slice_full parts) at 2. rewrite HLp, (slice_split 0 pid np) by (destruct HA; lia). rewrite sumw_app. lia.
    + clear - Hfuel2 HLp. unfold zlen in *. lia.
    + rewrite EF. cbn [bind]. eexists. split; [reflexivity|]. cbn beta iota. destruct HC as (vs' & D & PR' & _). exists stop, (uss ++ [vs']). split; [lia|]. split; [exact Estop'|]. split; [exact HA'|]. split; [lia|].
      split; [rewrite omap_app, EP; cbn [omap]; rewrite D; reflexivity|]. rewrite concat_app. cbn [concat]. rewrite app_nil_r. replace (pos + (stop - pos)) with stop in PR' by lia.
      split; [|rewrite (slice_split 0 pos stop) by lia; apply Forall2_app; assumption].
      rewrite ends_snoc, EE, (slice_snoc_nth 0 i stops stop) by (auto; lia). do 2 f_equal. rewrite <- (F2_zlen _ _ _ PR), <- (F2_zlen _ _ _ PR'), !zlen_slice by lia. lia.
  - destruct st as [[pid index] ps]. destruct I as (pos & uss & _ & Epos & _ & _ & EP & EE & PR). rewrite Est. cbn [bind]. assert (Hst : 0 < zlen stops) by (pose proof (nthZ_Some _ _ _ Hlast); lia).
    rewrite nthZ_cons in Epos. destruct (Z.eqb_spec (zlen stops) 0); [lia|]. rewrite Hlast in Epos. injection Epos as Epos. rewrite <- Epos in PR. rewrite slice_full in EE. rewrite slice_full in PR.
    pose proof (omap_zlen _ _ _ EP) as HLn. assert (HLu : zlen uss = zlen stops) by (rewrite <- EE, zlen_ends; reflexivity).
    unfold mkPArray. destruct (Z.eqb_spec (zlen ps) 0); [lia|]. destruct (Z.eqb_spec (zlen ps) (zlen stops)); [|lia]. cbn [negb]. exists (PArray ps stops), (concat uss). split; [reflexivity|]. split; [reflexivity|]. split; [|exact PR].
    exists uss. split; [|reflexivity]. split; [exact EP|]. split; [intros ->; change (zlen (@nil (list value))) with 0 in HLu; lia|symmetry; exact EE].
Qed.
End Re.
