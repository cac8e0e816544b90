(** Proofs about is_unique of lists of numbers: lists are only reported as equal when they hold the same numbers. *)
From Coq Require Import Permutation.
From Verif Require Import Base BaseLemmas OmapLemmas LoopLemmas Content KCore Core KConvert Convert KOption Option KAxis Axis KMerge Merge KReduce Reduce KSort Sort Unique
  SpecArray SpecForm SpecSort SpecUnique PCore PCarry PList PConvert PForm PReduceK PReduceTop PQuick PSortK PSort PUnique PUnique2.
Local Open Scope list_scope.
Local Open Scope Z_scope.
Local Notation get := KSort.get.

(** ** the ranges *)
Definition ranges_in (n : Z) (o : list Z) : Prop := forall k a b, nthZ (pairs o) k = Some (a, b) -> a = b \/ (0 <= a < b /\ b <= n).
Lemma ranges_monotone n o : ranges_in n o -> forall j, 0 <= j -> forall i x y, nthZ o i = Some x -> nthZ o (i + j) = Some y -> x <= y.
Proof.
  intros HR. refine (natlike_ind _ _ _).
  - intros i x y Hx Hy. rewrite Z.add_0_r in Hy. assert (x = y) by congruence. lia.
  - intros j Hj IH i x y Hx Hy. pose proof (nthZ_Some _ _ _ Hx). pose proof (nthZ_Some _ _ _ Hy). destruct (nthZ_lt o (i + j)) as [z Hz]; [lia|]. specialize (IH _ _ _ Hx Hz).
    assert (HP : nthZ (pairs o) (i + j) = Some (z, y)) by (rewrite nthZ_pairs, Hz; replace (i + j + 1) with (i + Z.succ j) by lia; rewrite Hy; reflexivity). destruct (HR _ _ _ HP); lia.
Qed.
Lemma ranges_apart n o : ranges_in n o -> forall i k a b c d, nthZ (pairs o) i = Some (a, b) -> nthZ (pairs o) k = Some (c, d) -> i <> k -> b <= c \/ d <= a.
Proof.
  intros HR i k a b c d H1 H2 Hik. rewrite nthZ_pairs in H1, H2.
  destruct (nthZ o i) as [a'|] eqn:E1; [|discriminate]. destruct (nthZ o (i + 1)) as [b'|] eqn:E2; [|discriminate]. destruct (nthZ o k) as [c'|] eqn:E3; [|discriminate]. destruct (nthZ o (k + 1)) as [d'|] eqn:E4; [|discriminate].
  injection H1 as -> ->. injection H2 as -> ->. destruct (Z.lt_ge_cases i k).
  - left. apply (ranges_monotone n o HR (k - (i + 1)) ltac:(lia) (i + 1) b c E2). now replace (i + 1 + (k - (i + 1))) with k by lia.
  - right. apply (ranges_monotone n o HR (i - (k + 1)) ltac:(lia) (k + 1) d a E4). now replace (k + 1 + (i - (k + 1))) with i by lia.
Qed.

(** ** sorting them *)
Lemma quick_nothing pred same base a beg end_ : zlen beg = kMaxLevels -> zlen end_ = kMaxLevels ->
  exists beg' end_', quick (fun x => Ok x) pred same base a 0 beg end_ kMaxLevels = Ok (a, beg', end_') /\ zlen beg' = kMaxLevels /\ zlen end_' = kMaxLevels.
Proof.
  intros Hb He. destruct beg as [|b beg]; [discriminate Hb|]. destruct end_ as [|e end_]; [discriminate He|]. exists (0 :: beg), (0 :: end_).
  split; [|rewrite !zlen_cons in *; lia]. unfold quick, wr. rewrite Hb, He. reflexivity.
Qed.
Lemma slice_unchanged (a a' : list Z) x y c d : zlen a' = zlen a -> 0 <= c -> d <= zlen a -> d <= x \/ y <= c -> (forall k, k < x \/ y <= k -> get a' k = get a k) -> slice c d a' = slice c d a.
Proof.
  intros HL Hc Hd Hs Hg. destruct (Z.le_gt_cases d c); [rewrite !slice_empty by lia; reflexivity|].
  apply list_eqZ; [rewrite !zlen_slice by lia; lia|]. intros i Hi. rewrite zlen_slice in Hi by lia. rewrite !nthZ_slice by lia. rewrite !get_nth by lia. rewrite Hg by lia. reflexivity.
Qed.
Lemma sort_ranges ord data o : 1 <= zlen o -> ranges_in (zlen data) o -> (forall k a b, nthZ (pairs o) k = Some (a, b) -> b - a < 2 ^ kMaxLevels) ->
  exists ptr, awkward_quick_sort ord true data (alloc kMaxLevels) (alloc kMaxLevels) (slice 0 (zlen o - 1) o) (slice 1 (zlen o) o) (zlen (slice 0 (zlen o - 1) o)) kMaxLevels = Ok ptr /\
    zlen ptr = zlen data /\ forall k a b, nthZ (pairs o) k = Some (a, b) -> Permutation (slice a b data) (slice a b ptr).
Proof.
  intros Ho HR HS. unfold awkward_quick_sort. rewrite zlen_slice by lia.
  destruct (for_inv (fun i (st : list Z * list Z * list Z) => let '(ptr, beg, end_) := st in zlen ptr = zlen data /\ zlen beg = kMaxLevels /\ zlen end_ = kMaxLevels /\ forall k a b, nthZ (pairs o) k = Some (a, b) -> Permutation (slice a b data) (slice a b ptr)) 0 (zlen o - 1 - 0)
    (fun i st => let '(tmpptr, beg, end_) := st in let* start := rd (slice 0 (zlen o - 1) o) i in let* stop := rd (slice 1 (zlen o) o) i in
       quick (fun x => Ok x) (predicate_of ord true) (oeq ord) start tmpptr (stop - start) beg end_ kMaxLevels) (data, alloc kMaxLevels, alloc kMaxLevels)) as ([[ptr beg] end_] & E & H1 & _ & _ & H2).
  - lia.
  - split; [reflexivity|]. split; [reflexivity|]. split; [reflexivity|]. auto.
  - intros i [[ptr beg] end_] Hi (L1 & L2 & L3 & HP). destruct (nthZ_lt o i) as [a Ha]; [lia|]. destruct (nthZ_lt o (i + 1)) as [b Hb]; [lia|].
    unfold rd. rewrite !nthZ_slice by lia. rewrite Z.add_0_l, Ha, (Z.add_comm 1 i), Hb. cbn [bind].
    assert (Hab : nthZ (pairs o) i = Some (a, b)) by (rewrite nthZ_pairs, Ha, Hb; reflexivity).
    destruct (HR _ _ _ Hab) as [->|[Hr1 Hr2]].
    + rewrite Z.sub_diag. destruct (quick_nothing (predicate_of ord true) (oeq ord) b ptr beg end_ L2 L3) as (beg' & end_' & -> & M1 & M2). eexists; split; [reflexivity|]. repeat split; assumption.
    + pose proof (HS _ _ _ Hab) as HQ. destruct (quick_spec (fun x => Ok x) (predicate_of ord true) (oeq ord) a (fun _ => True) (fun x => x) ltac:(lia) (fun x _ => eq_refl) ptr (b - a) beg end_ kMaxLevels)
        as (ptr' & beg' & end_' & -> & M1 & M2 & HPm & HO & _); try assumption; try (unfold kMaxLevels; lia); auto.
      eexists; split; [reflexivity|]. assert (HL : zlen ptr' = zlen ptr) by (unfold zlen; rewrite (Permutation_length HPm); reflexivity). repeat split; try assumption; [lia|].
      replace (a + (b - a)) with b in HO by lia. intros k c d Hk. eapply Permutation_trans; [apply (HP k); exact Hk|]. destruct (Z.eq_dec k i) as [->|Hki].
      * assert (c = a /\ d = b) as [-> ->] by (split; congruence). apply perm_slice; try assumption; lia.
      * destruct (HR _ _ _ Hk) as [->|[Hr3 Hr4]]; [rewrite !slice_empty by lia; constructor|]. assert (HA : d <= a \/ b <= c) by (destruct (ranges_apart _ _ HR k i c d a b Hk Hab Hki); lia).
        rewrite (slice_unchanged ptr ptr' a b c d HL ltac:(lia) ltac:(lia) HA HO). apply Permutation_refl.
  - rewrite E. cbn [bind]. exists ptr. auto.
Qed.

(** ** comparing them *)
Lemma ranges_differ_spec ord ptr n : forall s1 s2, (n <> 0)%nat -> 0 <= s1 -> 0 <= s2 -> s1 + Z.of_nat n <= zlen ptr -> s2 + Z.of_nat n <= zlen ptr ->
  exists r, ranges_differ ord ptr s1 s2 n = Ok r /\ (r = false -> Forall2 (fun x y => oeq ord x y = true) (slice s1 (s1 + Z.of_nat n) ptr) (slice s2 (s2 + Z.of_nat n) ptr)).
Proof.
  induction n as [|n IH]; intros s1 s2 Hn H1 H2 H3 H4; [congruence|]. cbn [ranges_differ]. destruct (nthZ_lt ptr s1) as [x Hx]; [lia|]. destruct (nthZ_lt ptr s2) as [y Hy]; [lia|].
  unfold rd. rewrite Hx, Hy. cbn [bind]. destruct (oeq ord x y) eqn:E; cbn [negb]; [|exists true; split; [reflexivity|discriminate]].
  rewrite (slice_cons_nth s1 _ ptr x), (slice_cons_nth s2 _ ptr y) by (assumption || lia). destruct n as [|n].
  - exists false. split; [reflexivity|]. intros _. constructor; [exact E|]. rewrite !slice_empty by lia. constructor.
  - destruct (IH (s1 + 1) (s2 + 1)) as (r & Er & Hr); try lia. exists r. split; [exact Er|]. intros Hf. constructor; [exact E|]. specialize (Hr Hf).
    replace (s1 + 1 + Z.of_nat (S n)) with (s1 + Z.of_nat (S (S n))) in Hr by lia. replace (s2 + 1 + Z.of_nat (S n)) with (s2 + Z.of_nat (S (S n))) in Hr by lia. exact Hr.
Qed.
Definition equal_ranges (ord : order) (ptr o : list Z) : Prop :=
  exists i j a b c d, i < j /\ nthZ (pairs o) i = Some (a, b) /\ nthZ (pairs o) j = Some (c, d) /\ Forall2 (fun x y => oeq ord x y = true) (slice a b ptr) (slice c d ptr).
Lemma compare_ranges ord ptr o : 1 <= zlen o -> ranges_in (zlen ptr) o ->
  exists r, awkward_NumpyArray_subrange_equal ord ptr (slice 0 (zlen o - 1) o) (slice 1 (zlen o) o) (zlen (slice 0 (zlen o - 1) o)) = Ok r /\ (r = true -> equal_ranges ord ptr o).
Proof.
  intros Ho HR. unfold awkward_NumpyArray_subrange_equal. rewrite zlen_slice by lia. set (n := zlen o - 1 - 0 - 1).
  destruct (Z.le_gt_cases n 0) as [Hn|Hn].
  { rewrite for_nil by exact Hn. exists false. split; [reflexivity|discriminate]. }
  set (Q := fun (_ : Z) (differ : bool) => differ = false -> equal_ranges ord ptr o).
  assert (HG : forall i, 0 <= i <= n -> exists a b, nthZ (pairs o) i = Some (a, b) /\ nthZ (slice 0 (zlen o - 1) o) i = Some a /\ nthZ (slice 1 (zlen o) o) i = Some b).
  { intros i Hi. unfold n in Hi. destruct (nthZ_lt o i) as [a Ha]; [lia|]. destruct (nthZ_lt o (i + 1)) as [b Hb]; [lia|]. exists a, b. rewrite nthZ_pairs, Ha, Hb. rewrite !nthZ_slice by lia. rewrite Z.add_0_l, Ha, (Z.add_comm 1 i), Hb. auto. }
  match goal with |- context [for_ 0 n ?body true] => destruct (for_inv Q 0 n body true) as (r & E & HQ) end.
  - lia.
  - discriminate.
  - intros i t Hi HQ. destruct (HG i ltac:(lia)) as (a & b & Hab & Ha & Hb). unfold rd at 1 2. rewrite Ha, Hb. cbn [bind].
    match goal with |- exists t', for_ (i + 1) n ?body t = Ok t' /\ _ => destruct (for_inv Q (i + 1) n body t) as (r & E & HQ') end.
    + lia.
    + exact HQ.
    + intros j t' Hj HQt. destruct (HG j ltac:(lia)) as (c & d & Hcd & Hc & Hd). unfold rd. rewrite Hc, Hd. cbn [bind]. destruct (Z.eqb_spec (b - a) (d - c)) as [He|He]; [|exists t'; split; [reflexivity|exact HQt]].
      destruct (HR _ _ _ Hab) as [->|[R1 R2]].
      * rewrite Z.sub_diag in *. exists false. split; [reflexivity|]. intros _. exists i, j, b, b, c, d. repeat split; try assumption; [lia|]. rewrite !slice_empty by lia. constructor.
      * destruct (HR _ _ _ Hcd) as [->|[R3 R4]]; [lia|]. destruct (ranges_differ_spec ord ptr (Z.to_nat (b - a)) a c) as (r & Er & Hr); try lia.
        exists r. split; [exact Er|]. intros Hf. specialize (Hr Hf). rewrite Z2Nat.id in Hr by lia. replace (a + (b - a)) with b in Hr by lia. replace (c + (b - a)) with d in Hr by lia.
        exists i, j, a, b, c, d. repeat split; try assumption. lia.
    + exists r. split; [exact E|exact HQ'].
  - rewrite E. cbn [bind]. exists (negb r). split; [reflexivity|]. intros Hr. apply HQ. destruct r; [discriminate|reflexivity].
Qed.

(** ** lists of numbers *)
Section Main.
Variable real : order.
Variable is64 : content -> bool.
Variable ioff : content -> Z.
Lemma fill_copy data : awkward_NumpyArray_fill (alloc (zlen data)) 0 data (zlen data) (fun x => x) = Ok data.
Proof.
  pose proof (zlen_nonneg data). unfold awkward_NumpyArray_fill. rewrite (for_fill_all _ (get data)); [|apply zlen_alloc; lia|intros i out' Hi _; rewrite rd_get by exact Hi; reflexivity].
  f_equal. apply list_eqZ; [rewrite zlen_map, zlen_zseq; lia|]. intros i Hi. rewrite zlen_map, zlen_zseq in Hi by lia. rewrite nthZ_map, nthZ_zseq by lia. symmetry. apply get_nth. lia.
Qed.
Definition repeated (vs : list value) : Prop :=
  exists i j l l', i < j /\ nthZ vs i = Some (VList l) /\ nthZ vs j = Some (VList l') /\ same_numbers real l l'.
Lemma offsets_unique fuel o dt data vs : den (ListOffset o (Numpy dt data)) = Some vs -> Forall (fun v => match v with VList l => zlen l < 2 ^ 48 | _ => True end) vs ->
  exists b, (let* starts := make_starts o in let* stops := make_stops o in is_subrange_equal real is64 ioff (S fuel) (Numpy dt data) starts stops) = Ok b /\ (b = false -> repeated vs).
Proof.
  intros Hd HS. cbn [den] in Hd. destruct (Z.leb_spec 1 (zlen o)) as [Ho|]; [|discriminate]. rewrite make_starts_spec, make_stops_spec by exact Ho. cbn [bind is_subrange_equal].
  rewrite !zlen_slice by lia. replace (zlen o - 1 - 0 =? zlen o - 1) with true by (symmetry; apply Z.eqb_eq; lia). cbn [negb]. unfold subranges_equal. rewrite fill_copy. cbn [bind].
  assert (HV : forall k a b, nthZ (pairs o) k = Some (a, b) -> exists l, nthZ vs k = Some (VList l) /\ ((a = b /\ l = []) \/ (0 <= a < b /\ b <= zlen data /\ l = map (scalar dt) (slice a b data)))).
  { intros k a b Hk. destruct (omap_nth _ _ _ _ _ Hd Hk) as [E [y Ey]]. cbn [fst snd] in E. rewrite <- E. unfold sublist. destruct (Z.eqb_spec a b) as [->|Hab]; [exists []; split; [reflexivity|left; auto]|].
    unfold sublist in Ey. cbn [fst snd] in Ey. destruct (Z.eqb_spec a b); [lia|]. rewrite zlen_map in *. destruct (Z.leb_spec 0 a); [|discriminate]. destruct (Z.leb_spec a b); [|discriminate]. destruct (Z.leb_spec b (zlen data)); [|discriminate]. cbn [andb].
    eexists. split; [reflexivity|]. right. rewrite slice_map. repeat split; lia. }
  assert (HR : ranges_in (zlen data) o) by (intros k a b Hk; destruct (HV k a b Hk) as (l & _ & [[H _]|(H1 & H2 & _)]); [left; exact H|right; lia]).
  destruct (sort_ranges (order_of real dt) data o Ho HR) as (ptr & E & HL & HP).
  { intros k a b Hk. destruct (HV k a b Hk) as (l & Hl & [[-> _]|(H1 & H2 & ->)]); [rewrite Z.sub_diag; unfold kMaxLevels; lia|].
    rewrite Forall_forall in HS. specialize (HS _ (nthZ_In _ _ _ Hl)). cbn in HS. rewrite zlen_map, zlen_slice in HS by lia. exact HS. }
  rewrite E. cbn [bind]. destruct (compare_ranges (order_of real dt) ptr o Ho ltac:(rewrite HL; exact HR)) as (r & Er & Hr). rewrite Er. cbn [bind].
  exists (negb r). split; [reflexivity|]. intros Hf. destruct r; [|discriminate]. destruct (Hr eq_refl) as (i & j & a & b & c & d & Hij & Hi & Hj & HF).
  assert (HI : exists l l', nthZ vs i = Some (VList l) /\ nthZ vs j = Some (VList l') /\ l = map (scalar dt) (slice a b data) /\ l' = map (scalar dt) (slice c d data)).
  { destruct (HV _ _ _ Hi) as (l & Hl & Cl). destruct (HV _ _ _ Hj) as (l' & Hl' & Cl'). exists l, l'. repeat split; try assumption.
    - destruct Cl as [[-> ->]|(_ & _ & ->)]; [rewrite slice_empty by lia; reflexivity|reflexivity].
    - destruct Cl' as [[-> ->]|(_ & _ & ->)]; [rewrite slice_empty by lia; reflexivity|reflexivity]. }
  destruct HI as (l & l' & Hl & Hl' & -> & ->). exists i, j. do 2 eexists. split; [exact Hij|]. split; [exact Hl|]. split; [exact Hl'|].
  destruct (Permutation_Forall2 (Permutation_sym (HP _ _ _ Hi)) HF) as (m & Pm & Fm). exists (map (scalar dt) m). split.
  - apply Permutation_map. eapply Permutation_trans; [apply (HP _ _ _ Hj)|exact Pm].
  - clear - Fm. induction Fm as [|x y l m Hxy _ IH]; cbn [map]; constructor; [rewrite equal_scalar; exact Hxy|exact IH].
Qed.
Lemma lists_unique fuel c dt data l vs : list_view c = Some (l, Numpy dt data) -> den c = Some vs -> Forall (fun v => match v with VList l => zlen l < 2 ^ 48 | _ => True end) vs ->
  exists b, is_unique real is64 ioff (S (S fuel)) c = Ok b /\ (b = false -> repeated vs).
Proof.
  intros Hv Hd HS.
  assert (HT : forall w, exists o data', toListOffsetArray64 w true c = Ok (ListOffset o (Numpy dt data')) /\ den (ListOffset o (Numpy dt data')) = Some vs).
  { intros w. destruct (to_listoffset w true _ _ _ _ Hd Hv) as (o & c'' & E & Ed & _). exists o.
    assert (HR : ready true c'') by (eapply (tolistoffset_ready true); [exact Hv|left; exact I|exact E]).
    destruct (tolistoffset_same _ _ _ _ E) as (o2 & c2 & E2 & [S1 _]). injection E2 as <- <-.
    assert (HF : form_of c'' = FNum dt) by (destruct c; try discriminate Hv; cbn [list_view] in Hv; injection Hv as _ ->; cbn [form_of] in S1; injection S1 as S1; exact S1).
    destruct HR as [HR|[HR _]]; [|discriminate]. destruct c''; try contradiction; cbn [form_of] in HF; try discriminate HF. injection HF as <-. eexists. split; [exact E|exact Ed]. }
  destruct c as [ |dt' data'|sts stp c'|offs c'|size zl c'|ix c'|ix c'|mk vw c'|mk vw lsb len c'|c'|keys len cs|utags uix cs]; try discriminate Hv.
  - destruct (HT true) as (o & data' & E & Ed). cbn [is_unique]. rewrite E. cbn [bind]. exact (offsets_unique fuel o dt data' vs Ed HS).
  - cbn [is_unique]. destruct (is64 (ListOffset offs c')).
    + cbn [bind]. cbn [list_view] in Hv. injection Hv as _ ->. exact (offsets_unique fuel offs dt data vs Hd HS).
    + destruct (HT false) as (o & data' & E & Ed). rewrite E. cbn [bind]. exact (offsets_unique fuel o dt data' vs Ed HS).
  - destruct (HT true) as (o & data' & E & Ed). cbn [is_unique]. rewrite E. cbn [bind]. exact (offsets_unique fuel o dt data' vs Ed HS).
Qed.
End Main.
