(** Proofs about partitioned arrays: elements and ranges. *)
From Verif Require Import Base BaseLemmas OmapLemmas Content SpecArray SpecSlice KRange KCore Core Convert Option KMerge Merge Getitem SpecGetitem Partition SpecPartition
  PRange PCore PCarry PAt PNat PAxis PGetitem PGetitem2.

Ltac Zify.zify_post_hook ::= idtac.

(** ** ranges *)
Lemma py_range_shift d a b s : py_range (a + d) (b + d) s = map (Z.add d) (py_range a b s).
Proof.
  unfold py_range. rewrite map_map. replace (py_range_len (a + d) (b + d) s) with (py_range_len a b s); [apply map_ext; intros; lia|].
  unfold py_range_len. replace (b + d - (a + d) - 1) with (b - a - 1) by lia. replace (a + d - (b + d) - 1) with (a - b - 1) by lia. ltbs; (reflexivity || lia).
Qed.
Lemma mod_near a x s : s <> 0 -> (if 0 <? s then a < x <= a + s else a + s <= x < a) -> (a - x) mod s = a + s - x.
Proof. intros Hs H. symmetry. apply (Z.mod_unique _ _ (-1)); [|lia]. destruct (Z.ltb_spec 0 s); lia. Qed.
Lemma range_split s y : s <> 0 -> forall n a x, (Z.to_nat (Z.abs (x - a)) <= n)%nat -> (if 0 <? s then a <= x <= y else y <= x <= a) ->
  py_range a y s = py_range a x s ++ py_range (x + (a - x) mod s) y s.
Proof.
  intros Hs. induction n as [|n IH]; intros a x Hn H.
  - assert (a = x) by (destruct (0 <? s); lia). subst a. replace (x - x) with 0 by lia. rewrite Zmod_0_l, Z.add_0_r.
    rewrite (py_range_nil x x) by lia. reflexivity.
  - destruct (Z.eq_dec a x) as [->|Hne].
    + replace (x - x) with 0 by lia. rewrite Zmod_0_l, Z.add_0_r, (py_range_nil x x) by lia. reflexivity.
    + rewrite (py_range_cons a x s Hs) by (destruct (0 <? s); lia).
      rewrite (py_range_cons a y s Hs) by (destruct (0 <? s); lia). cbn [app]. f_equal.
      assert (C : (if 0 <? s then a + s <= x else x <= a + s) \/ (if 0 <? s then x < a + s else a + s < x)) by (destruct (0 <? s); lia).
      destruct C as [C|C].
      * rewrite (IH (a + s) x); [|destruct (Z.ltb_spec 0 s); lia|destruct (Z.ltb_spec 0 s); lia].
        f_equal. replace (a + s - x) with (a - x + 1 * s) by lia. rewrite Z_mod_plus_full. reflexivity.
      * rewrite mod_near by (auto; destruct (Z.ltb_spec 0 s); lia). rewrite (py_range_nil (a + s) x) by (destruct (Z.ltb_spec 0 s); lia).
        cbn [app]. f_equal. lia.
Qed.
Lemma rem_mod a s : 0 < s -> Z.rem (Z.rem a s + s) s = a mod s.
Proof.
  intros Hs. pose proof (Z.rem_bound_abs a s ltac:(lia)) as B. rewrite Z.rem_mod_nonneg by lia.
  replace (Z.rem a s + s) with (Z.rem a s + 1 * s) by lia. rewrite Z_mod_plus_full.
  pose proof (Z.quot_rem' a s) as E. rewrite E at 2. rewrite Z.add_comm, (Z.mul_comm s), Z_mod_plus_full. reflexivity.
Qed.

(** ** one range over one array *)
Section One.
Variable is64 : content -> bool.
Lemma slice_piece_den c vs a b step : den c = Some vs -> step <> 0 ->
  exists q us, slice_piece is64 c a b step = Ok q /\ den q = Some us /\ omap (nthZ vs) (py_slice (opt64 a) (opt64 b) step (zlen vs)) = Some us.
Proof.
  intros Hd Hs. pose proof (zlen_nonneg vs) as HN. destruct (one_row is64 c vs Hd) as [D1 L1]. pose proof (den_length _ _ Hd) as HL.
  unfold slice_piece, getitem. rewrite (mkRegular_den _ _ _ _ D1). cbn [bind].
  assert (EN : getitem_next is64 2 (Regular (length_ c) 1 c) [SRange a b step] None =
    (if step =? 0 then Err "getitem_next(SliceRange): range.step() == 0" else
     let '(regular_start, nextsize) := RegularArray_range_nextsize a b step (length_ c) in
     let* nextcarry := awkward_RegularArray_getitem_next_range (alloc (length_ (Regular (length_ c) 1 c) * nextsize)) regular_start step (length_ (Regular (length_ c) 1 c)) (length_ c) nextsize in
     let* nextcontent := carry c nextcarry true in
     let* out := getitem_next is64 1 nextcontent [] None in mkRegular nextsize (length_ (Regular (length_ c) 1 c)) out)) by reflexivity.
  rewrite EN, L1. clear EN. destruct (Z.eqb_spec step 0); [lia|]. pose proof (regular_range_spec a b step (length_ c) 1) as R.
  pose proof (nextsize_spec a b step (length_ c)) as NS. rewrite HL in *.
  destruct (RegularArray_range_nextsize a b step (zlen vs)) as [rs ns]. destruct (NS HN Hs) as [Hns EP].
  rewrite R; [|lia|lia|exact Hs|]. 2:{ unfold alloc. rewrite zlen_repeat. lia. }
  change (zseq 0 1) with [0]. cbn [map concat bind]. rewrite app_nil_r. replace (map (Z.add (0 * zlen vs)) (py_slice (opt64 a) (opt64 b) step (zlen vs))) with (py_slice (opt64 a) (opt64 b) step (zlen vs)) by (rewrite <- map_id at 1; apply map_ext; intros; lia).
  assert (P : exists us, omap (nthZ vs) (py_slice (opt64 a) (opt64 b) step (zlen vs)) = Some us).
  { apply omap_total. intros p Hp. apply nthZ_lt. exact (py_slice_in_range _ _ _ _ _ HN Hs Hp). }
  destruct P as (us & P). destruct (carry_den c vs _ us true Hd P) as (q & Eq & Dq). rewrite Eq. cbn [bind].
  change (getitem_next is64 1 q [] None) with (Ok q : res content). cbn [bind].
  assert (Lu : zlen us = ns). { rewrite (omap_zlen _ _ _ P), <- EP, zlen_map, zlen_zseq by lia. lia. }
  pose proof (den_length _ _ Dq) as HLq.
  assert (DR : den (Regular ns 1 q) = Some [VList us]). { rewrite <- Lu, <- HLq. exact (proj1 (one_row is64 q us Dq)). }
  rewrite (mkRegular_den _ _ _ _ DR). cbn [bind]. rewrite (den_length _ _ DR). change (zlen [VList us] =? 0) with false. cbv iota.
  cbn [getitem_at_nowrap]. destruct (range_den q us (0 * ns) ((0 + 1) * ns) Dq) as (q' & Eq' & Dq'); [lia|lia|]. 
  rewrite Eq'. cbn [bind]. exists q', us. split; [reflexivity|]. split; [|exact P]. rewrite Dq', <- Lu. f_equal. replace (0 * zlen us) with 0 by lia. rewrite slice_full' by lia. reflexivity.
Qed.
End One.

(** ** where a partition begins *)
Definition begin {A} (vss : list (list A)) (i : Z) : Z := zlen (concat (slice 0 i vss)).
Lemma begin_0 {A} (vss : list (list A)) : begin vss 0 = 0.
Proof. unfold begin. rewrite slice_nil. reflexivity. Qed.
Lemma begin_next {A} (vss : list (list A)) i vs : nthZ vss i = Some vs -> begin vss (i + 1) = begin vss i + zlen vs.
Proof.
  intros H. pose proof (nthZ_Some _ _ _ H). unfold begin. rewrite (slice_snoc_nth 0 i vss vs) by (auto; lia). rewrite concat_app, zlen_app. cbn [concat]. rewrite app_nil_r. reflexivity.
Qed.
Lemma begin_all {A} (vss : list (list A)) : begin vss (zlen vss) = zlen (concat vss).
Proof. unfold begin. rewrite slice_full. reflexivity. Qed.
Lemma begin_mono {A} (vss : list (list A)) i j : 0 <= i <= j -> begin vss i <= begin vss j.
Proof.
  intros H. unfold begin. rewrite (slice_split 0 i j) by lia. rewrite concat_app, zlen_app. pose proof (zlen_nonneg (concat (slice i j vss))). lia.
Qed.
Lemma begin_cons {A} (vs : list A) vss i : 0 <= i -> begin (vs :: vss) (i + 1) = zlen vs + begin vss i.
Proof.
  intros H. unfold begin. rewrite (slice_split 0 1 (i + 1)) by lia. rewrite concat_app, zlen_app. f_equal.
  - rewrite (slice_cons_nth 0 1 (vs :: vss) vs) by (auto; lia). rewrite slice_nil. cbn [concat]. rewrite app_nil_r. reflexivity.
  - change (vs :: vss) with ([vs] ++ vss). rewrite slice_app_shift by (change (zlen [vs]) with 1; lia). change (zlen [vs]) with 1. do 3 f_equal; lia.
Qed.
Lemma nth_begin {A} (vss : list (list A)) i vs p : nthZ vss i = Some vs -> 0 <= p < zlen vs -> nthZ (concat vss) (begin vss i + p) = nthZ vs p.
Proof.
  intros H Hp. pose proof (nthZ_Some _ _ _ H) as Hi. unfold begin.
  rewrite <- (slice_full vss) at 1. rewrite (slice_split 0 i (zlen vss)) by lia. rewrite (slice_cons_nth i (zlen vss) vss vs) by (auto; lia).
  rewrite concat_app. cbn [concat]. rewrite nthZ_app. destruct (Z.ltb_spec (zlen (concat (slice 0 i vss)) + p) (zlen (concat (slice 0 i vss)))); [lia|].
  rewrite nthZ_app. replace (zlen (concat (slice 0 i vss)) + p - zlen (concat (slice 0 i vss))) with p by lia. destruct (Z.ltb_spec p (zlen vs)); [reflexivity|lia].
Qed.
Lemma ends_snoc {A} (l : list (list A)) : forall a x, ends a (l ++ [x]) = ends a l ++ [a + zlen (concat l) + zlen x].
Proof.
  induction l as [|y l IH]; intros a x; cbn [app ends concat]; [change (zlen (@nil A)) with 0; do 2 f_equal; lia|].
  rewrite IH, zlen_app. do 3 f_equal. lia.
Qed.
Lemma zlen_ends {A} (l : list (list A)) : forall a, zlen (ends a l) = zlen l.
Proof. induction l as [|x l IH]; intros a; cbn [ends]; [reflexivity|]. rewrite !zlen_cons, IH. reflexivity. Qed.
Lemma ends_last {A} (l : list (list A)) : l <> [] -> nthZ (ends 0 l) (zlen l - 1) = Some (zlen (concat l)).
Proof.
  destruct (rev l) as [|x r] eqn:E; intros H; [apply (f_equal (@rev _)) in E; rewrite rev_involutive in E; contradiction|].
  apply (f_equal (@rev _)) in E. rewrite rev_involutive in E. cbn [rev] in E. subst l. rewrite ends_snoc, zlen_app, concat_app, zlen_app. cbn [concat]. rewrite app_nil_r.
  change (zlen [x]) with 1. replace (zlen (rev r) + 1 - 1) with (zlen (ends 0 (rev r))) by (rewrite zlen_ends; lia). rewrite nthZ_mid. reflexivity.
Qed.

Lemma locate {A} (vss : list (list A)) : forall i a x, a <= x ->
  let '(j, k) := partition_from (ends a vss) i a x in
  i <= j <= i + zlen vss /\
  (j < i + zlen vss -> exists vs, nthZ vss (j - i) = Some vs /\ a + begin vss (j - i) <= x < a + begin vss (j - i) + zlen vs /\ k = x - a - begin vss (j - i)) /\
  (j = i + zlen vss -> a + zlen (concat vss) <= x /\ k = 0).
Proof.
  induction vss as [|vs vss IH]; intros i a x Hx; cbn [ends partition_from].
  - change (zlen (@nil (list A))) with 0. split; [lia|]. split; [lia|]. intros _. cbn [concat]. change (zlen (@nil A)) with 0. lia.
  - pose proof (zlen_nonneg vss). rewrite zlen_cons. destruct (Z.ltb_spec x (a + zlen vs)).
    + split; [lia|]. split; [|lia]. intros _. exists vs. replace (i - i) with 0 by lia. rewrite begin_0. split; [reflexivity|]. lia.
    + specialize (IH (i + 1) (a + zlen vs) x ltac:(lia)). destruct (partition_from (ends (a + zlen vs) vss) (i + 1) (a + zlen vs) x) as [j k].
      destruct IH as (I1 & I2 & I3). split; [lia|]. split.
      * intros Hj. destruct I2 as (ws & E & B & K); [lia|]. exists ws. rewrite nthZ_cons. destruct (Z.eqb_spec (j - i) 0); [lia|].
        replace (j - i - 1) with (j - (i + 1)) by lia. split; [exact E|]. replace (j - i) with (j - (i + 1) + 1) by lia. rewrite begin_cons by lia. lia.
      * intros Hj. cbn [concat]. rewrite zlen_app. destruct I3; lia.
Qed.

Section Part.
Variable is64 : content -> bool.
Variables (p : parray) (vss : list (list value)).
Hypothesis HP : parts_hold p vss.
Notation np := (zlen vss).
Notation N := (zlen (concat vss)).
Notation B := (begin vss).

Lemma parts_len : zlen (partitions p) = np.
Proof. destruct HP as (E & _ & _). symmetry. exact (omap_zlen _ _ _ E). Qed.
Lemma parts_pos : 0 < np.
Proof. destruct HP as (_ & E & _). destruct vss as [|x l]; [contradiction|]. rewrite zlen_cons. pose proof (zlen_nonneg l). lia. Qed.
Lemma part_at i : 0 <= i < np -> exists c vs, rd (partitions p) i = Ok c /\ nthZ vss i = Some vs /\ den c = Some vs /\ length_ c = zlen vs.
Proof.
  intros H. destruct (nthZ_lt vss i H) as (vs & E). destruct HP as (E1 & _ & _). destruct (omap_nth' _ _ _ _ _ E1 E) as (c & Ec & Dc).
  exists c, vs. unfold rd. rewrite Ec. split; [reflexivity|]. split; [exact E|]. split; [exact Dc|]. exact (den_length _ _ Dc).
Qed.
Lemma plength_ok : plength p = Ok N.
Proof. destruct HP as (_ & E & ES). unfold plength, rd. rewrite ES, zlen_ends, ends_last by exact E. reflexivity. Qed.

(** the partition of a position *)
Lemma located x : 0 <= x -> let '(j, k) := partitionid_index_at p x in
  0 <= j <= np /\ (j < np -> exists vs, nthZ vss j = Some vs /\ B j <= x < B j + zlen vs /\ k = x - B j) /\ (j = np -> N <= x /\ k = 0).
Proof.
  intros H. unfold partitionid_index_at. destruct (Z.ltb_spec x 0); [lia|]. destruct HP as (_ & _ & ES). rewrite ES. pose proof (locate vss 0 0 x H) as L.
  destruct (partition_from (ends 0 vss) 0 0 x) as [j k]. rewrite Z.sub_0_r in L. destruct L as (L1 & L2 & L3). split; [lia|]. split.
  - intros Hj. destruct L2 as (vs & E & Bd & K); [lia|]. exists vs. split; [exact E|]. lia.
  - intros Hj. destruct L3; lia.
Qed.

(** ** elements *)
Lemma pgetitem_at_ok x :
  match pgetitem_at p x with
  | Ok it => exists v, nthZ (concat vss) (if x <? 0 then x + N else x) = Some v /\ item_den it = Some v
  | Err _ => nthZ (concat vss) (if x <? 0 then x + N else x) = None
  | UB => False
  end.
Proof.
  unfold pgetitem_at. rewrite plength_ok. cbn [bind]. set (y := if x <? 0 then x + N else x).
  destruct (Z.leb_spec 0 y); cbn [andb negb]; [|apply nthZ_neg; lia]. destruct (Z.ltb_spec y N); cbn [negb]; [|apply nthZ_ge; exact H0].
  pose proof (located y H) as L. destruct (partitionid_index_at p y) as [j k]. destruct L as (L1 & L2 & L3).
  assert (Hj : j < np) by (destruct (Z.eq_dec j np); [destruct L3; lia|lia]). destruct (L2 Hj) as (vs & E & Bd & ->).
  destruct (part_at j ltac:(lia)) as (c & vs' & Ec & E' & Dc & _). rewrite E in E'. injection E' as <-. rewrite Ec. cbn [bind].
  destruct (nthZ_lt vs (y - B j) ltac:(lia)) as (v & Ev). destruct (at_den c vs _ v Dc Ev) as (it & Ei & Di). rewrite Ei. exists v. split; [|exact Di].
  rewrite <- Ev, <- (nth_begin vss j vs (y - B j) E) by lia. f_equal. lia.
Qed.

(** ** ranges *)
Definition acc (st : Z * list content * list Z * Z) (us : list value) : Prop :=
  let '(_, parts, stops, total) := st in
  exists uss, omap den parts = Some uss /\ stops = ends 0 uss /\ total = zlen (concat uss) /\ concat uss = us.
Lemma acc_push q us st vs o : acc st vs -> den q = Some us -> acc (push_piece q st o) (vs ++ us) /\ fst (fst (fst (push_piece q st o))) = o.
Proof.
  intros HA Hd. destruct st as [[[o' parts] stops] total]. destruct HA as (uss & E1 & E2 & E3 & E4). unfold push_piece. rewrite (den_length _ _ Hd).
  destruct (Z.ltb_spec 0 (zlen us)).
  - split; [|reflexivity]. exists (uss ++ [us]). split; [rewrite omap_app, E1; cbn [omap]; rewrite Hd; reflexivity|]. rewrite ends_snoc, concat_app. cbn [concat]. rewrite app_nil_r, zlen_app, E4.
    split; [rewrite E2; do 2 f_equal; rewrite E3, E4; lia|]. split; [rewrite E3, E4; reflexivity|reflexivity].
  - split; [|reflexivity]. pose proof (zlen_nonneg us). assert (us = []) as -> by (destruct us; [reflexivity|rewrite zlen_cons in *; pose proof (zlen_nonneg us); lia]). rewrite app_nil_r. exists uss. change (zlen (@nil value)) with 0. rewrite Z.add_0_r. auto.
Qed.

Lemma piece_pick vs i us lo hi s : nthZ vss i = Some vs -> omap (nthZ vs) (py_range lo hi s) = Some us ->
  omap (nthZ (concat vss)) (py_range (lo + B i) (hi + B i) s) = Some us.
Proof.
  intros Hi HO. rewrite py_range_shift, omap_map. rewrite <- HO. apply omap_ext. intros x Hx.
  destruct (omap_In _ _ _ _ HO Hx) as (y & Hy & _). rewrite (nth_begin vss i vs x Hi); [reflexivity|]. exact (nthZ_Some _ _ _ Hy).
Qed.
Lemma opt64_some x : x <> kSliceNone -> opt64 x = Some x.
Proof. intros H. unfold opt64. change 9223372036854775807 with kSliceNone. destruct (Z.eqb_spec x kSliceNone); [contradiction|reflexivity]. Qed.
Lemma piece_up c vs i lo hi s : nthZ vss i = Some vs -> den c = Some vs -> 0 < s -> 0 <= lo < kSliceNone -> 0 <= hi <= zlen vs -> zlen vs < kSliceNone ->
  exists q us, slice_piece is64 c lo hi s = Ok q /\ den q = Some us /\ omap (nthZ (concat vss)) (py_range (lo + B i) (hi + B i) s) = Some us.
Proof.
  intros Hi Hd Hs Hlo Hhi HN. destruct (slice_piece_den is64 c vs lo hi s Hd ltac:(lia)) as (q & us & E & D & P). exists q, us. split; [exact E|]. split; [exact D|].
  apply (piece_pick vs); [exact Hi|]. rewrite <- P. f_equal. rewrite !opt64_some by lia. unfold py_slice, py_start, py_stop. destruct (Z.ltb_spec 0 s); [|lia].
  destruct (Z.ltb_spec lo 0); [lia|]. destruct (Z.ltb_spec hi 0); [lia|]. rewrite (Z.min_l hi) by lia. destruct (Z.le_gt_cases lo (zlen vs)); [rewrite Z.min_l by lia; reflexivity|].
  rewrite !py_range_nil by lia. reflexivity.
Qed.
Lemma py_range_1 lo hi : py_range lo hi 1 = zseq lo hi.
Proof.
  unfold py_range, py_range_len. change (0 <? 1) with true. cbv iota. destruct (Z.ltb_spec lo hi).
  - rewrite Z.div_1_r. replace (hi - lo - 1 + 1) with (hi - lo) by lia. transitivity (map (fun i => i + lo) (zseq 0 (hi - lo))); [apply map_ext; intros; lia|].
    rewrite <- (map_zseq_shift (fun x => x) 0 (hi - lo) lo), map_id. f_equal; lia.
  - rewrite !zseq_nil by lia. reflexivity.
Qed.
Lemma piece_1 c vs i lo hi : nthZ vss i = Some vs -> den c = Some vs -> 0 <= lo <= hi -> hi <= zlen vs ->
  exists q us, getitem_range_nowrap c lo hi = Ok q /\ den q = Some us /\ omap (nthZ (concat vss)) (py_range (lo + B i) (hi + B i) 1) = Some us.
Proof.
  intros Hi Hd Hlo Hhi. destruct (range_den c vs lo hi Hd Hlo Hhi) as (q & E & D). exists q, (slice lo hi vs). split; [exact E|]. split; [exact D|].
  apply (piece_pick vs); [exact Hi|]. rewrite py_range_1. apply omap_nthZ_zseq; lia.
Qed.
Lemma piece_down c vs i lo hi s : nthZ vss i = Some vs -> den c = Some vs -> s < 0 -> lo < zlen vs -> -1 <= hi < zlen vs -> zlen vs < kSliceNone ->
  exists q us, slice_piece is64 c (if lo <? 0 then - zlen vs - 1 else lo) (if hi <? 0 then - zlen vs - 1 else hi) s = Ok q /\ den q = Some us /\ omap (nthZ (concat vss)) (py_range (lo + B i) (hi + B i) s) = Some us.
Proof.
  intros Hi Hd Hs Hlo Hhi HN. destruct (slice_piece_den is64 c vs (if lo <? 0 then - zlen vs - 1 else lo) (if hi <? 0 then - zlen vs - 1 else hi) s Hd ltac:(lia)) as (q & us & E & D & P). exists q, us. split; [exact E|]. split; [exact D|].
  apply (piece_pick vs); [exact Hi|]. rewrite <- P. f_equal. pose proof (zlen_nonneg vs). rewrite !opt64_some by (unfold kSliceNone in *; destruct (lo <? 0), (hi <? 0); lia).
  unfold py_slice, py_start, py_stop. destruct (Z.ltb_spec 0 s); [lia|].
  assert (E2 : (if (if hi <? 0 then - zlen vs - 1 else hi) <? 0 then Z.max (-1) ((if hi <? 0 then - zlen vs - 1 else hi) + zlen vs) else Z.min (if hi <? 0 then - zlen vs - 1 else hi) (zlen vs - 1)) = hi).
  { destruct (Z.ltb_spec hi 0). { destruct (Z.ltb_spec (- zlen vs - 1) 0); lia. } destruct (Z.ltb_spec hi 0); lia. }
  rewrite E2. destruct (Z.ltb_spec lo 0).
  - destruct (Z.ltb_spec (- zlen vs - 1) 0); [|lia]. rewrite !py_range_nil by lia. reflexivity.
  - destruct (Z.ltb_spec lo 0); [lia|]. rewrite Z.min_l by lia. reflexivity.
Qed.
Lemma nothing_den c vs : den c = Some vs -> exists c', getitem_nothing c = Ok c' /\ den c' = Some [].
Proof.
  intros Hd. assert (R : forall c us, den c = Some us -> exists c', getitem_range_nowrap c 0 0 = Ok c' /\ den c' = Some []).
  { intros c0 us Hd0. destruct (range_den c0 us 0 0 Hd0) as (c' & E & D); [lia|apply zlen_nonneg|]. rewrite slice_nil in D. eauto. }
  pose proof (content_inv1 c vs Hd) as CI. destruct c; cbn [getitem_nothing]; try (destruct CI as (us & CI); exact (R _ _ CI)); try exact (R _ _ Hd); eexists; split; reflexivity.
Qed.
Lemma finish st us : acc st us -> exists p', (let '(_, parts, stops, _) := st in
  match parts with [] => let* c := rd (partitions p) 0 in let* nothing := getitem_nothing c in mkPArray [nothing] (stops ++ [0]) | _ => mkPArray parts stops end) = Ok p' /\ holds p' us.
Proof.
  destruct st as [[[o parts] stops] total]. intros (uss & E1 & E2 & E3 & E4). destruct parts as [|c0 parts].
  - cbn in E1. injection E1 as <-. cbn in E2, E4. subst stops us. destruct (part_at 0 ltac:(pose proof parts_pos; lia)) as (c & vs & Ec & _ & Dc & _). rewrite Ec. cbn [bind].
    destruct (nothing_den c vs Dc) as (c' & En & Dn). rewrite En. cbn [bind]. eexists. split; [reflexivity|]. exists [[]]. split; [|reflexivity]. split; [cbn [partitions omap]; rewrite Dn; reflexivity|]. split; [discriminate|reflexivity].
  - pose proof (omap_zlen _ _ _ E1) as L. unfold mkPArray. rewrite E2, zlen_ends, <- L. destruct (Z.eqb_spec (zlen uss) 0); [rewrite zlen_cons in L; pose proof (zlen_nonneg parts); lia|]. rewrite Z.eqb_refl. cbn [negb].
    eexists. split; [reflexivity|]. exists uss. split; [|exact E4]. split; [exact E1|]. split; [|reflexivity]. intros ->. apply n. reflexivity.
Qed.

Lemma up_ok a b s : 0 < s < kSliceNone -> 0 <= a <= b -> b <= N -> N < kSliceNone ->
  exists p' us, pgetitem_range_nowrap is64 p a b s = Ok p' /\ holds p' us /\ omap (nthZ (concat vss)) (py_range a b s) = Some us.
Proof.
  intros Hs Hab Hb HN. unfold pgetitem_range_nowrap. pose proof (located a ltac:(lia)) as La. pose proof (located b ltac:(lia)) as Lb.
  destruct (partitionid_index_at p a) as [first ia]. destruct (partitionid_index_at p b) as [last ib]. destruct La as (A1 & A2 & A3), Lb as (B1 & B2 & B3).
  destruct (Z.ltb_spec 0 s); [clear H|lia]. rewrite parts_len.
  assert (HFL : first <= last).
  { destruct (Z.le_gt_cases first last); [assumption|]. destruct B2 as (vs & E & Bd & _); [lia|]. rewrite <- (begin_next vss last vs E) in Bd.
    pose proof (begin_mono vss (last + 1) first ltac:(lia)). assert (B first <= a); [|lia].
    destruct (Z.eq_dec first np) as [->|]; [destruct A3 as [A3 _]; [reflexivity|rewrite begin_all; exact A3]|]. destruct A2 as (ws & _ & Bd2 & _); lia. }
  assert (HFa : B first <= a). { destruct (Z.eq_dec first np) as [->|]; [destruct A3 as [A3 _]; [reflexivity|rewrite begin_all; exact A3]|]. destruct A2 as (ws & _ & Bd2 & _); lia. }
  assert (HLb : B last <= b). { destruct (Z.eq_dec last np) as [->|]; [destruct B3 as [B3 _]; [reflexivity|rewrite begin_all; exact B3]|]. destruct B2 as (ws & _ & Bd2 & _); lia. }
  match goal with |- context [for_ first (Z.min np (last + 1)) ?f ?s0] => set (body := f); set (st0 := s0) end.
  destruct (for_inv (fun i st => exists us, acc st us /\ omap (nthZ (concat vss)) (py_range a (Z.min (B i) b) s) = Some us /\ (s = 1 -> fst (fst (fst st)) = 0) /\ (first < i <= last -> fst (fst (fst st)) = (a - B i) mod s))
    first (Z.min np (last + 1)) body st0) as (st & Est & us & HA & HO & _ & _).
  - lia.
  - exists []. split; [exists []; repeat split|]. split; [rewrite py_range_nil by lia; reflexivity|]. split; [reflexivity|lia].
  - intros i st Hi (us & HA & HO & HO1 & HOff). destruct (part_at i ltac:(lia)) as (c & vs & Ec & Ei & Dc & Lc). pose proof (zlen_nonneg vs) as Hvs.
    pose proof (begin_next vss i vs Ei) as BN. pose proof (begin_mono vss (i + 1) np ltac:(lia)) as BM. rewrite begin_all in BM. pose proof (begin_mono vss 0 i ltac:(lia)) as BM0. rewrite begin_0 in BM0.
    set (e := Z.min (B (i + 1)) b).
    assert (He : B i <= e /\ e <= B (i + 1) /\ (i = last -> ib = e - B i) /\ (i <> last -> i < last /\ zlen vs = e - B i)).
    { unfold e. clear HOff HO HO1. destruct (Z.eq_dec i last) as [->|Hne].
      - destruct B2 as (ws & E & Bd & ->); [lia|]. rewrite E in Ei. injection Ei as ->. clear - Bd BN. lia.
      - pose proof (begin_mono vss (i + 1) last ltac:(lia)). clear - H BN HLb Hvs Hne Hi. lia. }
    destruct He as (He1 & He2 & HeL & HeN).
    set (lo := if i =? first then ia else (a - B i) mod s).
    assert (Hlo : 0 <= lo < kSliceNone /\ py_range a e s = py_range a (Z.min (B i) b) s ++ py_range (lo + B i) e s /\ (i = first -> lo = a - B i /\ lo <= e - B i)).
    { unfold lo. clear HOff HO HO1. destruct (Z.eqb_spec i first) as [->|Hne].
      - destruct A2 as (ws & E & Bd & ->); [lia|]. rewrite E in Ei. injection Ei as ->. clear HeL HeN. split; [lia|]. split; [|lia]. rewrite (py_range_nil a (Z.min (B first) b)) by lia. cbn [app]. f_equal. lia.
      - pose proof (Z.mod_pos_bound (a - B i) s ltac:(lia)). split; [lia|]. split; [|contradiction]. destruct A2 as (ws & E & Bd & _); [lia|]. rewrite <- (begin_next _ _ _ E) in Bd.
        pose proof (begin_mono vss (first + 1) i ltac:(lia)). assert (Hib : B i <= b) by (unfold e in He1; lia). assert (Hai : a <= B i) by lia.
        replace (Z.min (B i) b) with (B i) by lia. rewrite (range_split s e ltac:(lia) (Z.to_nat (Z.abs (B i - a))) a (B i) ltac:(lia)).
        + do 2 f_equal. lia.
        + destruct (Z.ltb_spec 0 s); [clear - He1 Hai; lia|lia]. }
    destruct Hlo as (Hlo & Hsplit & Hfirst).
    assert (Hlo1 : s = 1 -> lo <= e - B i).
    { intros Hs1. unfold lo in *. destruct (Z.eqb_spec i first) as [Hif|Hif]; [apply Hfirst; exact Hif|]. rewrite Hs1, Z.mod_1_r. clear - He1. lia. }
    (* the piece *)
    assert (PC : exists q vs', (if s =? 1 then getitem_range_nowrap c lo (e - B i) else slice_piece is64 c lo (e - B i) s) = Ok q /\ den q = Some vs'
       /\ omap (nthZ (concat vss)) (py_range (lo + B i) e s) = Some vs').
    { replace (py_range (lo + B i) e s) with (py_range (lo + B i) (e - B i + B i) s) by (f_equal; lia). clear HOff HO HO1 HeL HeN Hfirst Hsplit A2 A3 B2 B3. destruct (Z.eqb_spec s 1) as [->|Hs1].
      - apply (piece_1 c vs i lo (e - B i) Ei Dc); [|lia]. specialize (Hlo1 eq_refl). lia.
      - apply (piece_up c vs i lo (e - B i) s Ei Dc); lia. }
    destruct PC as (q & vs' & Eq & Dq & Pq).
    assert (HB : exists q vs' o, body i st = Ok (push_piece q st o) /\ den q = Some vs' /\ omap (nthZ (concat vss)) (py_range (lo + B i) e s) = Some vs'
       /\ (s = 1 -> o = 0) /\ (i < last -> o = (a - B (i + 1)) mod s)).
    { unfold body. destruct st as [[[offset parts] stops] total]. rewrite Ec. cbn [bind]. rewrite Lc. cbn [fst] in HOff, HO1.
      assert (GO : forall o, (s = 1 -> o = 0) -> (i < last -> o = (a - B (i + 1)) mod s) -> exists q0 vs0 o0, Ok (push_piece q (offset, parts, stops, total) o) = Ok (push_piece q0 (offset, parts, stops, total) o0) /\ den q0 = Some vs0
        /\ omap (nthZ (concat vss)) (py_range (lo + B i) e s) = Some vs0 /\ (s = 1 -> o0 = 0) /\ (i < last -> o0 = (a - B (i + 1)) mod s)).
      { intros o G1 G2. exists q, vs', o. auto. }
      assert (NL : i = last -> forall o : Z, i < last -> o = (a - B (i + 1)) mod s) by (intros -> o Hx; destruct (Z.lt_irrefl _ Hx)).
      clear A2 A3 B2 B3 HFa HLb BM BM0. unfold lo in Eq, Hfirst. 
      destruct (Z.eqb_spec i first) as [Hif|Hif]; destruct (Z.eqb_spec i last) as [Hil|Hil]; cbn [andb].
      - rewrite (HeL Hil), Eq. cbn [bind]. apply GO; [exact HO1|exact (NL Hil offset)].
      - destruct (HeN Hil) as [HeN1 HeN2]. rewrite HeN2, Eq. cbn [bind]. destruct (Hfirst Hif) as [Hia _].
        apply GO; [intros Hs1; rewrite Hs1; exact (HO1 Hs1)|]. intros _. destruct (Z.eqb_spec s 1) as [Hs1|]; [rewrite Hs1, Z.mod_1_r; exact (HO1 Hs1)|].
        clear - Hia BN Hs HeN2. rewrite rem_mod by lia. f_equal. lia.
      - assert (Hof : offset = (a - B i) mod s) by (apply HOff; clear - Hi Hif Hil; lia). rewrite (HeL Hil). rewrite <- Hof in Eq. destruct (Z.eqb_spec s 1) as [Hs1|].
        + rewrite (HO1 Hs1) in Eq. rewrite Eq. cbn [bind]. apply GO; [exact HO1|exact (NL Hil offset)].
        + rewrite Eq. cbn [bind]. apply GO; [exact HO1|exact (NL Hil offset)].
      - assert (Hof : offset = (a - B i) mod s) by (apply HOff; clear - Hi Hif Hil; lia). destruct (HeN Hil) as [HeN1 HeN2]. rewrite <- Hof in Eq. destruct (Z.eqb_spec s 1) as [Hs1|]; cbn [negb].
        + exists c, vs. eexists. split; [reflexivity|]. split; [exact Dc|]. split; [|split; [exact HO1|intros _; rewrite Hs1, Z.mod_1_r; exact (HO1 Hs1)]].
          replace lo with 0 by (unfold lo; destruct (Z.eqb_spec i first); [contradiction|rewrite Hs1, Z.mod_1_r; reflexivity]). replace e with (zlen vs + B i) by (clear - HeN2; lia).
          apply (piece_pick vs); [exact Ei|]. rewrite Hs1, py_range_1, omap_nthZ_zseq by (clear - Hvs; lia). rewrite slice_full. reflexivity.
        + rewrite HeN2, Eq. cbn [bind]. apply GO; [intros; contradiction|]. clear - BN Hs HeN2 Hof. intros _. rewrite rem_mod by lia. rewrite Hof, Zminus_mod_idemp_l. f_equal. lia. }
    clear q vs' Eq Dq Pq. destruct HB as (q & vs' & o & HB & Dq & Pq & Ho1 & Ho). exists (push_piece q st o). split; [exact HB|]. destruct (acc_push q vs' st us o HA Dq) as [HA' Ho']. exists (us ++ vs'). split; [exact HA'|]. split.
    + rewrite Hsplit. apply omap_app_Some; assumption.
    + rewrite Ho'. split; [exact Ho1|]. intros Hi'. apply Ho. clear - Hi'. lia.
  - rewrite Est. cbn [bind]. destruct (finish st us HA) as (p' & Ep & Hp). exists p', us. split; [exact Ep|]. split; [exact Hp|]. rewrite <- HO. do 2 f_equal.
    assert (b <= B (Z.min np (last + 1))); [|clear - H; lia]. clear HA HO Est Ep. destruct (Z.eq_dec last np) as [->|Hln].
    + replace (Z.min np (np + 1)) with np by (clear; lia). rewrite begin_all. exact Hb.
    + replace (Z.min np (last + 1)) with (last + 1) by lia. destruct B2 as (vs & E & Bd & _); [lia|]. rewrite (begin_next _ _ _ E). clear - Bd. lia.
Qed.

Lemma mod_down x y s : s < 0 -> (x - y) mod s = - ((y - x) mod (- s)).
Proof. intros Hs. rewrite <- Z.mod_opp_opp by lia. rewrite Z.opp_involutive. f_equal. lia. Qed.
Lemma down_ok a b s : s < 0 -> -1 <= b <= a -> a < N -> N < kSliceNone ->
  exists p' us, pgetitem_range_nowrap is64 p a b s = Ok p' /\ holds p' us /\ omap (nthZ (concat vss)) (py_range a b s) = Some us.
Proof.
  intros Hs Hab Ha HN. unfold pgetitem_range_nowrap.
  assert (La : let '(first, ia) := partitionid_index_at p a in -1 <= first < np /\ (first < 0 -> a = -1) /\ (0 <= first -> exists vs, nthZ vss first = Some vs /\ B first <= a < B first + zlen vs /\ ia = a - B first)).
  { destruct (Z.eq_dec a (-1)) as [->|]; [cbn; pose proof parts_pos; split; [lia|]; split; [reflexivity|lia]|]. pose proof (located a ltac:(lia)) as L. destruct (partitionid_index_at p a) as [first ia]. destruct L as (L1 & L2 & L3).
    assert (first <> np) by (intros ->; destruct L3 as [L3 _]; [reflexivity|lia]). split; [lia|]. split; [lia|]. intros _. apply L2. lia. }
  assert (Lb : let '(last, ib) := partitionid_index_at p b in -1 <= last < np /\ (last < 0 -> b = -1) /\ (0 <= last -> exists vs, nthZ vss last = Some vs /\ B last <= b < B last + zlen vs /\ ib = b - B last)).
  { destruct (Z.eq_dec b (-1)) as [->|]; [cbn; pose proof parts_pos; split; [lia|]; split; [reflexivity|lia]|]. pose proof (located b ltac:(lia)) as L. destruct (partitionid_index_at p b) as [first ia]. destruct L as (L1 & L2 & L3).
    assert (first <> np) by (intros ->; destruct L3 as [L3 _]; [reflexivity|lia]). split; [lia|]. split; [lia|]. intros _. apply L2. lia. }
  destruct (partitionid_index_at p a) as [first ia]. destruct (partitionid_index_at p b) as [last ib]. destruct La as (A1 & A3 & A2), Lb as (B1 & B3 & B2).
  destruct (Z.ltb_spec 0 s); [lia|]. destruct (Z.ltb_spec s 0); [|lia]. clear H H0.
  assert (HFa : 0 <= first -> a < B (first + 1)) by (intros Hf; destruct (A2 Hf) as (vs & E & Bd & _); rewrite (begin_next _ _ _ E); lia).
  assert (HLb : 0 <= last -> B last <= b < B (last + 1)) by (intros Hf; destruct (B2 Hf) as (vs & E & Bd & _); rewrite (begin_next _ _ _ E); lia).
  assert (HFL : last <= first).
  { destruct (Z.le_gt_cases last first) as [|Hlt]; [assumption|]. specialize (HLb ltac:(lia)). destruct (Z.ltb_spec first 0) as [Hf|Hf]; [specialize (A3 Hf); pose proof (begin_mono vss 0 last ltac:(lia)); rewrite begin_0 in H; lia|].
    specialize (HFa Hf). pose proof (begin_mono vss (first + 1) last ltac:(lia)). lia. }
  match goal with |- context [for_ 0 ?h0 ?f ?s0] => set (body := f); set (st0 := s0); set (h := h0) end.
  assert (E0 : h = first - Z.max 0 last + 1) by reflexivity. clearbody h.
  destruct (Z.eq_dec first (-1)) as [Hf1|Hf1].
  { replace (for_ 0 h body st0) with (Ok st0 : res (Z * list content * list Z * Z)) by (symmetry; apply for_nil; lia). cbn [bind].
    destruct (finish st0 []) as (p' & Ep & Hp); [exists []; repeat split|]. exists p', []. split; [exact Ep|]. split; [exact Hp|]. rewrite py_range_nil by lia. reflexivity. }
  destruct (for_inv (fun k st => exists us, acc st us /\ omap (nthZ (concat vss)) (py_range a (Z.max (B (first - k + 1) - 1) b) s) = Some us /\ (0 < k < h -> fst (fst (fst st)) = (B (first - k + 1) - 1 - a) mod (- s)))
    0 h body st0) as (st & Est & us & HA & HO & _).
  - lia.
  - exists []. split; [exists []; repeat split|]. split; [|lia]. rewrite Z.sub_0_r. rewrite py_range_nil by lia. reflexivity.
  - intros k st Hk (us & HA & HO & HOff). set (i := first - k) in *. assert (Hi : 0 <= i <= first /\ last <= i /\ k = first - i) by (unfold i; lia). destruct Hi as (Hi & Hli & Hki).
    destruct (part_at i ltac:(lia)) as (c & vs & Ec & Ei & Dc & Lc). pose proof (zlen_nonneg vs) as Hvs.
    pose proof (begin_next vss i vs Ei) as BN. pose proof (begin_mono vss (i + 1) np ltac:(lia)) as BM. rewrite begin_all in BM. pose proof (begin_mono vss 0 i ltac:(lia)) as BM0. rewrite begin_0 in BM0.
    set (e := Z.max (B i - 1) b). replace (B (first - (k + 1) + 1)) with (B i) by (f_equal; lia). fold e.
    assert (He : B i - 1 <= e < B (i + 1) /\ (i = last -> ib = e - B i) /\ (i <> last -> e = B i - 1)).
    { unfold e. clear HOff HO. destruct (Z.eq_dec i last) as [Hil|Hne].
      - rewrite <- Hil in *. destruct (B2 ltac:(lia)) as (ws & E & Bd & ->). rewrite E in Ei. injection Ei as ->. clear - Bd BN. lia.
      - assert (b <= B i - 1); [|clear - H BN Hvs Hne; lia]. destruct (Z.ltb_spec last 0) as [Hl|Hl]; [specialize (B3 Hl); lia|]. specialize (HLb Hl). pose proof (begin_mono vss (last + 1) i ltac:(lia)). lia. }
    destruct He as (He1 & HeL & HeN).
    set (lo := if i =? first then ia else zlen vs - 1 - (B (i + 1) - 1 - a) mod (- s)).
    assert (Hlo : lo < zlen vs /\ py_range a e s = py_range a (Z.max (B (i + 1) - 1) b) s ++ py_range (lo + B i) e s /\ (i = first -> lo = a - B i)).
    { unfold lo. clear HOff HO. destruct (Z.eqb_spec i first) as [Hif|Hne].
      - destruct (A2 ltac:(lia)) as (ws & E & Bd & ->). rewrite <- Hif in *. rewrite E in Ei. injection Ei as ->. clear - Bd Hs BN. split; [lia|]. split; [|lia]. rewrite (py_range_nil a (Z.max (B (i + 1) - 1) b)) by lia. cbn [app]. f_equal. lia.
      - pose proof (Z.mod_pos_bound (B (i + 1) - 1 - a) (- s) ltac:(lia)) as MB. split; [lia|]. split; [|contradiction].
        destruct (A2 ltac:(lia)) as (ws & E & Bd & _). pose proof (begin_mono vss (i + 1) first ltac:(lia)) as BF.
        replace (Z.max (B (i + 1) - 1) b) with (B (i + 1) - 1) by (unfold e in He1; lia).
        rewrite (range_split s e ltac:(lia) (Z.to_nat (Z.abs (B (i + 1) - 1 - a))) a (B (i + 1) - 1) ltac:(lia)).
        + do 2 f_equal. rewrite mod_down by exact Hs. lia.
        + destruct (Z.ltb_spec 0 s); [lia|]. clear - He1 BF Bd. lia. }
    destruct Hlo as (Hlo & Hsplit & Hfirst).
    destruct (piece_down c vs i lo (e - B i) s Ei Dc Hs Hlo ltac:(clear - He1 BN; lia) ltac:(clear - HN BM BN BM0; lia)) as (q & vs' & Eq & Dq & Pq). replace (e - B i + B i) with e in Pq by lia.
    assert (HB : exists o, body k st = Ok (push_piece q st o) /\ (0 < k + 1 < h -> o = (B i - 1 - a) mod (- s))).
    { unfold body. destruct st as [[[offset parts] stops] total]. fold i. rewrite Ec. cbn [bind]. rewrite Lc. cbn [fst] in HOff.
      assert (NL : i = last -> 0 < k + 1 < h -> False) by (intros Hil Hx; lia).
      assert (EB : i <> last -> (if - zlen vs - 1 <? 0 then - zlen vs - 1 else - zlen vs - 1) = (if e - B i <? 0 then - zlen vs - 1 else e - B i)).
      { intros Hil. specialize (HeN Hil). destruct (Z.ltb_spec (- zlen vs - 1) 0); [|lia]. destruct (Z.ltb_spec (e - B i) 0); [reflexivity|lia]. }
      unfold lo in Eq, Hfirst.
      destruct (Z.eqb_spec i first) as [Hif|Hif]; destruct (Z.eqb_spec i last) as [Hil|Hil]; cbn [andb].
      - rewrite (HeL Hil), Eq. cbn [bind]. eexists. split; [reflexivity|]. intros Hx. destruct (NL Hil Hx).
      - rewrite (EB Hil), Eq. cbn [bind]. eexists. split; [reflexivity|]. intros _. rewrite (Hfirst Hif). clear - Hs. rewrite rem_mod by lia. f_equal. lia.
      - assert (Hof : offset = (B (i + 1) - 1 - a) mod (- s)) by (apply HOff; lia). rewrite Hof, (HeL Hil), Eq. cbn [bind]. eexists. split; [reflexivity|]. intros Hx. destruct (NL Hil Hx).
      - assert (Hof : offset = (B (i + 1) - 1 - a) mod (- s)) by (apply HOff; lia). rewrite Hof, (EB Hil), Eq. cbn [bind]. eexists. split; [reflexivity|]. intros _. clear - Hs BN. rewrite rem_mod by lia.
        replace (-1 - (zlen vs - 1 - (B (i + 1) - 1 - a) mod - s)) with ((B (i + 1) - 1 - a) mod - s - zlen vs) by lia. rewrite Zminus_mod_idemp_l. f_equal. lia. }
    destruct HB as (o & HB & Ho). exists (push_piece q st o). split; [exact HB|]. destruct (acc_push q vs' st us o HA Dq) as [HA' Ho']. exists (us ++ vs'). split; [exact HA'|]. split.
    + rewrite Hsplit. apply omap_app_Some; assumption.
    + rewrite Ho'. exact Ho.
  - rewrite Est. cbn [bind]. destruct (finish st us HA) as (p' & Ep & Hp). exists p', us. split; [exact Ep|]. split; [exact Hp|]. rewrite <- HO. do 2 f_equal.
    clear HA HO Est Ep. rewrite E0. replace (first - (first - Z.max 0 last + 1) + 1) with (Z.max 0 last) by lia. destruct (Z.ltb_spec last 0) as [Hl|Hl].
    + rewrite (Z.max_l 0 last) by (clear - Hl; lia). rewrite begin_0, (B3 Hl). reflexivity.
    + rewrite (Z.max_r 0 last) by (clear - Hl; lia). specialize (HLb Hl). lia.
Qed.

(** ** the whole operation *)
Lemma pgetitem_range_ok start stop step : step <> 0 -> step < kSliceNone -> N < kSliceNone ->
  exists p' us, pgetitem_range is64 p start stop step = Ok p' /\ holds p' us /\ omap (nthZ (concat vss)) (py_slice (opt64 start) (opt64 stop) step N) = Some us.
Proof.
  intros Hs Hk HN. unfold pgetitem_range. rewrite plength_ok. cbn [bind]. destruct (Z.eqb_spec step kSliceNone); [lia|].
  pose proof (regularize_py start stop step N (zlen_nonneg _) Hs) as R. destruct (regularize_rangeslice _ _ _ _ _ _) as [a b]. destruct R as (Ra & Rp & R1 & R2 & R3). rewrite <- Rp.
  destruct (Z.ltb_spec 0 step); [apply up_ok; lia|apply down_ok; lia].
Qed.
Lemma pgetitem_range_nostep start stop : N < kSliceNone ->
  exists p' us, pgetitem_range is64 p start stop kSliceNone = Ok p' /\ holds p' us /\ omap (nthZ (concat vss)) (py_slice (opt64 start) (opt64 stop) 1 N) = Some us.
Proof.
  intros HN. unfold pgetitem_range. rewrite plength_ok. cbn [bind]. rewrite Z.eqb_refl. change (0 <? kSliceNone) with true.
  pose proof (regularize_py start stop 1 N (zlen_nonneg _) ltac:(lia)) as R. change (0 <? 1) with true in R. destruct (regularize_rangeslice _ _ _ _ _ _) as [a b]. destruct R as (Ra & Rp & R1 & R2 & R3). rewrite <- Rp.
  apply up_ok; try exact HN; unfold kSliceNone; lia.
Qed.
End Part.
