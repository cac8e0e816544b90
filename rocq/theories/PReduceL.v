(** Proofs about the reducers: groups that are runs of consecutive elements. *)
From Verif Require Import Base BaseLemmas OmapLemmas LoopLemmas Content KCore Core KConvert Convert KReduce Reduce SpecArray SpecForm SpecMerge SpecReduce
  PCore PCarry PList PConvert PForm PAxis PNat PPadK PNum PFlatten PLocalIndex POption PReduceK PReduceF PReduceO.

Fixpoint runs (k : Z) (counts : list Z) : list Z := match counts with [] => [] | n :: counts => repeat k (Z.to_nat n) ++ runs (k + 1) counts end.

Lemma zlen_runs counts : nonneg_counts counts -> forall k, zlen (runs k counts) = sumZ counts.
Proof. intros H. induction H as [|n l Hn H IH]; intros k; simpl; [reflexivity|]. rewrite zlen_app, zlen_repeat, IH. lia. Qed.
Lemma runs_range counts : nonneg_counts counts -> forall k, Forall (fun p => k <= p < k + zlen counts) (runs k counts).
Proof.
  intros H. induction H as [|n l Hn H IH]; intros k; simpl; [constructor|]. rewrite zlen_cons. pose proof (zlen_nonneg l). apply Forall_app. split.
  - apply Forall_forall. intros x Hx. apply repeat_spec in Hx. lia.
  - eapply Forall_impl; [|apply (IH (k + 1))]. simpl. intros p Hp. lia.
Qed.
Lemma runs_inside counts n : nonneg_counts counts -> zlen counts = n -> inside n (runs 0 counts).
Proof. intros H <-. exact (runs_range counts H 0). Qed.
Lemma split_groups {A} counts : nonneg_counts counts -> forall xs : list A, zlen xs = sumZ counts -> exists groups, xs = concat groups /\ map zlen groups = counts.
Proof.
  intros H. induction H as [|n l Hn H IH]; intros xs Hx; simpl in Hx; [exists []; rewrite (zlen_0 xs) by lia; split; reflexivity|].
  pose proof (sumZ_nonneg l H). destruct (IH (slice n (zlen xs) xs)) as (gs & E & L); [rewrite zlen_slice by lia; lia|].
  exists (slice 0 n xs :: gs). simpl. rewrite <- E, L. split; [|rewrite zlen_slice by lia; f_equal; lia]. rewrite <- slice_split by lia. rewrite slice_full. reflexivity.
Qed.
Lemma members_repeat {A} k n (l : list A) g : n = zlen l -> members (repeat k (Z.to_nat n)) l g = if k =? g then l else [].
Proof.
  intros ->. unfold members. induction l as [|x l IH]; [simpl; destruct (k =? g); reflexivity|].
  rewrite zlen_cons. pose proof (zlen_nonneg l). replace (Z.to_nat (zlen l + 1)) with (S (Z.to_nat (zlen l))) by lia. simpl. rewrite IH. destruct (k =? g); reflexivity.
Qed.
Lemma members_runs {A} (groups : list (list A)) : forall k g, members (runs k (map zlen groups)) (concat groups) g = match nthZ groups (g - k) with Some l => l | None => [] end.
Proof.
  induction groups as [|l gs IH]; intros k g; simpl; [rewrite nthZ_nil; reflexivity|].
  rewrite members_app by (rewrite zlen_repeat; pose proof (zlen_nonneg l); lia). rewrite members_repeat by reflexivity. rewrite IH, nthZ_cons.
  destruct (Z.eqb_spec k g), (Z.eqb_spec (g - k) 0); try lia.
  - subst. rewrite (nthZ_neg gs) by lia. apply app_nil_r.
  - simpl. replace (g - (k + 1)) with (g - k - 1) by lia. reflexivity.
Qed.
Lemma map_members {A B} (h : list A -> B) groups n : zlen groups = n -> map (fun g => h (members (runs 0 (map zlen groups)) (concat groups) g)) (zseq 0 n) = map h groups.
Proof.
  intros <-. apply list_eqZ; [rewrite !zlen_map, zlen_zseq by apply zlen_nonneg; lia|]. intros i Hi. rewrite zlen_map, zlen_zseq in Hi by apply zlen_nonneg.
  rewrite !nthZ_map, nthZ_zseq by lia. cbn [option_map]. rewrite members_runs, Z.add_0_l, Z.sub_0_r. destruct (nthZ_lt groups i) as [l ->]; [lia|]. reflexivity.
Qed.
Lemma pick_concat {A} (fls : list (list bool)) : forall (groups : list (list A)), map zlen fls = map zlen groups ->
  pick (concat fls) (concat groups) = concat (map (fun fg => pick (fst fg) (snd fg)) (combine fls groups)).
Proof.
  induction fls as [|f fls IH]; intros [|g gs] H; simpl in *; try discriminate; [reflexivity|]. injection H as H1 H2. rewrite pick_app by exact H1. rewrite IH by exact H2. reflexivity.
Qed.
Lemma pick_repeat fl (k : Z) n : n = zlen fl -> pick fl (repeat k (Z.to_nat n)) = repeat k (Z.to_nat (zlen (filter (fun b => b) fl))).
Proof.
  intros ->. induction fl as [|b fl IH]; [reflexivity|]. rewrite zlen_cons. pose proof (zlen_nonneg fl). replace (Z.to_nat (zlen fl + 1)) with (S (Z.to_nat (zlen fl))) by lia. simpl.
  pose proof (zlen_nonneg (filter (fun b => b) fl)). destruct b; rewrite IH; [|reflexivity]. rewrite zlen_cons. replace (Z.to_nat (zlen (filter (fun b => b) fl) + 1)) with (S (Z.to_nat (zlen (filter (fun b => b) fl)))) by lia. reflexivity.
Qed.
Lemma pick_runs fls : forall k, pick (concat fls) (runs k (map zlen fls)) = runs k (map (fun fl => zlen (filter (fun b : bool => b) fl)) fls).
Proof.
  induction fls as [|f fls IH]; intros k; simpl; [reflexivity|]. rewrite pick_app by (rewrite zlen_repeat; pose proof (zlen_nonneg f); lia). rewrite pick_repeat by reflexivity. rewrite IH. reflexivity.
Qed.
Lemma zlen_pick_true {A} fl (l : list A) : zlen fl = zlen l -> zlen (pick fl l) = zlen (filter (fun b : bool => b) fl).
Proof.
  revert l; induction fl as [|b fl IH]; intros [|x l] H; simpl; try reflexivity; rewrite ?zlen_cons in H; try (change (zlen (@nil A)) with 0 in H); try (change (zlen (@nil bool)) with 0 in H);
    try (pose proof (zlen_nonneg fl)); try (pose proof (zlen_nonneg l)); try lia. destruct b; rewrite ?zlen_cons, IH by lia; reflexivity.
Qed.

(** ** where a group starts *)
Definition before (counts : list Z) (g : Z) : Z := sumZ (slice 0 g counts).
Lemma before_0 counts : before counts 0 = 0.
Proof. unfold before. rewrite slice_empty by lia. reflexivity. Qed.
Lemma before_all counts n : zlen counts = n -> before counts n = sumZ counts.
Proof. intros <-. unfold before. rewrite slice_full. reflexivity. Qed.
Lemma slice_beyond_end {A} (l : list A) b : zlen l <= b -> slice 0 b l = l.
Proof. intros H. unfold slice. simpl. rewrite Z.sub_0_r. apply firstn_all2. unfold zlen in H. lia. Qed.
Lemma before_le counts a b : nonneg_counts counts -> 0 <= a <= b -> before counts a <= before counts b.
Proof.
  intros H Hab. unfold before. rewrite (slice_split 0 a b) by lia. rewrite sumZ_app.
  assert (0 <= sumZ (slice a b counts)); [|lia]. apply sumZ_nonneg. apply Forall_forall. intros x Hx. apply In_slice in Hx. unfold nonneg_counts in H. rewrite Forall_forall in H. apply H. exact Hx.
Qed.
Lemma before_step counts g n : nthZ counts g = Some n -> before counts (g + 1) = before counts g + n.
Proof. apply sum_step. Qed.
Lemma nthZ_runs counts : nonneg_counts counts -> forall k i p, nthZ (runs k counts) i = Some p -> before counts (p - k) <= i < before counts (p - k + 1) /\ k <= p < k + zlen counts.
Proof.
  intros H. induction H as [|n l Hn H IH]; intros k i p Hi; simpl in Hi; [rewrite nthZ_nil in Hi; discriminate|].
  rewrite nthZ_app, zlen_repeat, Z2Nat.id in Hi by lia. rewrite zlen_cons. pose proof (zlen_nonneg l). destruct (Z.ltb_spec i n).
  - pose proof (nthZ_Some _ _ _ Hi) as Hb. rewrite zlen_repeat in Hb. rewrite nthZ_repeat in Hi by lia. injection Hi as <-. rewrite Z.sub_diag, before_0. rewrite (before_step _ 0 n) by reflexivity. rewrite before_0. lia.
  - destruct (IH _ _ _ Hi) as [A B]. unfold before in *. replace (p - k) with ((p - (k + 1)) + 1) by lia.
    assert (S1 : forall j, 0 <= j -> slice 0 (j + 1) (n :: l) = n :: slice 0 j l).
    { intros j Hj. unfold slice. rewrite !Z.sub_0_r. replace (Z.to_nat (j + 1)) with (S (Z.to_nat j)) by lia. reflexivity. }
    rewrite !S1 by lia. simpl. lia.
Qed.
Lemma nthZ_offsets_before counts g : 0 <= g <= zlen counts -> nthZ (offsets_of counts) g = Some (before counts g).
Proof. apply nthZ_offsets_of. Qed.

(** ** kernels *)
Lemma nextparents_kernel o : 1 <= zlen o -> nonneg_counts (map diff (pairs o)) ->
  awkward_ListOffsetArray_reduce_local_nextparents_64 (alloc (sumZ (map diff (pairs o)))) o (zlen o - 1) = Ok (runs 0 (map diff (pairs o))).
Proof.
  intros Ho Hn. destruct (offsets_diffs o Ho) as (a & Ha & E). unfold awkward_ListOffsetArray_reduce_local_nextparents_64. unfold rd at 1. rewrite Ha. cbn [bind].
  set (counts := map diff (pairs o)) in *. pose proof (sumZ_nonneg counts Hn) as HS.
  rewrite <- (zlen_pairs o Ho).
  destruct (for_list (pairs o) (fun d to => exists rest, to = runs 0 (map diff d) ++ rest /\ sumZ (map diff d) + zlen rest = sumZ counts) (fun i nextparents =>
    let* lo := rd o i in let* hi := rd o (i + 1) in for_ (lo - a) (hi - a) (fun j nextparents => wr nextparents j i) nextparents) (alloc (sumZ counts))) as (to & HF & rest & -> & L).
  - exists (alloc (sumZ counts)). split; [reflexivity|]. simpl. rewrite zlen_alloc by lia. lia.
  - intros d [x y] rr t Hd (rest & -> & L).
    assert (Hx : nthZ (pairs o) (zlen d) = Some (x, y)) by (rewrite <- Hd; apply nthZ_mid). rewrite nthZ_pairs in Hx.
    destruct (nthZ o (zlen d)) as [x'|] eqn:E1; [|discriminate]. destruct (nthZ o (zlen d + 1)) as [y'|] eqn:E2; [|discriminate]. injection Hx as -> ->.
    unfold rd. rewrite E1, E2. cbn [bind].
    assert (Hc : counts = map diff d ++ (y - x) :: map diff rr) by (unfold counts; rewrite <- Hd, map_app; reflexivity).
    assert (Hnn : nonneg_counts (map diff d) /\ 0 <= y - x /\ nonneg_counts (map diff rr)).
    { unfold nonneg_counts in Hn. rewrite Hc in Hn. apply Forall_app in Hn as [A B]. apply Forall_cons_iff in B as [B1 B2]. auto. }
    destruct Hnn as (N1 & N2 & N3). pose proof (sumZ_nonneg _ N3) as Hrr.
    assert (Hx : x = a + sumZ (map diff d)).
    { assert (Hz : zlen d <= zlen counts). { rewrite Hc, zlen_app, zlen_map. pose proof (zlen_nonneg ((y - x) :: map diff rr)). lia. }
      pose proof (nthZ_offsets_from a counts (zlen d)) as Q. rewrite <- E, E1 in Q. pose proof (zlen_nonneg d). specialize (Q ltac:(lia)). injection Q as ->. f_equal. f_equal. rewrite Hc. rewrite <- (zlen_map diff d) at 1. apply slice_app. }
    assert (HL : sumZ counts = sumZ (map diff d) + (y - x) + sumZ (map diff rr)) by (rewrite Hc, sumZ_app; simpl; lia).
    pose proof (zlen_runs _ N1 0) as HR.
    assert (FA : exists rest', for_ (x - a) (y - a) (fun j nextparents => wr nextparents j (zlen d)) (runs 0 (map diff d) ++ rest) = Ok ((runs 0 (map diff d) ++ map (fun _ => zlen d) (zseq 0 (y - x))) ++ rest') /\ zlen rest = (y - x) + zlen rest').
    { destruct (for_fill_at (fun j o0 => wr o0 (zlen (runs 0 (map diff d)) + j) (zlen d)) (fun _ => zlen d) (y - x) (runs 0 (map diff d)) rest) as (rest' & F1 & F2); [lia|intros; reflexivity|].
      exists rest'. split; [|exact F2]. rewrite <- F1. rewrite for_shift. replace (y - a - (x - a)) with (y - x) by lia. apply for_ext. intros i t _. f_equal. lia. }
    destruct FA as (rest' & F1 & F2). rewrite F1. eexists. split; [reflexivity|]. exists rest'. split; [|rewrite map_app, sumZ_app; change (sumZ (map diff [(x, y)])) with (y - x + 0); lia].
    f_equal. rewrite repeat_map_const, Z.sub_0_r, map_app.
    assert (R : forall l k n, runs k (l ++ [n]) = runs k l ++ repeat (k + zlen l) (Z.to_nat n)).
    { induction l as [|m l IH]; intros k n; simpl; [rewrite app_nil_r; change (zlen (@nil Z)) with 0; rewrite Z.add_0_r; reflexivity|]. rewrite IH, zlen_cons, app_assoc. do 2 f_equal. lia. }
    change (map diff [(x, y)]) with [y - x]. rewrite R, zlen_map, Z.add_0_l. reflexivity.
  - rewrite HF. fold counts in L |- *. pose proof (zlen_nonneg rest). rewrite (zlen_0 rest) by lia. rewrite app_nil_r. reflexivity.
Qed.

Lemma outoffsets_kernel counts n : nonneg_counts counts -> zlen counts = n ->
  awkward_ListOffsetArray_reduce_local_outoffsets_64 (alloc (n + 1)) (runs 0 counts) (zlen (runs 0 counts)) n = Ok (offsets_of counts).
Proof.
  intros Hn Hl. unfold awkward_ListOffsetArray_reduce_local_outoffsets_64. pose proof (zlen_nonneg counts). pose proof (zlen_runs counts Hn 0) as HR.
  set (P := runs 0 counts) in *.
  assert (HP : forall i p, nthZ P i = Some p -> before counts p <= i < before counts (p + 1) /\ 0 <= p < n).
  { intros i p Hi. destruct (nthZ_runs counts Hn 0 i p Hi) as [A B]. rewrite Z.sub_0_r in A. lia. }
  destruct (for_inv (fun i st => exists k rest, st = (k, k - 1, map (before counts) (zseq 0 k) ++ rest) /\ 0 <= k <= n /\ zlen rest = n + 1 - k /\ (forall p, nthZ P (i - 1) = Some p -> k = p + 1) /\ (i = 0 -> k = 0))
    0 (zlen P) (fun i st => let '(k, last, outoffsets) := st in let* p := rd P i in
      let* ko := for_ last p (fun _ ko => let '(k, outoffsets) := ko in let* outoffsets := wr outoffsets k i in Ok (k + 1, outoffsets)) (k, outoffsets) in
      let '(k, outoffsets) := ko in Ok (k, if last <? p then p else last, outoffsets)) (0, -1, alloc (n + 1))) as (st & HF & k & rest & -> & Hk & Hrest & HlastP & H0).
  - apply zlen_nonneg.
  - exists 0, (alloc (n + 1)). split; [reflexivity|]. rewrite zlen_alloc by lia. split; [lia|]. split; [lia|]. split; [|reflexivity]. intros p Hp. rewrite nthZ_neg in Hp by lia. discriminate.
  - intros i t Hi (k & rest & -> & Hk & Hrest & HlastP & H0). destruct (rd_in P i Hi) as (p & -> & Hp). cbn [bind]. destruct (HP _ _ Hp) as [A B].
    assert (Hkp : k - 1 <= p /\ (0 < i -> i <= before counts k)).
    { destruct (Z.eq_dec i 0) as [->|Hi0].
      - rewrite (H0 eq_refl), before_0. lia.
      - destruct (nthZ_lt P (i - 1)) as [q Hq]; [lia|]. pose proof (HlastP _ Hq) as ->. destruct (HP _ _ Hq) as [A' B'].
        assert (q <= p). { destruct (Z.leb_spec q p); [assumption|]. pose proof (before_le counts (p + 1) q Hn ltac:(lia)). lia. }
        split; lia. }
    destruct Hkp as (K1 & K3).
    assert (HkL : zlen (map (before counts) (zseq 0 k)) = k) by (rewrite zlen_map, zlen_zseq by lia; lia).
    destruct (for_append (fun _ => i) (k - 1) p (fun _ ko => let '(k, outoffsets) := ko in let* outoffsets := wr outoffsets k i in Ok (k + 1, outoffsets)) (map (before counts) (zseq 0 k)) rest) as (rest' & F1 & F2); [intros; reflexivity|lia|lia|].
    rewrite HkL in F1. rewrite F1. cbn [bind]. eexists. split; [reflexivity|]. exists (p + 1), rest'.
    split; [|repeat split; try lia; replace (i + 1 - 1) with i by lia; intros q Hq; rewrite Hp in Hq; injection Hq as ->; reflexivity].
    assert (E1 : k + (p - (k - 1)) = p + 1) by lia. assert (E2 : (if k - 1 <? p then p else k - 1) = p + 1 - 1) by (destruct (Z.ltb_spec (k - 1) p); lia). rewrite E1, E2. do 2 f_equal.
    rewrite (zseq_split 0 k (p + 1)) by lia. rewrite map_app. f_equal.
    transitivity (map (fun _ : Z => i) (zseq k (p + 1))); [rewrite !repeat_map_const; f_equal; lia|]. apply map_ext_in. intros g Hg. apply In_zseq in Hg.
    pose proof (before_le counts g p Hn ltac:(lia)). pose proof (before_le counts k g Hn ltac:(lia)). destruct (Z.eq_dec i 0) as [->|]; [|lia]. rewrite (H0 eq_refl), before_0 in *. lia.
  - rewrite HF. cbn [bind].
    assert (HkL : zlen (map (before counts) (zseq 0 k)) = k) by (rewrite zlen_map, zlen_zseq by lia; lia).
    assert (EF : exists rest', for_ k (n + 1) (fun k outoffsets => wr outoffsets k (zlen P)) (map (before counts) (zseq 0 k) ++ rest) = Ok ((map (before counts) (zseq 0 k) ++ map (fun _ => zlen P) (zseq 0 (n + 1 - k))) ++ rest') /\ zlen rest = n + 1 - k + zlen rest').
    { destruct (for_fill_at (fun j o0 => wr o0 (zlen (map (before counts) (zseq 0 k)) + j) (zlen P)) (fun _ => zlen P) (n + 1 - k) (map (before counts) (zseq 0 k)) rest) as (rest' & F1 & F2); [lia|intros; reflexivity|].
      exists rest'. split; [|exact F2]. rewrite <- F1. rewrite HkL. rewrite for_shift. reflexivity. }
    destruct EF as (rest' & F1 & F2). rewrite F1. f_equal. pose proof (zlen_nonneg rest'). rewrite (zlen_0 rest') by lia. rewrite app_nil_r.
    assert (EO : offsets_of counts = map (before counts) (zseq 0 (n + 1))).
    { apply list_eqZ; [rewrite zlen_offsets_of, zlen_map, zlen_zseq by lia; lia|]. intros i Hi. rewrite zlen_offsets_of in Hi. rewrite nthZ_offsets_before by lia. rewrite nthZ_map, nthZ_zseq by lia. reflexivity. }
    rewrite EO, (zseq_split 0 k (n + 1)) by lia. rewrite map_app. f_equal.
    transitivity (map (fun _ : Z => zlen P) (zseq k (n + 1))); [rewrite !repeat_map_const; f_equal; lia|]. apply map_ext_in. intros g Hg. apply In_zseq in Hg.
    rewrite HR, <- (before_all counts n Hl). pose proof (before_le counts g n Hn ltac:(lia)). pose proof (before_le counts k g Hn ltac:(lia)).
    destruct (Z.eq_dec (zlen P) 0) as [E0|].
    + pose proof (before_all counts n Hl). pose proof (before_le counts 0 g Hn ltac:(lia)). rewrite before_0 in *. lia.
    + pose proof (zlen_nonneg P). destruct (nthZ_lt P (zlen P - 1)) as [q Hq]; [lia|]. pose proof (HlastP _ Hq) as ->. destruct (HP _ _ Hq) as [A' B']. pose proof (before_all counts n Hl). lia.
Qed.

Lemma fix_offsets_kernel starts m : awkward_IndexedArray_reduce_next_fix_offsets_64 (alloc (zlen starts + 1)) starts (zlen starts) m = Ok (starts ++ [m]).
Proof.
  unfold awkward_IndexedArray_reduce_next_fix_offsets_64. pose proof (zlen_nonneg starts).
  rewrite (for_fill (fun i outoffsets => let* s := rd starts i in wr outoffsets i s) (fun i => match nthZ starts i with Some s => s | None => 0 end)).
  2: rewrite zlen_alloc by lia; lia.
  2: { intros i out' Hi _. destruct (rd_in starts i Hi) as (x & -> & ->). reflexivity. }
  cbn [bind]. rewrite (map_nth_zseq (fun x => x) 0 starts). rewrite map_id. rewrite zlen_alloc by lia.
  destruct (wr_push' starts (slice (zlen starts) (zlen starts + 1) (alloc (zlen starts + 1))) m) as (r' & Hw & Hr'); [rewrite zlen_slice by (rewrite ?zlen_alloc; lia); lia|].
  rewrite Hw. rewrite zlen_slice in Hr' by (rewrite ?zlen_alloc; lia). rewrite (zlen_0 r') by lia. rewrite app_nil_r. reflexivity.
Qed.
Lemma starts_of_offsets counts : slice 0 (zlen counts) (offsets_of counts) ++ [sumZ counts] = offsets_of counts.
Proof.
  rewrite <- (slice_full (offsets_of counts)) at 2. rewrite zlen_offsets_of. pose proof (zlen_nonneg counts). rewrite (slice_snoc_nth 0 (zlen counts) _ (sumZ counts)); [reflexivity|lia|].
  rewrite nthZ_offsets_before by lia. rewrite (before_all counts _ eq_refl). reflexivity.
Qed.
