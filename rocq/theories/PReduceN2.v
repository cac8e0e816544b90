(** Proofs about the reducers along the outer axis of two: a list node. *)
From Verif Require Import Base BaseLemmas OmapLemmas LoopLemmas Content KCore Core KConvert Convert KOption Option KAxis Axis KMerge Merge KReduce Reduce SpecArray SpecForm SpecMerge SpecReduce
  PCore PCarry PList PConvert PForm PAxis PNat PPadK PNum PFlatten PAt PLocalIndex POption PReduceK PReduceF PReduceO PReduceL PReduceV PReduce PReduceN PValid.

Lemma sub_ok_cases n ab : sub_ok n ab = true -> fst ab = snd ab \/ 0 <= fst ab <= snd ab /\ snd ab <= n.
Proof. unfold sub_ok. intros H. lia. Qed.
Lemma nthZ_seg ws p t : sub_ok (zlen ws) p = true -> 0 <= t -> nthZ (seg ws p) t = if t <? diff p then nthZ ws (fst p + t) else None.
Proof.
  intros H Ht. unfold seg, diff. destruct (sub_ok_cases _ _ H) as [E|[E1 E2]].
  - rewrite E, slice_nil. destruct (Z.ltb_spec t (snd p - snd p)); [lia|]. apply nthZ_nil.
  - destruct (Z.ltb_spec t (snd p - fst p)); [rewrite nthZ_slice by lia; reflexivity|]. apply nthZ_ge. rewrite zlen_slice by lia. lia.
Qed.
Lemma column_carry ws ps t : forallb (sub_ok (zlen ws)) ps = true -> 0 <= t -> forall tags, zlen tags = zlen ps ->
  omap (nthZ ws) (col ps t) = Some (map snd (column (combine tags (map VList (map (seg ws) ps))) t)).
Proof.
  intros Hs Ht. induction ps as [|p ps IH]; intros [|tag tags] Hl; rewrite ?zlen_cons in Hl; try reflexivity.
  - change (zlen (@nil Z)) with 0 in Hl. pose proof (zlen_nonneg ps). lia.
  - cbn [forallb] in Hs. apply andb_true_iff in Hs as [Hp Hs]. cbn [map combine]. unfold column. cbn [flat_map snd]. rewrite map_app. change (p :: ps) with ([p] ++ ps). rewrite col_app, col_one.
    apply omap_app_Some; [|apply IH; [exact Hs|lia]]. rewrite (nthZ_seg ws p t Hp Ht). unfold entry. destruct (Z.ltb_spec t (diff p)); [|reflexivity].
    destruct (sub_ok_cases _ _ Hp) as [E|[E1 E2]]; [unfold diff in *; lia|]. destruct (nthZ_lt ws (fst p + t)) as [v Hv]; [unfold diff in *; lia|]. cbn [omap]. rewrite Hv. reflexivity.
Qed.
Lemma width_maxlen ws ps : forallb (sub_ok (zlen ws)) ps = true -> forall tags, zlen tags = zlen ps -> width (combine tags (map VList (map (seg ws) ps))) = maxlen ps.
Proof.
  intros Hs. induction ps as [|p ps IH]; intros [|tag tags] Hl; rewrite ?zlen_cons in Hl; try reflexivity.
  - change (zlen (@nil Z)) with 0 in Hl. pose proof (zlen_nonneg ps). lia.
  - pose proof (map_zlen_seg ws (p :: ps) Hs) as HZ. cbn [forallb] in Hs. apply andb_true_iff in Hs as [Hp Hs]. cbn [map] in HZ. injection HZ as HZ _. unfold width, maxlen. cbn [map combine fold_right snd]. rewrite HZ. f_equal. apply IH; [exact Hs|lia].
Qed.
Lemma combine_fst_snd {A B} (l : list (A * B)) : combine (map fst l) (map snd l) = l.
Proof. induction l as [|[a b] l IH]; [reflexivity|]. cbn [map combine fst snd]. rewrite IH. reflexivity. Qed.
Lemma combine_concat {A B} (ls : list (list (A * B))) : combine (concat (map (map fst) ls)) (concat (map (map snd) ls)) = concat ls.
Proof.
  induction ls as [|l ls IH]; [reflexivity|]. cbn [map concat]. rewrite <- IH, <- (combine_fst_snd l) at 1. clear. induction l as [|[a b] l IHl]; [reflexivity|]. cbn [map combine app fst snd]. rewrite IHl. reflexivity.
Qed.
(** the rows an element of a column comes from *)
Lemma column_rows ws ps t q tag : forallb (sub_ok (zlen ws)) ps = true -> 0 <= t -> forall a, nthZ (map fst (column (combine (zseq a (a + zlen ps)) (map VList (map (seg ws) ps))) t)) q = Some tag ->
  exists d x r, d ++ x :: r = ps /\ tag = a + zlen d /\ t < diff x /\ q = zlen (col d t) /\ nthZ (col ps t) q = Some (fst x + t).
Proof.
  intros Hs Ht. revert q. induction ps as [|p ps IH]; intros q a H.
  - change (zlen (@nil (Z * Z))) with 0 in H. rewrite zseq_nil in H by lia. cbn in H. rewrite nthZ_nil in H. discriminate.
  - cbn [forallb] in Hs. apply andb_true_iff in Hs as [Hp Hs]. rewrite zlen_cons in H. pose proof (zlen_nonneg ps). rewrite zseq_cons in H by lia. cbn [map combine] in H. unfold column in H. cbn [flat_map fst snd] in H. rewrite (nthZ_seg ws p t Hp Ht) in H.
    replace (a + (zlen ps + 1)) with (a + 1 + zlen ps) in H by lia. fold (column (combine (zseq (a + 1) (a + 1 + zlen ps)) (map VList (map (seg ws) ps))) t) in H.
    change (p :: ps) with ([p] ++ ps). rewrite col_app, col_one. unfold entry. destruct (Z.ltb_spec t (diff p)) as [L|L].
    + destruct (sub_ok_cases _ _ Hp) as [E|[E1 E2]]; [unfold diff in *; lia|]. destruct (nthZ_lt ws (fst p + t)) as [v Hv]; [unfold diff in *; lia|]. rewrite Hv in H. cbn [app map fst] in H. rewrite nthZ_cons in H. cbn [app]. rewrite nthZ_cons.
      destruct (Z.eqb_spec q 0) as [->|Hq].
      * injection H as <-. exists [], p, ps. split; [reflexivity|]. change (zlen (@nil (Z * Z))) with 0. split; [lia|]. split; [exact L|]. split; reflexivity.
      * destruct (IH Hs (q - 1) (a + 1) H) as (d & x & r & Ed & Et & Hd & Eq & Ec). exists (p :: d), x, r. split; [cbn [app]; rewrite Ed; reflexivity|]. rewrite zlen_cons. split; [lia|]. split; [exact Hd|]. split; [|exact Ec].
        change (p :: d) with ([p] ++ d). rewrite col_app, col_one, zlen_app. unfold entry. destruct (Z.ltb_spec t (diff p)); [|lia]. change (zlen [fst p + t]) with 1. lia.
    + cbn [app] in H |- *. destruct (IH Hs q (a + 1) H) as (d & x & r & Ed & Et & Hd & Eq & Ec). exists (p :: d), x, r. split; [cbn [app]; rewrite Ed; reflexivity|]. rewrite zlen_cons. split; [lia|]. split; [exact Hd|]. split; [|exact Ec].
      change (p :: d) with ([p] ++ d). rewrite col_app, col_one, zlen_app. unfold entry. destruct (Z.ltb_spec t (diff p)); [lia|]. change (zlen (@nil Z)) with 0. lia.
Qed.
Lemma nthZ_concat {A} (segs : list (list A)) : forall t i l, nthZ segs t = Some l -> before (map zlen segs) t <= i < before (map zlen segs) (t + 1) -> nthZ (concat segs) i = nthZ l (i - before (map zlen segs) t).
Proof.
  induction segs as [|s segs IH]; intros t i l Hl Hi; [rewrite nthZ_nil in Hl; discriminate|]. rewrite nthZ_cons in Hl. cbn [concat]. rewrite nthZ_app. pose proof (zlen_nonneg s). pose proof (zlen_nonneg segs).
  assert (HB : forall g, 1 <= g -> before (map zlen (s :: segs)) g = zlen s + before (map zlen segs) (g - 1)).
  { intros g Hg. unfold before. cbn [map]. destruct (Z.le_gt_cases g (zlen (map zlen (s :: segs)))) as [Hle|Hgt].
    - cbn [map] in Hle. rewrite (slice_cons_nth 0 g (zlen s :: map zlen segs) (zlen s)) by (lia || reflexivity). unfold sumZ. cbn [fold_right]. f_equal. f_equal. change (zlen s :: map zlen segs) with ([zlen s] ++ map zlen segs).
      rewrite slice_app_shift by (change (zlen [zlen s]) with 1; lia). change (zlen [zlen s]) with 1. f_equal; lia.
    - cbn [map] in Hgt. rewrite slice_beyond_end by (cbn [map]; lia). rewrite zlen_cons in Hgt. rewrite slice_beyond_end by lia. unfold sumZ. reflexivity. }
  destruct (Z.eqb_spec t 0) as [->|Ht].
  - injection Hl as ->. rewrite before_0 in *. rewrite HB in Hi by lia. replace (0 + 1 - 1) with 0 in Hi by lia. rewrite before_0 in Hi. destruct (Z.ltb_spec i (zlen l)); [|lia]. f_equal. lia.
  - pose proof (nthZ_Some _ _ _ Hl). rewrite !HB in Hi by lia. replace (t + 1 - 1) with (t - 1 + 1) in Hi by lia. pose proof (before_le (map zlen segs) 0 (t - 1) (nonneg_zlens segs) ltac:(lia)) as B0. rewrite before_0 in B0.
    destruct (Z.ltb_spec i (zlen s)); [lia|]. rewrite (IH (t - 1) (i - zlen s) l Hl) by lia. f_equal. rewrite HB by lia. lia.
Qed.

Lemma prepared_flat pos c : has_levels (form_of c) 1 = true -> union_free (form_of c) = true -> (pos = true -> unindexed c = true) -> prepared true pos c.
Proof.
  induction c using content_ind'; intros Hl Hu Hp; cbn [prepared]; try exact I; try (cbn [form_of] in Hl; rewrite list_deep in Hl; discriminate).
  - split; [left; exact Hl|]. apply IHc; [exact Hl|exact Hu|]. intros ->. specialize (Hp eq_refl). discriminate.
  - split; [left; exact Hl|]. split; [intros E; right; exact (Hp E)|]. apply IHc; [exact Hl|exact Hu|exact Hp].
  - split; [left; exact Hl|]. split; [intros E; right; exact (Hp E)|]. apply IHc; [exact Hl|exact Hu|exact Hp].
  - split; [left; exact Hl|]. split; [intros E; right; exact (Hp E)|]. apply IHc; [exact Hl|exact Hu|exact Hp].
  - split; [left; exact Hl|]. split; [intros E; right; exact (Hp E)|]. apply IHc; [exact Hl|exact Hu|exact Hp].
  - destruct pos; [specialize (Hp eq_refl); discriminate|]. apply prep_all. rewrite Forall_forall in H |- *. intros c Hc. apply H; [exact Hc| | |discriminate].
    + cbn [form_of] in Hl. apply has_levels_eq in Hl. apply has_levels_eq. eapply levels_record_all; [exact Hl|]. apply in_map. exact Hc.
    + cbn [form_of] in Hu. change (forallb union_free (map form_of cs) = true) in Hu. rewrite forallb_forall in Hu. apply Hu. apply in_map. exact Hc.
  - cbn [form_of] in Hu. discriminate.
Qed.

Section Outer.
Variable F : floats.
Variable is64 : content -> bool.
Variable rr : content -> bool.
Variable rc : Z -> Z.
Variable narrow : content -> bool.
Variable refeq : content -> content -> bool.
Variable mfuel : nat.
Variable r : reducer.
Variable mask : bool.
Notation pos := (returns_positions r).
Notation RN := (reduce_next F is64 rr rc narrow refeq mfuel r mask).
Notation redu := (red F r mask).

Definition LN (fuel : nat) (starts parents : list Z) (keepdims : bool) (offsets : list Z) (c' : content) : res content :=
  if negb (zlen offsets - 1 =? zlen parents) then Err "offsets_.length() - 1 != parents.length()" else
  let* globalstart := rd offsets 0 in
  let* globalstop := rd offsets (zlen offsets - 1) in
  let nextlen := globalstop - globalstart in
  let* mo := awkward_ListOffsetArray_reduce_nonlocal_maxcount_offsetscopy_64 (alloc (zlen offsets)) offsets (zlen offsets - 1) in
  let '(maxcount, offsetscopy) := mo in
  let* nx := awkward_ListOffsetArray_reduce_nonlocal_preparenext_64 (alloc nextlen) (alloc nextlen) nextlen (alloc (maxcount * 1)) (maxcount * 1)
               offsetscopy offsets (zlen offsets - 1) parents maxcount in
  let '(nextcarry, nextparents, maxnextparents, distincts) := nx in
  let* nextstarts := awkward_ListOffsetArray_reduce_nonlocal_nextstarts_64 (alloc (maxnextparents + 1)) nextparents nextlen in
  let* gaps := awkward_ListOffsetArray_reduce_nonlocal_findgaps_64 (alloc 1) parents (zlen parents) in
  let* ss := awkward_ListOffsetArray_reduce_nonlocal_outstartsstops_64 (alloc 1) (alloc 1) distincts (maxcount * 1) gaps 1 in
  let '(outstarts, outstops) := ss in
  let* nextshifts := if returns_positions r then
      awkward_ListOffsetArray_reduce_nonlocal_nextshifts_64 (alloc maxcount) (alloc globalstop) (alloc nextlen) offsets (zlen offsets - 1) starts parents maxcount nextlen nextcarry
    else Ok [] in
  let* nextcontent := carry c' nextcarry false in
  let* outcontent := RN fuel nextcontent (2 - 1) nextstarts nextshifts nextparents (maxnextparents + 1) false in
  let* out := mkListA outstarts outstops outcontent in
  if keepdims then
    let* reg := mkRegular 1 (zlen offsets - 1) out in
    toListOffsetArray64 true false reg
  else Ok out.

Lemma keepdims_list s t x n : 0 <= n -> (let* reg := mkRegular 1 n (ListA [s] [t] x) in toListOffsetArray64 true false reg) = Ok (ListOffset [0; 1] (ListA [s] [t] x)).
Proof. intros H. reflexivity. Qed.

Lemma LN_good fuel o c' vs starts tags kd :
  den (ListOffset o c') = Some vs -> union_free (form_of c') = true -> levels (form_of c') = Some 1 -> (bound c' <= fuel)%nat -> zlen tags = zlen vs ->
  (pos = true -> unindexed c' = true /\ starts = [0] /\ tags = zseq 0 (zlen vs)) ->
  exists s t x l, LN fuel starts (repeat 0 (length vs)) kd o c' = Ok (if kd then ListOffset [0; 1] (ListA [s] [t] x) else ListA [s] [t] x) /\ den (ListA [s] [t] x) = Some [VList l] /\
    VList l = redu false 2 (FList (form_of c')) (combine tags vs).
Proof.
  intros Hd Hu Hlv Hb Ht Hp1.
  pose proof (list_inv _ _ _ _ Hd eq_refl) as (ws & Hws & Hsub & Evs). set (ps := pairs o) in *.
  assert (Ho : 1 <= zlen o). { cbn [den] in Hd. rewrite Hws in Hd. destruct (Z.leb_spec 1 (zlen o)); [assumption|discriminate]. }
  assert (HR : rising ps). { apply Forall_forall. intros p Hp. rewrite forallb_forall in Hsub. exact (sub_ok_diff _ _ (Hsub p Hp)). }
  assert (Hlv0 : length vs = length ps) by (rewrite Evs, !map_length; reflexivity).
  assert (Hzv : zlen vs = zlen ps) by (unfold zlen; rewrite Hlv0; reflexivity).
  pose proof (zlen_pairs o Ho) as Hzp. fold ps in Hzp.
  destruct (offsets_diffs o Ho) as (a & Ha & Eo). fold ps in Eo.
  assert (Hlast : nthZ o (zlen o - 1) = Some (a + sumZ (map diff ps))). { rewrite <- Hzp, <- (zlen_map diff ps). rewrite Eo at 1. apply nthZ_offsets_last. }
  set (M := maxlen ps). pose proof (maxlen_pos ps) as HM. fold M in HM.
  assert (Hn : sumZ (sizes ps M) = sumZ (map diff ps)) by (apply sizes_total; [exact HR|apply maxlen_le|exact HM]).
  set (ms := combine tags vs). set (groups := map (column ms) (zseq 0 M)).
  assert (Hgz : map zlen groups = sizes ps M).
  { unfold groups, sizes. rewrite map_map. apply map_ext_in. intros t Hin. apply In_zseq in Hin. unfold ms. rewrite Evs. pose proof (column_carry ws ps t Hsub ltac:(lia) tags ltac:(lia)) as C. apply omap_zlen in C. rewrite zlen_map in C. exact C. }
  set (alltags := concat (map (map fst) groups)). set (carried := concat (map (map snd) groups)).
  assert (Hcarry : omap (nthZ ws) (upto ps M) = Some carried).
  { unfold upto, carried, groups. rewrite omap_concat, omap_map. rewrite (omap_ext _ (fun t => Some (map snd (column ms t)))); [rewrite omap_Some_map, map_map; reflexivity|]. intros t Hin. apply In_zseq in Hin. unfold ms. rewrite Evs. apply column_carry; [exact Hsub|lia|lia]. }
  assert (Hpz : zlen (repeat 0 (length vs)) = zlen vs) by (rewrite zlen_repeat; reflexivity).
  assert (Hzr : zlen (runs 0 (sizes ps M)) = sumZ (map diff ps)) by (rewrite zlen_runs by apply sizes_nonneg; exact Hn).
  assert (Hzu : zlen (upto ps M) = sumZ (map diff ps)) by (rewrite zlen_upto; exact Hn).
  unfold LN. rewrite Hpz, Hzv, Hzp, Z.eqb_refl. cbn [negb]. unfold rd at 1 2. rewrite Ha, Hlast. cbn [bind]. replace (a + sumZ (map diff ps) - a) with (sumZ (map diff ps)) by lia.
  rewrite (maxcount_kernel o Ho HR). cbn [bind]. fold ps. fold M.
  destruct (prepare_kernel o Ho HR (repeat 0 (length vs))) as (mnp & E & Em); [fold ps; rewrite Hlv0; reflexivity|]. cbv zeta in E. fold ps in E. fold M in E. rewrite E. cbn [bind]. fold ps in Em. fold M in Em. clear E.
  destruct (nextstarts_kernel (sizes ps M) (mnp + 1)) as (ns & E & Hns); [|rewrite zlen_sizes by exact HM; lia|].
  { apply Forall_forall. intros n Hin. unfold sizes in Hin. apply in_map_iff in Hin as (t & <- & Hin). apply In_zseq in Hin. apply col_nonempty. fold M. lia. }
  rewrite Hzr in E. rewrite E. cbn [bind]. clear E. rewrite <- Hzp, <- Hzv, <- Hpz. rewrite findgaps_kernel. cbn [bind]. rewrite Z.mul_1_r.
  rewrite outstartsstops_kernel; [|exact HM|]. 2:{ intros HM0 E. rewrite Hlv0 in E. destruct ps; [unfold M in HM0; cbn in HM0; lia|discriminate]. }
  cbn [bind]. rewrite zlen_sizes in Hns by exact HM.
  assert (HS : exists sh, (if pos then awkward_ListOffsetArray_reduce_nonlocal_nextshifts_64 (alloc M) (alloc (a + sumZ (map diff ps))) (alloc (sumZ (map diff ps))) o (zlen (repeat 0 (length vs))) starts (repeat 0 (length vs)) M (sumZ (map diff ps)) (upto ps M)
     else Ok []) = Ok sh /\ (pos = true -> placed ns sh (runs 0 (sizes ps M)) alltags)).
  { destruct pos; [|exists []; split; [reflexivity|discriminate]]. destruct (Hp1 eq_refl) as (_ & -> & ->).
    destruct (nextshifts_kernel o (repeat 0 (length vs)) (upto ps M) (a + sumZ (map diff ps))) as (sh & E & Hz & HSh); try assumption.
    - intros p Hp Hdp. rewrite forallb_forall in Hsub. destruct (sub_ok_cases _ _ (Hsub p Hp)) as [|[? ?]]; [unfold diff in Hdp; lia|lia].
    - fold ps. rewrite Hlv0. reflexivity.
    - intros c Hc. apply in_concat in Hc as (l & Hl & Hc). apply in_map_iff in Hl as (t & <- & Hin). apply In_zseq in Hin. unfold col in Hc. apply in_flat_map in Hc as (x & Hx & Hc). unfold entry in Hc. destruct (Z.ltb_spec t (diff x)); [|destruct Hc]. destruct Hc as [<-|[]].
      apply in_split in Hx as (d & r' & E). exists d, x, r', t. split; [symmetry; exact E|]. split; [lia|reflexivity].
    - fold ps in E. fold M in E. rewrite Hzu in E. rewrite Hpz, Hzv, Hzp. exists sh. split; [exact E|]. intros _ i p tag Hi Htag.
      destruct (nthZ_runs _ (sizes_nonneg ps M) 0 i p Hi) as [Hbi Hpr]. rewrite Z.sub_0_r in Hbi. rewrite zlen_sizes in Hpr by exact HM. rewrite Z.add_0_l in Hpr.
      assert (Hcol : nthZ (upto ps M) i = nthZ (col ps p) (i - before (sizes ps M) p)).
      { pose proof (nthZ_concat (map (col ps) (zseq 0 M)) p i (col ps p)) as C. rewrite map_map in C. apply C; [rewrite nthZ_map, nthZ_zseq by lia; reflexivity|exact Hbi]. }
      assert (Htg : nthZ alltags i = nthZ (map fst (column ms p)) (i - before (sizes ps M) p)).
      { pose proof (nthZ_concat (map (map fst) groups) p i (map fst (column ms p))) as C. assert (Cz : map zlen (map (map fst) groups) = sizes ps M) by (rewrite <- Hgz, map_map; apply map_ext; intros x; apply zlen_map). rewrite Cz in C.
        apply C; [unfold groups; rewrite !nthZ_map, nthZ_zseq by lia; reflexivity|exact Hbi]. }
      rewrite Htg in Htag. unfold ms in Htag. rewrite Hzv, Evs in Htag. destruct (column_rows ws ps p _ tag Hsub ltac:(lia) 0 Htag) as (d & x & r' & Ed & Et & Hdx & Eq & Ec).
      exists (before (sizes ps M) p), (short d p). split; [apply Hns; lia|]. rewrite <- Hcol in Ec. pose proof (HSh i d x r' p Ed ltac:(lia) Ec) as Hsi. split.
      + pose proof (nthZ_Some _ _ _ Hsi). destruct (Z.eqb_spec (zlen sh) 0); [lia|exact Hsi].
      + pose proof (short_col d p). lia. }
  destruct HS as (sh & -> & HS). cbn [bind].
  destruct (carry_den c' ws (upto ps M) carried false Hws Hcarry) as (next & Hnext & Hdn). rewrite Hnext. cbn [bind]. destruct (carry_same _ _ _ _ Hnext) as [Hf Hbn]. pose proof (carry_kind _ _ _ _ Hnext) as [K1 K2].
  assert (Hl1 : has_levels (form_of c') 1 = true) by (apply has_levels_eq; exact Hlv).
  assert (Hzc : zlen carried = sumZ (map diff ps)) by (apply omap_zlen in Hcarry; lia).
  change (2 - 1) with 1.
  destruct (main F is64 rr rc narrow refeq mfuel r mask true (fun _ => eq_refl) fuel next carried ns sh (runs 0 (sizes ps M)) (mnp + 1) false alltags 1) as (out & E & Ed & _); try assumption; try (rewrite Hf; assumption).
  - pose proof (need_bound next). lia.
  - rewrite Hf. apply (levels1 _ Hl1 Hu).
  - apply prepared_flat; [rewrite Hf; exact Hl1|rewrite Hf; exact Hu|]. intros Hpp. apply K2. apply (Hp1 Hpp).
  - lia.
  - lia.
  - apply Forall_forall. intros x Hx. pose proof (runs_inside (sizes ps M) M (sizes_nonneg ps M) (zlen_sizes ps M HM)) as HI. unfold inside in HI. rewrite Forall_forall in HI. specialize (HI x Hx). cbn in HI. lia.
  - rewrite Hzc, <- Hn, <- Hgz. unfold alltags. rewrite zlen_concat, map_map. f_equal. apply map_ext. intros x. apply zlen_map.
  - intros _ Hpp. split; [apply HS; exact Hpp|]. right. apply K2. apply (Hp1 Hpp).
  - rewrite Hf. congruence.
  - rewrite E. cbn [bind]. rewrite Hf in Ed.
    assert (Eg : forall g, members (runs 0 (sizes ps M)) (combine alltags carried) g = match nthZ groups g with Some l => l | None => [] end).
    { intros g. unfold alltags, carried. rewrite combine_concat, <- Hgz, members_runs. rewrite Z.sub_0_r. reflexivity. }
    set (l := map (fun j => redu false 1 (form_of c') (column ms j)) (zseq 0 M)).
    assert (Hl : slice 0 M (map (fun g => redu false 1 (form_of c') (members (runs 0 (sizes ps M)) (combine alltags carried) g)) (zseq 0 (mnp + 1))) = l).
    { rewrite slice_map. rewrite slice_zseq by lia. apply map_ext_in. intros j Hj. apply In_zseq in Hj. rewrite Eg. unfold groups. rewrite nthZ_map, nthZ_zseq by lia. reflexivity. }
    set (s := if M =? 0 then 1 else 0). set (t := if M =? 0 then 1 else M).
    assert (Ess : (if M =? 0 then ([1], [1]) else ([0], [M])) = ([s], [t])) by (unfold s, t; destruct (M =? 0); reflexivity). rewrite Ess. exists s, t, out, l. split; [|split].
    + change (mkListA [s] [t] out) with (Ok (ListA [s] [t] out)). cbn [bind]. destruct kd; [|reflexivity]. apply keepdims_list. apply zlen_nonneg.
    + cbn [den]. rewrite Ed. change (zlen [s] <=? zlen [t]) with true. cbv iota. cbn [combine omap fst snd]. unfold sublist, s, t. destruct (Z.eqb_spec M 0) as [E0|E0].
      * cbn. unfold l. rewrite E0. reflexivity.
      * rewrite zlen_map, zlen_zseq by lia. destruct (Z.eqb_spec 0 M); [lia|]. destruct (Z.leb_spec 0 M); [|lia]. destruct (Z.leb_spec M (mnp + 1 - 0)); [|lia]. cbn [Z.leb andb]. rewrite Hl. reflexivity.
    + cbn [red]. assert (HL2 : has_levels (FList (form_of c')) 2 = true) by (apply has_levels_eq; cbn [levels]; rewrite Hlv; reflexivity). rewrite HL2. unfold l, ms. rewrite Evs, width_maxlen by (exact Hsub || lia). reflexivity.
Qed.
End Outer.
