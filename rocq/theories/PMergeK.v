(** The filling kernels. *)
From Verif Require Import Base BaseLemmas OmapLemmas LoopLemmas Content SpecArray KCore Core KMerge PCore PCarry PList POption PPromote.

Lemma fill_src {A B} (body : Z -> list B -> res (list B)) (src : list A) (g : A -> B) n d rest :
  0 <= n <= zlen src -> n <= zlen rest ->
  (forall i o, body i o = let* x := rd src i in wr o (zlen d + i) (g x)) ->
  exists rest', for_ 0 n body (d ++ rest) = Ok ((d ++ map g (slice 0 n src)) ++ rest') /\ zlen rest = n + zlen rest'.
Proof.
  intros H1 H2 Hb. destruct src as [|a0 src'].
  - change (zlen (@nil A)) with 0 in H1. assert (n = 0) by lia. subst. exists rest. rewrite for_nil by lia. rewrite slice_nil. simpl. rewrite app_nil_r. split; [reflexivity|lia].
  - remember (a0 :: src') as src eqn:Es. clear Es.
    destruct (for_fill_at body (fun i => g (match nthZ src i with Some x => x | None => a0 end)) n d rest) as (rest' & E & L); [lia| |].
    + intros i o Hi Ho. rewrite Hb. destruct (rd_in src i) as (x & -> & ->); [lia|]. reflexivity.
    + exists rest'. rewrite E. split; [|exact L]. do 3 f_equal. apply map_nthZ_slice; [lia|lia|]. intros i x Hi Hx. rewrite Hx. reflexivity.
Qed.

Definition shifti (base v : Z) : Z := if v <? 0 then -1 else v + base.
Lemma indexed_fill_spec d rest index base : zlen index <= zlen rest ->
  exists rest', awkward_IndexedArray_fill (d ++ rest) (zlen d) index (zlen index) base = Ok ((d ++ map (shifti base) index) ++ rest') /\ zlen rest = zlen index + zlen rest'.
Proof.
  intros H. unfold awkward_IndexedArray_fill. pose proof (zlen_nonneg index).
  destruct (fill_src (fun i toindex => let* fromval := rd index i in wr toindex (zlen d + i) (if fromval <? 0 then -1 else fromval + base)) index (shifti base) (zlen index) d rest) as (r & E & L); [lia|lia|reflexivity|].
  exists r. rewrite slice_full in E. split; [exact E|exact L].
Qed.
Lemma fill_count_spec d rest n base : 0 <= n <= zlen rest ->
  exists rest', awkward_IndexedArray_fill_count (d ++ rest) (zlen d) n base = Ok ((d ++ zseq base (base + n)) ++ rest') /\ zlen rest = n + zlen rest'.
Proof.
  intros H. unfold awkward_IndexedArray_fill_count.
  destruct (for_fill_at (fun i o => wr o (zlen d + i) (i + base)) (fun i => i + base) n d rest) as (r & E & L); [lia|reflexivity|].
  exists r. rewrite E. split; [|exact L]. do 3 f_equal. rewrite <- (map_zseq_shift (fun i => i) 0 n base). rewrite map_id. f_equal; lia.
Qed.
Lemma filltags_const_spec d rest n base : 0 <= n <= zlen rest ->
  exists rest', awkward_UnionArray_filltags_const (d ++ rest) (zlen d) n base = Ok ((d ++ map (fun _ => base) (zseq 0 n)) ++ rest') /\ zlen rest = n + zlen rest'.
Proof. intros H. unfold awkward_UnionArray_filltags_const. apply for_fill_at; [lia|reflexivity]. Qed.
Lemma filltags_spec d rest tags base : zlen tags <= zlen rest ->
  exists rest', awkward_UnionArray_filltags (d ++ rest) (zlen d) tags (zlen tags) base = Ok ((d ++ map (fun t => t + base) tags) ++ rest') /\ zlen rest = zlen tags + zlen rest'.
Proof.
  intros H. unfold awkward_UnionArray_filltags. pose proof (zlen_nonneg tags).
  destruct (fill_src (fun i totags => let* t := rd tags i in wr totags (zlen d + i) (t + base)) tags (fun t => t + base) (zlen tags) d rest) as (r & E & L); [lia|lia|reflexivity|].
  exists r. rewrite slice_full in E. split; [exact E|exact L].
Qed.
Lemma fillindex_spec d rest index n : 0 <= n <= zlen index -> n <= zlen rest ->
  exists rest', awkward_UnionArray_fillindex (d ++ rest) (zlen d) index n = Ok ((d ++ slice 0 n index) ++ rest') /\ zlen rest = n + zlen rest'.
Proof.
  intros H H'. unfold awkward_UnionArray_fillindex.
  destruct (fill_src (fun i toindex => let* x := rd index i in wr toindex (zlen d + i) x) index (fun x => x) n d rest) as (r & E & L); [lia|lia|reflexivity|].
  exists r. rewrite map_id in E. split; [exact E|exact L].
Qed.
Lemma fillindex_count_spec d rest n : 0 <= n <= zlen rest ->
  exists rest', awkward_UnionArray_fillindex_count (d ++ rest) (zlen d) n = Ok ((d ++ zseq 0 n) ++ rest') /\ zlen rest = n + zlen rest'.
Proof.
  intros H. unfold awkward_UnionArray_fillindex_count.
  destruct (for_fill_at (fun i o => wr o (zlen d + i) i) (fun i => i) n d rest) as (r & E & L); [lia|reflexivity|]. exists r. rewrite map_id in E. split; assumption.
Qed.
Lemma numpy_fill_spec d rest data cst : zlen data <= zlen rest ->
  exists rest', awkward_NumpyArray_fill (d ++ rest) (zlen d) data (zlen data) cst = Ok ((d ++ map cst data) ++ rest') /\ zlen rest = zlen data + zlen rest'.
Proof.
  intros H. unfold awkward_NumpyArray_fill. pose proof (zlen_nonneg data).
  destruct (fill_src (fun i toptr => let* x := rd data i in wr toptr (zlen d + i) (cst x)) data cst (zlen data) d rest) as (r & E & L); [lia|lia|reflexivity|].
  exists r. rewrite slice_full in E. split; [exact E|exact L].
Qed.
Definition shiftp (base : Z) (ab : Z * Z) : Z * Z := (fst ab + base, snd ab + base).
Lemma list_fill_spec d1 d2 r1 r2 starts stops base : zlen d1 = zlen d2 -> zlen starts <= zlen stops -> zlen starts <= zlen r1 -> zlen starts <= zlen r2 ->
  let l := map (shiftp base) (combine starts stops) in
  exists r1' r2', awkward_ListArray_fill (d1 ++ r1) (zlen d1) (d2 ++ r2) (zlen d2) starts stops (zlen starts) base
    = Ok ((d1 ++ map fst l) ++ r1', (d2 ++ map snd l) ++ r2') /\ zlen r1 = zlen starts + zlen r1' /\ zlen r2 = zlen starts + zlen r2'.
Proof.
  intros Hd HS H1 H2 l. unfold awkward_ListArray_fill. rewrite <- (zlen_combine_le starts stops HS) in H1, H2 |- *.
  set (xs := combine starts stops) in *.
  set (body := fun (i : Z) (st : list Z * list Z) => let '(tostarts, tostops) := st in let* start := rd starts i in let* tostarts := wr tostarts (zlen d1 + i) (start + base) in
    let* stop := rd stops i in let* tostops := wr tostops (zlen d2 + i) (stop + base) in Ok (tostarts, tostops)).
  destruct (for_list xs (fun d st => exists r1' r2', st = ((d1 ++ map fst (map (shiftp base) d)) ++ r1', (d2 ++ map snd (map (shiftp base) d)) ++ r2')
     /\ zlen r1 = zlen d + zlen r1' /\ zlen r2 = zlen d + zlen r2') body (d1 ++ r1, d2 ++ r2)) as (s & E & r1' & r2' & -> & L1 & L2).
  - exists r1, r2. simpl. rewrite !app_nil_r. change (zlen (@nil (Z * Z))) with 0. auto.
  - intros d x r t Hx (r1' & r2' & -> & L1 & L2). destruct x as [a b]. unfold xs in Hx. destruct (combine_mid _ _ _ _ _ _ Hx) as [Na Nb].
    assert (HL : zlen (d ++ (a, b) :: r) = zlen xs) by (unfold xs; congruence). rewrite zlen_app, zlen_cons in HL. pose proof (zlen_nonneg r).
    destruct (wr_push' (d1 ++ map fst (map (shiftp base) d)) r1' (a + base)) as (q1 & W1 & M1); [lia|].
    destruct (wr_push' (d2 ++ map snd (map (shiftp base) d)) r2' (b + base)) as (q2 & W2 & M2); [lia|].
    rewrite zlen_app, !zlen_map in W1, W2.
    exists ((d1 ++ map fst (map (shiftp base) (d ++ [(a, b)]))) ++ q1, (d2 ++ map snd (map (shiftp base) (d ++ [(a, b)]))) ++ q2). split.
    + unfold body. unfold rd. rewrite Na. cbn [bind]. rewrite W1. cbn [bind]. rewrite Nb. cbn [bind]. rewrite W2. cbn [bind]. rewrite !map_app, !app_assoc. reflexivity.
    + exists q1, q2. split; [reflexivity|]. rewrite zlen_app, zlen_cons. change (zlen (@nil (Z * Z))) with 0. lia.
  - exists r1', r2'. split; [exact E|]. split; assumption.
Qed.

(** a segment of a longer list *)
Lemma subok_cases n ab : sub_ok n ab = true -> fst ab = snd ab \/ 0 <= fst ab <= snd ab /\ snd ab <= n.
Proof. unfold sub_ok. intros H. lia. Qed.
Lemma seg_shift pre ws tail ab : sub_ok (zlen ws) ab = true -> seg (pre ++ ws ++ tail) (shiftp (zlen pre) ab) = seg ws ab.
Proof.
  intros H. unfold seg, shiftp. simpl. destruct (subok_cases _ _ H) as [E|[E1 E2]]; [rewrite E, !slice_nil; reflexivity|].
  rewrite slice_app_shift by lia. replace (fst ab + zlen pre - zlen pre) with (fst ab) by lia. replace (snd ab + zlen pre - zlen pre) with (snd ab) by lia. apply slice_app_l; lia.
Qed.
Lemma sub_ok_shift n m base ab : 0 <= base -> base + n <= m -> sub_ok n ab = true -> sub_ok m (shiftp base ab) = true.
Proof. unfold sub_ok, shiftp. simpl. intros. lia. Qed.
Lemma idx_shift o o' pre ws tail i v : (o = true -> o' = true) -> idx o ws i = Some v -> idx o' (pre ++ ws ++ tail) (shifti (zlen pre) i) = Some v.
Proof.
  unfold idx, shifti. intros Ho H. pose proof (zlen_nonneg pre). destruct (o && (i <? 0)) eqn:E.
  - apply andb_true_iff in E as [E1 E2]. rewrite (Ho E1), E2. exact H.
  - assert (0 <= i < zlen ws) by (apply nthZ_Some in H; exact H). destruct (Z.ltb_spec i 0); [lia|]. destruct (Z.ltb_spec (i + zlen pre) 0); [lia|]. rewrite andb_false_r.
    rewrite nthZ_app. destruct (Z.ltb_spec (i + zlen pre) (zlen pre)); [lia|]. replace (i + zlen pre - zlen pre) with i by lia. rewrite nthZ_app. destruct (Z.ltb_spec i (zlen ws)); [exact H|lia].
Qed.
Lemma omap_idx_shift o o' pre ws tail index vs : (o = true -> o' = true) -> omap (idx o ws) index = Some vs ->
  omap (idx o' (pre ++ ws ++ tail)) (map (shifti (zlen pre)) index) = Some vs.
Proof.
  intros Ho. revert vs; induction index as [|i index IH]; intros vs H; simpl in *; [exact H|]. destruct (idx o ws i) as [v|] eqn:E; [|discriminate].
  destruct (omap (idx o ws) index) as [vs'|]; [|discriminate]. rewrite (idx_shift _ _ _ _ _ _ _ Ho E), (IH _ eq_refl). exact H.
Qed.
Lemma omap_idx_count o pre ws tail : omap (idx o (pre ++ ws ++ tail)) (zseq (zlen pre) (zlen pre + zlen ws)) = Some ws.
Proof.
  rewrite (omap_ext _ (nthZ (pre ++ ws ++ tail))).
  - pose proof (zlen_nonneg pre). pose proof (zlen_nonneg ws). pose proof (zlen_nonneg tail). rewrite omap_nthZ_zseq; [|lia|rewrite !zlen_app; lia]. f_equal. rewrite slice_app_shift by lia.
    replace (zlen pre - zlen pre) with 0 by lia. replace (zlen pre + zlen ws - zlen pre) with (zlen ws) by lia. apply slice_app.
  - intros i Hi. apply In_zseq in Hi. pose proof (zlen_nonneg pre). unfold idx. destruct (Z.ltb_spec i 0); [lia|]. rewrite andb_false_r. reflexivity.
Qed.
