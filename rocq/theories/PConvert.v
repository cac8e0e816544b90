(** Proofs about the conversions between list representations. *)
From Verif Require Export PList KConvert Convert.

Lemma list_compact starts stops n : zlen starts <= zlen stops -> n = zlen starts -> forallb (fun ab => 0 <=? diff ab) (combine starts stops) = true ->
  awkward_ListArray_compact_offsets (alloc (n + 1)) starts stops n = Ok (offsets_of (map diff (combine starts stops))).
Proof.
  intros Hl -> Hok. unfold awkward_ListArray_compact_offsets. pose proof (zlen_nonneg starts) as Hn.
  destruct (wr_push' [] (alloc (zlen starts + 1)) 0) as (r0 & Hw & Hr0); [rewrite zlen_alloc; lia|].
  change (zlen (@nil Z)) with 0 in Hw. cbn [app] in Hw. rewrite Hw. cbn [bind]. clear Hw. rewrite zlen_alloc in Hr0 by lia.
  rewrite <- (zlen_combine_le starts stops Hl) at 1.
  destruct (for_list (combine starts stops)
     (fun d st => exists r, st = offsets_of (map diff d) ++ r /\ zlen r + zlen d = zlen starts)
     (fun i tooffsets => let* start := rd starts i in let* stop := rd stops i in
        if stop <? start then Err "stops[i] < starts[i]" else let* t := rd tooffsets i in wr tooffsets (i + 1) (t + (stop - start)))
     ([0] ++ r0)) as (st & Hst & r & -> & Hr).
  - exists r0. split; [reflexivity|]. change (zlen (@nil (Z*Z))) with 0. lia.
  - intros d [a b] r st Hd (r1 & -> & Hr1). destruct (combine_mid _ _ _ _ _ _ Hd) as [Ha Hb].
    unfold rd at 1. rewrite Ha. cbn [bind]. unfold rd at 1. rewrite Hb. cbn [bind].
    assert (0 <= b - a).
    { rewrite forallb_forall in Hok. specialize (Hok (a, b)). unfold diff in Hok; cbn [fst snd] in Hok. rewrite <- Hd in Hok.
      specialize (Hok ltac:(apply in_or_app; right; now left)). lia. }
    destruct (Z.ltb_spec b a); [lia|].
    assert (zlen (map diff d) = zlen d) as Hdl by apply zlen_map.
    assert (rd (offsets_of (map diff d) ++ r1) (zlen d) = Ok (0 + sumZ (map diff d))) as ->.
    { unfold rd. rewrite nthZ_app, zlen_offsets_of, Hdl. destruct (Z.ltb_spec (zlen d) (zlen d + 1)); [|lia].
      rewrite <- Hdl. unfold offsets_of. now rewrite nthZ_offsets_last. }
    cbn [bind].
    assert (zlen d < zlen starts).
    { apply (f_equal zlen) in Hd. rewrite zlen_app, zlen_cons, zlen_combine_le in Hd by lia. pose proof (zlen_nonneg r). lia. }
    destruct (wr_push' (offsets_of (map diff d)) r1 (0 + sumZ (map diff d) + (b - a))) as (r2 & Hw & Hr2); [lia|].
    rewrite zlen_offsets_of, Hdl in Hw. rewrite Hw. eexists; split; [reflexivity|]. exists r2. split.
    + rewrite map_app. cbn [map]. unfold offsets_of. rewrite offsets_from_snoc. reflexivity.
    + rewrite zlen_app. change (zlen [(a, b)]) with 1. lia.
  - cbn [app] in Hst. rewrite Hst. f_equal. rewrite zlen_combine_le in Hr by lia. rewrite (zlen_0 r) by lia. now rewrite app_nil_r.
Qed.

Lemma listoffset_compact o : 1 <= zlen o ->
  awkward_ListOffsetArray_compact_offsets (alloc (zlen o)) o (zlen o - 1) = Ok (offsets_of (map diff (pairs o))).
Proof.
  intros Ho. unfold awkward_ListOffsetArray_compact_offsets. destruct (offsets_diffs o Ho) as (a & Ha & Eo).
  unfold rd at 1. rewrite Ha. cbn [bind].
  destruct (wr_push' [] (alloc (zlen o)) 0) as (r0 & Hw & Hr0); [rewrite zlen_alloc; lia|].
  change (zlen (@nil Z)) with 0 in Hw. cbn [app] in Hw. rewrite Hw. cbn [bind]. clear Hw. rewrite zlen_alloc in Hr0 by lia.
  set (g := fun i => match nthZ o (i + 1) with Some x => x - a | None => 0 end).
  destruct (for_fill_at (fun i tooffsets => let* x := rd o (i + 1) in wr tooffsets (i + 1) (x - a)) g (zlen o - 1) [0] r0) as (r & Hr & Hl).
  - lia.
  - intros i x Hi Hx. change (zlen [0]) with 1. unfold g. destruct (nthZ_lt o (i + 1)) as [y Hy]; [lia|]. unfold rd. rewrite Hy. cbn [bind].
    f_equal; lia.
  - cbn [app] in Hr. rewrite Hr. f_equal. rewrite (zlen_0 r), app_nil_r by lia.
    apply list_eqZ; cbn [app].
    + rewrite zlen_cons, zlen_map, zlen_zseq, zlen_offsets_of, zlen_map, zlen_pairs by lia. lia.
    + intros i Hi. rewrite zlen_cons, zlen_map, zlen_zseq in Hi by lia.
      assert (nthZ (offsets_of (map diff (pairs o))) i = option_map (fun x => x - a) (nthZ o i)) as ->.
      { assert (forall l, nthZ (offsets_from 0 l) i = option_map (fun x => x - a) (nthZ (offsets_from a l) i)) as E.
        { intros l. pose proof (offsets_from_shift 0 a l) as Hs. rewrite Z.add_0_l in Hs. rewrite Hs, nthZ_map.
          destruct (nthZ (offsets_from 0 l) i); cbn; [f_equal; lia|reflexivity]. }
        unfold offsets_of. rewrite E. now rewrite <- Eo. }
      rewrite nthZ_cons. destruct (Z.eqb_spec i 0) as [->|]; [rewrite Ha; cbn; f_equal; lia|].
      rewrite nthZ_map, nthZ_zseq by lia. cbn [option_map]. unfold g. replace (0 + (i - 1) + 1) with i by lia.
      destruct (nthZ_lt o i) as [y ->]; [lia|]. reflexivity.
Qed.

Lemma offsets_const n size a : 0 <= n ->
  offsets_from a (map (fun _ => size) (zseq 0 n)) = map (fun i => a + i * size) (zseq 0 (n + 1)).
Proof.
  intros Hn. apply list_eqZ.
  - rewrite zlen_offsets_from, !zlen_map, !zlen_zseq by lia. lia.
  - intros i Hi. rewrite zlen_offsets_from, zlen_map, zlen_zseq in Hi by lia.
    rewrite nthZ_map, nthZ_zseq by lia. cbn [option_map]. rewrite nthZ_offsets_from by (rewrite zlen_map, zlen_zseq; lia).
    f_equal. f_equal. rewrite slice_map, slice_zseq by lia. rewrite !Z.add_0_l.
    assert (forall m k, sumZ (map (fun _ => size) (zseq_nat k m)) = Z.of_nat m * size) as E.
    { induction m; intros k; [reflexivity|]. cbn [zseq_nat map sumZ fold_right]. fold (sumZ (map (fun _ => size) (zseq_nat (k + 1) m))).
      rewrite IHm. lia. }
    unfold zseq. rewrite E. f_equal; lia.
Qed.
Lemma regular_compact n size : 0 <= n ->
  awkward_RegularArray_compact_offsets (alloc (n + 1)) n size = Ok (offsets_of (map (fun _ => size) (zseq 0 n))).
Proof.
  intros Hn. unfold awkward_RegularArray_compact_offsets.
  destruct (wr_push' [] (alloc (n + 1)) 0) as (r0 & Hw & Hr0); [rewrite zlen_alloc; lia|].
  change (zlen (@nil Z)) with 0 in Hw. cbn [app] in Hw. rewrite Hw. cbn [bind]. clear Hw. rewrite zlen_alloc in Hr0 by lia.
  destruct (for_fill_at (fun i tooffsets => wr tooffsets (i + 1) ((i + 1) * size)) (fun i => (i + 1) * size) n [0] r0) as (r & Hr & Hl).
  - lia.
  - intros i x Hi Hx. change (zlen [0]) with 1. f_equal; lia.
  - cbn [app] in Hr. rewrite Hr. f_equal. rewrite (zlen_0 r), app_nil_r by lia.
    unfold offsets_of. rewrite offsets_const by lia. rewrite (zseq_cons 0 (n + 1)) by lia. cbn [map].
    f_equal. rewrite (map_zseq_shift _ 0 n 1). apply map_ext. intros. lia.
Qed.

Lemma broadcast_kernel starts stops counts len out :
  zlen starts <= zlen stops -> zlen counts <= zlen starts -> forallb (sub_ok len) (combine starts stops) = true ->
  Forall (fun n => 0 <= n) counts -> zlen out = sumZ counts ->
  let l := slice 0 (zlen counts) (combine starts stops) in
  (map diff l = counts /\ awkward_ListArray_broadcast_tooffsets out (offsets_of counts) (zlen counts + 1) starts stops len
                          = Ok (concat (map (fun ab => zseq (fst ab) (snd ab)) l)))
  \/ (map diff l <> counts /\ exists m, awkward_ListArray_broadcast_tooffsets out (offsets_of counts) (zlen counts + 1) starts stops len = Err m).
Proof.
  intros Hss Hcl Hok Hpos Hout l. pose proof (zlen_nonneg counts) as Hn.
  unfold awkward_ListArray_broadcast_tooffsets. replace (zlen counts + 1 - 1) with (zlen counts) by lia.
  set (L := combine starts stops) in *. assert (zlen L = zlen starts) as HL by (apply zlen_combine_le; lia).
  set (em := fun k => concat (map (fun ab : Z * Z => zseq (fst ab) (snd ab)) (slice 0 k L))).
  match goal with |- context [for_ 0 (zlen counts) ?body _] => set (bd := body) end.
  destruct (for_inv_res
    (fun i st => map diff (slice 0 i L) = slice 0 i counts /\ zlen (em i) = sumZ (slice 0 i counts) /\
       exists r, st = (zlen (em i), em i ++ r) /\ zlen out = zlen (em i) + zlen r)
    (fun r => (exists m, r = Err m) /\ map diff l <> counts) 0 (zlen counts) bd (0, out)) as [(st & Hst & HP)|(_ & (m & Hm) & Hne)].
  - lia.
  - unfold em. rewrite !slice_nil. cbn. split; [reflexivity|split; [reflexivity|]]. exists out. split; [reflexivity|]. change (zlen (@nil Z)) with 0. lia.
  - intros i st Hi (Hm & Hs & r & -> & Hr).
    destruct (nthZ_lt L i) as [[a b] Hab]; [lia|]. destruct (nthZ_lt counts i) as [n Hc]; [lia|].
    assert (nthZ starts i = Some a /\ nthZ stops i = Some b) as [Ha Hb].
    { unfold L in Hab. rewrite nthZ_combine in Hab. destruct (nthZ starts i), (nthZ stops i); try discriminate. injection Hab as -> ->. auto. }
    assert (sub_ok len (a, b) = true) as Hsub by (rewrite forallb_forall in Hok; apply Hok; eapply nthZ_In; exact Hab).
    assert (0 <= n) as Hnn by (rewrite Forall_forall in Hpos; apply Hpos; eapply nthZ_In; exact Hc).
    assert (bd i (zlen (em i), em i ++ r) = if negb (b - a =? n) then Err "cannot broadcast nested list" else
       for_ a b (fun j st => let '(k, tocarry) := st in let* tocarry := wr tocarry k j in Ok (k + 1, tocarry)) (zlen (em i), em i ++ r)) as Eb.
    { unfold bd. unfold rd at 1. rewrite Ha. cbn [bind]. unfold rd at 1. rewrite Hb. cbn [bind].
      assert (negb (a =? b) && (len <? b) = false) as -> by (unfold sub_ok in Hsub; cbn [fst snd] in Hsub; lia).
      unfold offsets_of. unfold rd at 1. rewrite nthZ_offsets_from by lia. cbn [bind]. unfold rd at 1. rewrite nthZ_offsets_from by lia. cbn [bind].
      rewrite (slice_snoc_nth 0 i counts n) by (lia || assumption). rewrite sumZ_app.
      replace (0 + (sumZ (slice 0 i counts) + sumZ [n]) - (0 + sumZ (slice 0 i counts))) with n by (cbn; lia).
      destruct (Z.ltb_spec n 0); [lia|]. reflexivity. }
    rewrite Eb. destruct (Z.eqb_spec (b - a) n) as [En|En]; cbn [negb].
    + left. assert (sumZ (slice 0 (i + 1) counts) = sumZ (slice 0 i counts) + n) as Esum.
      { rewrite (slice_snoc_nth 0 i counts n) by (lia || assumption). rewrite sumZ_app. cbn. lia. }
      assert (n <= zlen r) as Hnr.
      { assert (sumZ counts = sumZ (slice 0 (i + 1) counts) + sumZ (slice (i + 1) (zlen counts) counts)) as Et.
        { rewrite <- sumZ_app, <- slice_split by lia. now rewrite slice_full. }
        assert (0 <= sumZ (slice (i + 1) (zlen counts) counts)).
        { apply sumZ_nonneg. rewrite Forall_forall in *. intros x Hx. apply Hpos. eapply In_slice; exact Hx. }
        lia. }
      destruct (for_append (fun j => j) a b (fun j st => let '(k, tocarry) := st in let* tocarry := wr tocarry k j in Ok (k + 1, tocarry)) (em i) r)
        as (r' & Hf & Hl').
      { intros; reflexivity. }
      { lia. }
      { lia. }
      rewrite map_id in Hf. rewrite Hf. eexists; split; [reflexivity|].
      assert (em (i + 1) = em i ++ zseq a b) as Eem.
      { unfold em. rewrite (slice_snoc_nth 0 i L (a, b)) by (lia || assumption). rewrite map_app, concat_app. cbn [map concat fst snd]. now rewrite app_nil_r. }
      assert (zlen (em (i + 1)) = zlen (em i) + (b - a)) as Ezl by (rewrite Eem, zlen_app, zlen_zseq by lia; lia).
      split; [|split].
      * rewrite (slice_snoc_nth 0 i L (a, b)), (slice_snoc_nth 0 i counts n) by (lia || assumption). rewrite map_app, Hm. cbn [map].
        unfold diff; cbn [fst snd]. now rewrite En.
      * lia.
      * exists r'. split; [rewrite Ezl, Eem; reflexivity|lia].
    + right. split; [congruence|]. split; [eauto|]. intros Hd. apply En.
      apply (f_equal (fun l => nthZ l i)) in Hd. unfold l in Hd. rewrite nthZ_map, nthZ_slice, Z.add_0_l, Hab, Hc in Hd by lia.
      cbn in Hd. unfold diff in Hd; cbn in Hd. congruence.
  - destruct HP as (Hm & Hs & r & -> & Hr). left. rewrite slice_full in Hm, Hs. split; [exact Hm|]. rewrite Hst. cbn [bind snd].
    f_equal. rewrite (zlen_0 r) by lia. rewrite app_nil_r. reflexivity.
  - right. split; [exact Hne|]. exists m. rewrite Hm. reflexivity.
Qed.

Lemma broadcast_regular counts size : Forall (fun n => 0 <= n) counts ->
  (awkward_RegularArray_broadcast_tooffsets (offsets_of counts) (zlen counts + 1) size = Ok tt /\ forallb (fun n => size =? n) counts = true)
  \/ ((exists m, awkward_RegularArray_broadcast_tooffsets (offsets_of counts) (zlen counts + 1) size = Err m) /\ forallb (fun n => size =? n) counts = false).
Proof.
  intros Hpos. unfold awkward_RegularArray_broadcast_tooffsets. replace (zlen counts + 1 - 1) with (zlen counts) by lia.
  apply for_check. intros i n Hi. pose proof (nthZ_Some _ _ _ Hi).
  unfold rd, offsets_of. rewrite !nthZ_offsets_from by lia. cbn [bind].
  rewrite (slice_snoc_nth 0 i counts n) by (lia || assumption). rewrite sumZ_app.
  replace (0 + (sumZ (slice 0 i counts) + sumZ [n]) - (0 + sumZ (slice 0 i counts))) with n by (cbn; lia).
  assert (0 <= n) by (rewrite Forall_forall in Hpos; apply Hpos; eapply nthZ_In; exact Hi).
  destruct (Z.ltb_spec n 0); [lia|]. destruct (size =? n); cbn [negb]; split; try discriminate; eauto.
Qed.

Lemma broadcast_size1 counts out : Forall (fun n => 0 <= n) counts -> zlen out = sumZ counts ->
  awkward_RegularArray_broadcast_tooffsets_size1 out (offsets_of counts) (zlen counts + 1)
  = Ok (concat (map (fun ic => map (fun _ => fst ic) (zseq 0 (snd ic))) (combine (zseq 0 (zlen counts)) counts))).
Proof.
  intros Hpos Hout. unfold awkward_RegularArray_broadcast_tooffsets_size1. replace (zlen counts + 1 - 1) with (zlen counts) by lia.
  pose proof (zlen_nonneg counts). set (xs := combine (zseq 0 (zlen counts)) counts).
  assert (zlen xs = zlen counts) as Hxs by (unfold xs; rewrite zlen_combine; rewrite ?zlen_zseq by lia; lia).
  rewrite (for_emit_exact xs (fun ic => map (fun _ => fst ic) (zseq 0 (snd ic)))).
  - reflexivity.
  - symmetry; exact Hxs.
  - rewrite Hout. rewrite <- sum_zlen_concat, map_map. unfold sumZ. f_equal. apply list_eqZ.
    + now rewrite zlen_map.
    + intros i Hi. rewrite nthZ_map. unfold xs. rewrite nthZ_combine, nthZ_zseq by lia. destruct (nthZ_lt counts i) as [n Hn]; [lia|].
      rewrite Hn. cbn [option_map]. rewrite zlen_map. cbn [snd]. rewrite Forall_forall in Hpos. specialize (Hpos n (nthZ_In _ _ _ Hn)).
      rewrite zlen_zseq by lia. f_equal; lia.
  - intros i [j n] d r Hx Hr. unfold xs in Hx. rewrite nthZ_combine in Hx. destruct (nthZ counts i) as [n'|] eqn:Hn; [|destruct (nthZ (zseq 0 (zlen counts)) i); discriminate].
    pose proof (nthZ_Some _ _ _ Hn). rewrite nthZ_zseq in Hx by lia. injection Hx as <- <-. rewrite Z.add_0_l in *. cbn [fst snd] in *.
    assert (0 <= n') by (rewrite Forall_forall in Hpos; apply Hpos; eapply nthZ_In; exact Hn).
    unfold rd, offsets_of. rewrite !nthZ_offsets_from by lia. cbn [bind].
    rewrite (slice_snoc_nth 0 i counts n') by (lia || assumption). rewrite sumZ_app.
    replace (0 + (sumZ (slice 0 i counts) + sumZ [n']) - (0 + sumZ (slice 0 i counts))) with n' by (cbn; lia).
    destruct (Z.ltb_spec n' 0); [lia|].
    rewrite zlen_map, zlen_zseq in * by lia.
    destruct (for_append (fun _ => i) 0 n' (fun _ st => let '(k, tocarry) := st in let* tocarry := wr tocarry k i in Ok (k + 1, tocarry)) d r)
      as (r' & Hf & Hl').
    { intros; reflexivity. }
    { lia. }
    { lia. }
    exists r'. split; [exact Hf|lia].
Qed.

Lemma toregular_kernel counts : Forall (fun n => 0 <= n) counts ->
  forall a,
  (exists size, awkward_ListOffsetArray_toRegularArray (offsets_from a counts) (zlen counts + 1) = Ok size /\ 0 <= size /\
     (forall n, In n counts -> n = size) /\ (counts = [] -> size = 0))
  \/ ((exists m, awkward_ListOffsetArray_toRegularArray (offsets_from a counts) (zlen counts + 1) = Err m) /\
      exists n m, In n counts /\ In m counts /\ n <> m).
Proof.
  intros Hpos a. unfold awkward_ListOffsetArray_toRegularArray. replace (zlen counts + 1 - 1) with (zlen counts) by lia.
  pose proof (zlen_nonneg counts).
  match goal with |- context [for_ 0 (zlen counts) ?body _] => set (bd := body) end.
  destruct (for_inv_res
    (fun i st => (i = 0 /\ st = -1) \/ (0 < i /\ 0 <= st /\ nthZ counts 0 = Some st /\ forall j n, 0 <= j < i -> nthZ counts j = Some n -> n = st))
    (fun r => (exists m, r = Err m) /\ exists n m, In n counts /\ In m counts /\ n <> m) 0 (zlen counts) bd (-1)) as [(st & Hst & HP)|(_ & (m & Hm) & Hne)].
  - lia.
  - now left.
  - intros i st Hi HP. destruct (nthZ_lt counts i) as [n Hn]; [lia|].
    assert (0 <= n) by (rewrite Forall_forall in Hpos; apply Hpos; eapply nthZ_In; exact Hn).
    assert (bd i st = if st =? -1 then Ok n else if negb (st =? n) then Err "cannot convert to RegularArray because subarray lengths are not regular" else Ok st) as Eb.
    { unfold bd, rd. rewrite !nthZ_offsets_from by lia. cbn [bind]. rewrite (slice_snoc_nth 0 i counts n) by (lia || assumption). rewrite sumZ_app.
      replace (a + (sumZ (slice 0 i counts) + sumZ [n]) - (a + sumZ (slice 0 i counts))) with n by (cbn; lia).
      destruct (Z.ltb_spec n 0); [lia|]. reflexivity. }
    rewrite Eb. destruct HP as [(-> & ->)|(Hi0 & Hst & Hz & Hall)].
    + left. cbn. eexists; split; [reflexivity|]. right. split; [lia|]. split; [lia|]. split; [exact Hn|].
      intros j x Hj Hx. replace j with 0 in Hx by lia. congruence.
    + destruct (Z.eqb_spec st (-1)); [lia|]. destruct (Z.eqb_spec st n) as [->|Hne]; cbn [negb].
      * left. eexists; split; [reflexivity|]. right. split; [lia|]. split; [lia|]. split; [exact Hz|].
        intros j x Hj Hx. destruct (Z.eq_dec j i) as [->|]; [congruence|]. apply (Hall j x); [lia|exact Hx].
      * right. split; [congruence|]. split; [eauto|]. exists st, n. split; [eapply nthZ_In; exact Hz|]. split; [eapply nthZ_In; exact Hn|exact Hne].
  - left. rewrite Hst. cbn [bind]. destruct HP as [(Hzz & ->)|(Hi0 & Hst' & Hz & Hall)].
    + exists 0. rewrite (zlen_0 counts) by lia. repeat split; try lia. intros n [].
    + destruct (Z.eqb_spec st (-1)); [lia|]. exists st. repeat split; try lia.
      * intros x Hn. apply In_nthZ in Hn as (i & Hi). apply (Hall i x); [pose proof (nthZ_Some _ _ _ Hi); lia|exact Hi].
      * intros ->. rewrite nthZ_nil in Hz. discriminate.
  - right. split; [|exact Hne]. exists m. rewrite Hm. reflexivity.
Qed.

(** ** the methods *)
Lemma view_diff_nonneg c l c' vs : den c = Some vs -> list_view c = Some (l, c') -> forallb (fun ab => 0 <=? diff ab) l = true.
Proof.
  intros Hd Hv. destruct (list_inv _ _ _ _ Hd Hv) as (ws & _ & Hok & _). rewrite forallb_forall in *. intros ab Hin.
  pose proof (sub_ok_diff _ _ (Hok ab Hin)). lia.
Qed.
Lemma view_counts c l c' segs : den c = Some (map VList segs) -> list_view c = Some (l, c') -> map diff l = map zlen segs.
Proof.
  intros Hd Hv. destruct (list_inv _ _ _ _ Hd Hv) as (ws & _ & Hok & E). apply map_VList_inj in E as ->. symmetry. now apply map_zlen_seg.
Qed.

Lemma compact_den is64 c l c' segs : den c = Some (map VList segs) -> list_view c = Some (l, c') ->
  compact_offsets64 is64 true c = Ok (offsets_of (map zlen segs)).
Proof.
  intros Hd Hv. pose proof (view_counts _ _ _ _ Hd Hv) as <-. pose proof (view_diff_nonneg _ _ _ _ Hd Hv) as Hnn.
  pose proof (den_length _ _ Hd) as HL. destruct c; try discriminate; cbn [compact_offsets64 list_view] in *.
  - injection Hv as <- <-. cbn [den] in Hd. destruct (den c); [|discriminate]. destruct (Z.leb_spec (zlen starts) (zlen stops)); [|discriminate].
    apply list_compact; auto.
  - injection Hv as <- <-. cbn [den] in Hd. destruct (den c); [|discriminate]. destruct (Z.leb_spec 1 (zlen offsets)); [|discriminate].
    destruct (offsets_diffs offsets) as (a & Ha & Eo); [lia|]. unfold rd. rewrite Ha. cbn [bind].
    destruct (is64 && (negb true || (a =? 0))) eqn:E; [|apply listoffset_compact; lia].
    assert (a = 0) as -> by lia. rewrite Eo at 1. reflexivity.
  - rewrite HL in *. injection Hv as <- <-. rewrite regular_compact by apply zlen_nonneg. f_equal. f_equal. rewrite map_map. apply map_ext. intros i. unfold diff; cbn [fst snd]. lia.
Qed.

Lemma rd_offsets_last counts : rd (offsets_of counts) (zlen counts) = Ok (sumZ counts).
Proof. unfold rd, offsets_of. now rewrite nthZ_offsets_last. Qed.

Definition nonneg_counts (counts : list Z) : Prop := Forall (fun n => 0 <= n) counts.

Lemma broadcast_list_kernel c' ws starts stops counts :
  den c' = Some ws -> zlen starts <= zlen stops -> zlen counts <= zlen starts -> forallb (sub_ok (zlen ws)) (combine starts stops) = true ->
  nonneg_counts counts ->
  let r := let* carrylen := rd (offsets_of counts) (zlen (offsets_of counts) - 1) in
           let* nextcarry := awkward_ListArray_broadcast_tooffsets (alloc carrylen) (offsets_of counts) (zlen (offsets_of counts)) starts stops (length_ c') in
           let* nextcontent := carry c' nextcarry true in
           mkListOffset (offsets_of counts) nextcontent in
  let segs := slice 0 (zlen counts) (map (seg ws) (combine starts stops)) in
  (counts = map zlen segs /\ exists c'', r = Ok (ListOffset (offsets_of counts) c'') /\ den c'' = Some (concat segs))
  \/ (counts <> map zlen segs /\ exists m, r = Err m).
Proof.
  intros Hd Hss Hcl Hok Hpos r segs. pose proof (zlen_nonneg counts) as Hn. pose proof (sumZ_nonneg _ Hpos) as Hs.
  subst r. rewrite zlen_offsets_of, Z.add_simpl_r. rewrite rd_offsets_last. cbn [bind].
  rewrite (den_length _ _ Hd).
  assert (map zlen segs = map diff (slice 0 (zlen counts) (combine starts stops))) as Ez.
  { unfold segs. rewrite slice_map. apply map_zlen_seg. apply forallb_forall. intros ab Hin. rewrite forallb_forall in Hok. apply Hok. eapply In_slice; exact Hin. }
  destruct (broadcast_kernel starts stops counts (zlen ws) (alloc (sumZ counts)) Hss Hcl Hok Hpos ltac:(now apply zlen_alloc)) as [[Hm ->]|[Hm (m & ->)]]; rewrite Ez.
  - left. split; [congruence|]. cbn [bind].
    destruct (carry_den c' ws (concat (map (fun ab => zseq (fst ab) (snd ab)) (slice 0 (zlen counts) (combine starts stops)))) (concat segs) true Hd) as (c'' & -> & Hd'').
    + unfold segs. rewrite slice_map. apply omap_segs. apply forallb_forall. intros ab Hin. rewrite forallb_forall in Hok. apply Hok. eapply In_slice; exact Hin.
    + cbn [bind]. exists c''. split; [|exact Hd'']. unfold mkListOffset. rewrite zlen_offsets_of. destruct (Z.eqb_spec (zlen counts + 1) 0); [lia|]. reflexivity.
  - right. split; [congruence|]. cbn [bind]. eauto.
Qed.

Lemma starts_at_0_ok counts k : starts_at_0 (offsets_of counts) k = k tt.
Proof.
  unfold starts_at_0. rewrite zlen_offsets_of. pose proof (zlen_nonneg counts). destruct (Z.eqb_spec (zlen counts + 1) 0); [lia|].
  unfold rd, offsets_of. rewrite nthZ_offsets_0. reflexivity.
Qed.

(** lists with explicit starts and stops *)
Lemma broadcast_list c l c' segs counts :
  den c = Some (map VList segs) -> list_view c = Some (l, c') -> (forall s z x, c <> Regular s z x) -> nonneg_counts counts ->
  (counts = map zlen (slice 0 (zlen counts) segs) /\ exists c'', broadcast_tooffsets64 c (offsets_of counts) = Ok (ListOffset (offsets_of counts) c'')
      /\ den c'' = Some (concat (slice 0 (zlen counts) segs)))
  \/ (counts <> map zlen (slice 0 (zlen counts) segs) /\ exists m, broadcast_tooffsets64 c (offsets_of counts) = Err m).
Proof.
  intros Hd Hv Hnr Hpos. pose proof (den_length _ _ Hd) as HL. destruct (list_inv _ _ _ _ Hd Hv) as (ws & Hc & Hok & E). apply map_VList_inj in E as ->.
  rewrite !zlen_map in HL. pose proof (zlen_nonneg l) as Hl0.
  assert (zlen l < zlen counts -> counts <> map zlen (slice 0 (zlen counts) (map (seg ws) l))) as Hlong.
  { intros H1 H2. apply (f_equal zlen) in H2. rewrite zlen_map in H2.
    assert (zlen (slice 0 (zlen counts) (map (seg ws) l)) <= zlen l); [|lia].
    unfold slice. unfold zlen at 1. rewrite firstn_length, skipn_length, map_length. unfold zlen. lia. }
  destruct c; try discriminate; cbn [broadcast_tooffsets64 list_view length_] in *.
  - injection Hv as <- <-. cbn [den] in Hd. rewrite Hc in Hd. destruct (Z.leb_spec (zlen starts) (zlen stops)); [|discriminate].
    rewrite starts_at_0_ok, zlen_offsets_of, Z.add_simpl_r.
    destruct (Z.ltb_spec (zlen starts) (zlen counts)).
    + right. split; [apply Hlong; lia|eauto].
    + pose proof (broadcast_list_kernel c ws starts stops counts Hc ltac:(lia) ltac:(lia) Hok Hpos) as HB. cbv zeta in HB. rewrite zlen_offsets_of in HB.
      rewrite Z.add_simpl_r in HB. exact HB.
  - injection Hv as <- <-. cbn [den] in Hd. rewrite Hc in Hd. destruct (Z.leb_spec 1 (zlen offsets)); [|discriminate].
    rewrite starts_at_0_ok, zlen_offsets_of, Z.add_simpl_r.
    destruct (Z.ltb_spec (zlen offsets - 1) (zlen counts)).
    + right. split; [apply Hlong; lia|eauto].
    + rewrite make_starts_spec, make_stops_spec by lia. cbn [bind].
      rewrite <- (combine_starts_stops offsets) in * by lia.
      pose proof (broadcast_list_kernel c ws (slice 0 (zlen offsets - 1) offsets) (slice 1 (zlen offsets) offsets) counts Hc) as HB. cbv zeta in HB. rewrite zlen_offsets_of in HB.
      rewrite Z.add_simpl_r in HB. apply HB; rewrite ?zlen_slice by lia; try lia; assumption.
  - exfalso. eapply Hnr; reflexivity.
Qed.

Lemma concat_segs_prefix (segs : list (list value)) size ws : 0 <= size -> (forall l, In l segs -> zlen l = size) ->
  (forall i l, nthZ segs i = Some l -> l = slice (i * size) ((i + 1) * size) ws /\ (i + 1) * size <= zlen ws) ->
  exists tail, ws = concat segs ++ tail.
Proof.
  intros Hs Hlen Hseg. exists (slice (zlen segs * size) (zlen ws) ws).
  assert (forall k, 0 <= k <= zlen segs -> concat (slice 0 k segs) = slice 0 (k * size) ws /\ k * size <= zlen ws) as H.
  { intros k Hk. replace k with (Z.of_nat (Z.to_nat k)) in * by lia. revert Hk. induction (Z.to_nat k) as [|n IH]; intros Hk.
    - rewrite !slice_empty by lia. split; [reflexivity|]. pose proof (zlen_nonneg ws). lia.
    - rewrite Nat2Z.inj_succ in *. unfold Z.succ in *. destruct IH as [IH1 IH2]; [lia|].
      destruct (nthZ_lt segs (Z.of_nat n)) as [s Hn]; [lia|]. destruct (Hseg _ _ Hn) as [Es Hle]. split; [|exact Hle].
      rewrite (slice_snoc_nth 0 _ segs s) by (lia || assumption). rewrite concat_app, IH1. cbn [concat]. rewrite app_nil_r, Es.
      rewrite <- slice_split by nia. reflexivity. }
  destruct (H (zlen segs)) as [H1 H2]; [pose proof (zlen_nonneg segs); lia|]. rewrite slice_full in H1. rewrite H1.
  rewrite <- slice_split; [now rewrite slice_full| |exact H2]. pose proof (zlen_nonneg segs). nia.
Qed.

Lemma broadcast_reg size zl c' segs counts :
  den (Regular size zl c') = Some (map VList segs) -> size <> 1 -> nonneg_counts counts ->
  (counts = map zlen segs /\ broadcast_tooffsets64 (Regular size zl c') (offsets_of counts) = Ok (ListOffset (offsets_of counts) c')
      /\ exists tail, den c' = Some (concat segs ++ tail))
  \/ (counts <> map zlen segs /\ exists m, broadcast_tooffsets64 (Regular size zl c') (offsets_of counts) = Err m).
Proof.
  intros Hd Hs1 Hpos. pose proof (den_length _ _ Hd) as HL. rewrite zlen_map in HL. cbn [broadcast_tooffsets64].
  rewrite starts_at_0_ok, zlen_offsets_of, Z.add_simpl_r, HL.
  destruct (Z.eqb_spec (zlen counts) (zlen segs)) as [Hl|Hl]; cbn [negb].
  2: { right. split; [intros ->; now rewrite zlen_map in Hl|eauto]. }
  destruct (Z.eqb_spec size 1) as [|_]; [contradiction|].
  destruct (regular_inv _ _ _ _ Hd) as (ws & segs' & Hc & Hsz & E & Hlen & Hseg & _ & _). apply map_VList_inj in E as <-.
  destruct (broadcast_regular counts size Hpos) as [[-> Hall]|[(m & ->) Hall]]; cbn [bind].
  - left. assert (counts = map zlen segs) as Ec.
    { apply list_eqZ; [now rewrite zlen_map|]. intros i Hi. rewrite nthZ_map. destruct (nthZ_lt counts i Hi) as [n Hn]. destruct (nthZ_lt segs i) as [s Hsg]; [lia|].
      rewrite Hn, Hsg. cbn. rewrite (Hlen s) by (eapply nthZ_In; exact Hsg). rewrite forallb_forall in Hall. specialize (Hall n (nthZ_In _ _ _ Hn)). f_equal; lia. }
    split; [exact Ec|]. split.
    + unfold mkListOffset. rewrite zlen_offsets_of. pose proof (zlen_nonneg counts). destruct (Z.eqb_spec (zlen counts + 1) 0); [lia|]. reflexivity.
    + rewrite Hc. destruct (concat_segs_prefix segs size ws Hsz Hlen Hseg) as [tail ->]. eauto.
  - right. split; [|eauto]. intros ->.
    assert (forallb (fun n => size =? n) (map zlen segs) = true); [|congruence].
    apply forallb_forall. intros n Hn. apply in_map_iff in Hn as (s & <- & Hin). rewrite (Hlen s Hin). lia.
Qed.

(** lists of exactly one element are repeated as often as the offsets ask for *)
Lemma broadcast_reg1 zl c' segs counts :
  den (Regular 1 zl c') = Some (map VList segs) -> nonneg_counts counts -> zlen counts = zlen segs ->
  exists c'', broadcast_tooffsets64 (Regular 1 zl c') (offsets_of counts) = Ok (ListOffset (offsets_of counts) c'') /\
    den c'' = Some (concat (map (fun sc => concat (repeat (fst sc) (Z.to_nat (snd sc)))) (combine segs counts))).
Proof.
  intros Hd Hpos Hl. pose proof (den_length _ _ Hd) as HL. rewrite zlen_map in HL. cbn [broadcast_tooffsets64].
  rewrite starts_at_0_ok, zlen_offsets_of, Z.add_simpl_r, HL, Hl, Z.eqb_refl. cbn [negb]. change (1 =? 1) with true. cbv iota.
  rewrite <- Hl, rd_offsets_last. cbn [bind].
  rewrite broadcast_size1 by (try assumption; apply zlen_alloc; now apply sumZ_nonneg). cbn [bind].
  destruct (regular_inv _ _ _ _ Hd) as (ws & segs' & Hc & Hsz & E & Hlen & Hseg & _ & _). apply map_VList_inj in E as <-.
  pose proof (zlen_nonneg counts) as Hn0.
  match goal with |- context [carry c' ?cr true] => destruct (carry_den c' ws cr (concat (map (fun sc => concat (repeat (fst sc) (Z.to_nat (snd sc)))) (combine segs counts))) true Hc) as (c'' & -> & Hd'') end.
  - rewrite omap_concat, omap_map.
    match goal with |- option_map _ ?x = _ => assert (x = Some (map (fun sc => concat (repeat (fst sc) (Z.to_nat (snd sc)))) (combine segs counts))) as -> end; [|reflexivity].
    apply omap_intro.
    + rewrite zlen_map, !zlen_combine; rewrite ?zlen_zseq by lia; lia.
    + intros i [j n] Hi. rewrite nthZ_combine in Hi. destruct (nthZ counts i) as [n'|] eqn:En; [|destruct (nthZ (zseq 0 (zlen counts)) i); discriminate].
      pose proof (nthZ_Some _ _ _ En). rewrite nthZ_zseq in Hi by lia. injection Hi as <- <-. rewrite nthZ_map, nthZ_combine, En.
      destruct (nthZ_lt segs i) as [s Es]; [lia|]. rewrite Es. cbn [option_map fst snd]. destruct (Hseg i s Es) as [E Hle].
      rewrite Z.add_0_l. replace (i * 1) with i in E by lia. replace ((i + 1) * 1) with (i + 1) in E by lia.
      destruct (nthZ_lt ws i) as [v Hv]; [lia|]. rewrite (slice_cons_nth i (i + 1) ws v), slice_nil in E by (lia || assumption). subst s.
      unfold zseq. replace (n' - 0) with n' by lia. generalize (Z.to_nat n') as k. generalize 0.
      intros z k; revert z; induction k; intros z; [reflexivity|]. cbn [zseq_nat map omap repeat concat]. rewrite Hv, IHk. reflexivity.
  - cbn [bind]. exists c''. split; [|exact Hd'']. unfold mkListOffset. rewrite zlen_offsets_of. destruct (Z.eqb_spec (zlen counts + 1) 0); [lia|]. reflexivity.
Qed.

Lemma nonneg_zlens {A} (segs : list (list A)) : nonneg_counts (map zlen segs).
Proof. apply Forall_forall. intros n Hn. apply in_map_iff in Hn as (s & <- & _). apply zlen_nonneg. Qed.

Lemma broadcast_same c l c' segs : den c = Some (map VList segs) -> list_view c = Some (l, c') ->
  exists c'' tail, broadcast_tooffsets64 c (offsets_of (map zlen segs)) = Ok (ListOffset (offsets_of (map zlen segs)) c'') /\
     den c'' = Some (concat segs ++ tail).
Proof.
  intros Hd Hv.
  assert ((forall s z x, c <> Regular s z x) \/ exists s z x, c = Regular s z x) as [Hr|(s & z & x & ->)].
  { destruct c; try (left; discriminate). right; eauto. }
  - destruct (broadcast_list c l c' segs (map zlen segs) Hd Hv Hr (nonneg_zlens segs)) as [(_ & c'' & H1 & H2)|[H _]].
    + exists c'', []. split; [exact H1|]. rewrite zlen_map, slice_full in H2. now rewrite app_nil_r.
    + exfalso. apply H. now rewrite zlen_map, slice_full.
  - destruct (Z.eq_dec s 1) as [->|Hs].
    + destruct (broadcast_reg1 z x segs (map zlen segs) Hd (nonneg_zlens segs) ltac:(apply zlen_map)) as (c'' & H1 & H2).
      exists c'', []. split; [exact H1|]. rewrite H2, app_nil_r. f_equal. f_equal.
      destruct (regular_inv _ _ _ _ Hd) as (ws & segs' & _ & _ & E & Hlen & _). apply map_VList_inj in E as <-.
      clear -Hlen. induction segs as [|s segs IH]; [reflexivity|]. cbn [map combine fst snd]. rewrite (Hlen s) by now left.
      rewrite IH by (intros; apply Hlen; now right). change (Z.to_nat 1) with 1%nat. cbn [repeat concat]. now rewrite app_nil_r.
    + destruct (broadcast_reg s z x segs (map zlen segs) Hd Hs (nonneg_zlens segs)) as [(_ & H1 & tail & H2)|[H _]]; [eauto|now elim H].
Qed.

(** the workhorse: any list array as offsets into a content *)
Lemma to_listoffset is64 saz c l c' vs : den c = Some vs -> list_view c = Some (l, c') ->
  exists offsets c'', toListOffsetArray64 is64 saz c = Ok (ListOffset offsets c'') /\ den (ListOffset offsets c'') = Some vs
   /\ (saz = true -> nthZ offsets 0 = Some 0).
Proof.
  intros Hd Hv. destruct (list_inv _ _ _ _ Hd Hv) as (ws & Hc & Hok & E). set (segs := map (seg ws) l) in *. subst vs.
  destruct (broadcast_same _ _ _ _ Hd Hv) as (c'' & tail & HB & Hd'').
  assert (exists offsets c''0, (let* offsets := Ok (offsets_of (map zlen segs)) in broadcast_tooffsets64 c offsets) = Ok (ListOffset offsets c''0) /\
     den (ListOffset offsets c''0) = Some (map VList segs) /\ (saz = true -> nthZ offsets 0 = Some 0)) as Hgen.
  { cbn [bind]. exists (offsets_of (map zlen segs)), c''. split; [exact HB|]. split; [eapply listoffset_den; exact Hd''|]. intros _. apply nthZ_offsets_0. }
  destruct c; try discriminate; cbn [toListOffsetArray64].
  - pose proof (compact_den is64 _ _ _ _ Hd Hv) as HC. cbn [compact_offsets64] in HC |- *. rewrite HC. exact Hgen.
  - pose proof (compact_den is64 _ _ _ _ Hd Hv) as HC. cbn [compact_offsets64] in HC |- *.
    destruct (rd offsets 0) as [o0| |] eqn:Eo; cbn [bind] in *; try discriminate.
    destruct (is64 && (negb saz || (o0 =? 0))) eqn:Es.
    + exists offsets, c. split; [reflexivity|]. split; [exact Hd|]. intros ->. apply rd_Ok in Eo. rewrite Eo. f_equal. lia.
    + destruct (is64 && (negb true || (o0 =? 0))) eqn:Es'; [destruct is64, saz, (o0 =? 0); discriminate|]. rewrite HC. exact Hgen.
  - pose proof (compact_den is64 _ _ _ _ Hd Hv) as HC. cbn [compact_offsets64] in HC |- *. rewrite HC. exact Hgen.
Qed.

(** what a ListOffset with zero-based offsets looks like *)
Lemma listoffset0_inv offsets c segs : den (ListOffset offsets c) = Some (map VList segs) -> nthZ offsets 0 = Some 0 ->
  offsets = offsets_of (map zlen segs) /\ exists tail, den c = Some (concat segs ++ tail).
Proof.
  intros Hd H0. destruct (list_inv _ _ _ _ Hd eq_refl) as (ws & Hc & Hok & E). apply map_VList_inj in E.
  cbn [den] in Hd. rewrite Hc in Hd. destruct (Z.leb_spec 1 (zlen offsets)); [|discriminate].
  destruct (offsets_diffs offsets) as (a & Ha & Eo); [lia|]. assert (a = 0) as -> by congruence.
  rewrite <- (map_zlen_seg ws) in Eo by assumption. rewrite <- E in Eo. split; [exact Eo|].
  exists (slice (zlen (concat segs)) (zlen ws) ws). rewrite Hc. f_equal.
  assert (forall o lens segs, o = offsets_from 0 lens -> lens = map zlen segs -> segs = map (seg ws) (pairs o) -> forallb (sub_ok (zlen ws)) (pairs o) = true ->
     concat segs = slice 0 (zlen (concat segs)) ws /\ zlen (concat segs) <= zlen ws) as Hgen.
  { clear. intros o lens segs. revert o lens. induction segs as [|s segs IH] using rev_ind; intros o lens Eo El Es Hok.
    - cbn. change (zlen (@nil value)) with 0. rewrite slice_nil. split; [reflexivity|apply zlen_nonneg].
    - subst lens. rewrite map_app in Eo. cbn [map] in Eo. 
      assert (pairs o = pairs (offsets_from 0 (map zlen segs)) ++ [(zlen (concat segs), zlen (concat segs) + zlen s)]) as Ep.
      { rewrite Eo, pairs_offsets_snoc, <- sum_zlen_concat. reflexivity. }
      rewrite Ep in Es, Hok. rewrite map_app in Es. apply app_inj_tail in Es as [Es1 Es2].
      rewrite forallb_app in Hok. apply andb_prop in Hok as [Hok1 Hok2].
      destruct (IH _ _ eq_refl eq_refl Es1 Hok1) as [IH1 IH2]. cbn [forallb] in Hok2. rewrite andb_true_r in Hok2.
      unfold sub_ok in Hok2; unfold seg in Es2; cbn [fst snd] in *. rewrite concat_app. cbn [concat]. rewrite app_nil_r.
      rewrite zlen_app. pose proof (zlen_nonneg s). pose proof (zlen_nonneg (concat segs)). split; [|lia].
      rewrite (slice_split 0 (zlen (concat segs))) by lia. rewrite <- IH1. f_equal. exact Es2. }
  destruct (Hgen offsets (map zlen segs) segs Eo eq_refl E Hok) as [H1 H2]. rewrite H1 at 1.
  rewrite <- slice_split; [now rewrite slice_full|pose proof (zlen_nonneg (concat segs)); lia|exact H2].
Qed.

Lemma concat_segs_offsets ws a lens : 0 <= a -> nonneg_counts lens -> a + sumZ lens <= zlen ws ->
  concat (map (seg ws) (pairs (offsets_from a lens))) = slice a (a + sumZ lens) ws.
Proof.
  revert a; induction lens as [|n lens IH]; intros a Ha Hp Hle.
  - cbn. symmetry. apply slice_empty. lia.
  - inversion Hp; subst. rewrite pairs_offsets_cons. cbn [map concat sumZ fold_right] in *. fold (sumZ lens) in *.
    pose proof (sumZ_nonneg _ H2). rewrite IH by (try assumption; lia). unfold seg; cbn [fst snd].
    rewrite <- slice_split by lia. f_equal; lia.
Qed.
Lemma offsets_bounds n a lens : forallb (sub_ok n) (pairs (offsets_from a lens)) = true -> nonneg_counts lens -> (exists k, In k lens /\ k <> 0) ->
  0 <= a /\ a + sumZ lens <= n.
Proof.
  revert a; induction lens as [|m lens IH]; intros a Hok Hp (k & Hin & Hk); [destruct Hin|].
  rewrite pairs_offsets_cons in Hok. cbn [forallb] in Hok. apply andb_prop in Hok as [H1 H2]. inversion Hp; subst.
  pose proof (sumZ_nonneg _ H4). cbn [sumZ fold_right]. fold (sumZ lens).
  destruct (Z.eq_dec (sumZ lens) 0) as [Hz|Hz].
  - assert (forall l, nonneg_counts l -> sumZ l = 0 -> forall x, In x l -> x = 0) as Hall.
    { clear. induction l as [|y l IHl]; intros Hp Hs x [].
      - subst. inversion Hp; subst. pose proof (sumZ_nonneg _ H2). cbn in Hs. fold (sumZ l) in Hs. lia.
      - inversion Hp; subst. pose proof (sumZ_nonneg _ H3). cbn in Hs. fold (sumZ l) in Hs. apply IHl; [assumption|lia|assumption]. }
    destruct Hin as [->|Hin]; [|elim Hk; now apply (Hall lens)].
    unfold sub_ok in H1; cbn [fst snd] in H1. lia.
  - destruct (IH (a + m) H2 H4) as [I1 I2].
    + clear -H4 Hz. induction lens as [|y l IHl]; [elim Hz; reflexivity|]. destruct (Z.eq_dec y 0) as [->|].
      * inversion H4; subst. destruct IHl as (k & Hk & Hk0); [assumption|exact Hz|]. exists k; split; [now right|exact Hk0].
      * exists y; split; [now left|assumption].
    + unfold sub_ok in H1; cbn [fst snd] in H1. lia.
Qed.

Lemma listoffset_toregular offsets c segs :
  den (ListOffset offsets c) = Some (map VList segs) ->
  ((forall s t, In s segs -> In t segs -> zlen s = zlen t) ->
   ((exists s, In s segs /\ s <> []) \/ (exists a b, nthZ offsets 0 = Some a /\ nthZ offsets (zlen offsets - 1) = Some b /\ 0 <= a /\ b <= length_ c)) ->
   exists size c', ListOffset_toRegularArray offsets c = Ok (Regular size (zlen segs) c') /\ den (Regular size (zlen segs) c') = Some (map VList segs))
  /\ ((exists s t, In s segs /\ In t segs /\ zlen s <> zlen t) -> exists m, ListOffset_toRegularArray offsets c = Err m).
Proof.
  intros Hd. destruct (list_inv _ _ _ _ Hd eq_refl) as (ws & Hc & Hok & E). apply map_VList_inj in E.
  cbn [den] in Hd. rewrite Hc in Hd. destruct (Z.leb_spec 1 (zlen offsets)); [|discriminate].
  destruct (offsets_diffs offsets) as (a & Ha & Eo); [lia|].
  rewrite <- (map_zlen_seg ws) in Eo by assumption. rewrite <- E in Eo. set (counts := map zlen segs) in *.
  assert (zlen counts = zlen segs) as Hcl by apply zlen_map.
  assert (zlen offsets = zlen counts + 1) as Hol by (rewrite Eo; apply zlen_offsets_from).
  assert (nthZ offsets (zlen offsets - 1) = Some (a + sumZ counts)) as Hlast.
  { replace (zlen offsets - 1) with (zlen counts) by lia. rewrite Eo. apply nthZ_offsets_last. }
  pose proof (nonneg_zlens segs : nonneg_counts counts) as Hpos.
  pose proof (sumZ_nonneg _ Hpos) as Hsum. pose proof (den_length _ _ Hc) as HL.
  assert (0 <= a -> a + sumZ counts <= zlen ws -> exists c', getitem_range_nowrap c a (a + sumZ counts) = Ok c' /\ den c' = Some (concat segs)) as Hrange.
  { intros H1 H2. destruct (range_den c ws a (a + sumZ counts) Hc ltac:(lia) H2) as (c' & Hr & Hd'). exists c'. split; [exact Hr|].
    rewrite Hd', <- (concat_segs_offsets ws a counts) by assumption. now rewrite <- Eo, <- E. }
  rewrite Eo in Hok.
  assert (ListOffset_toRegularArray offsets c = let* content := getitem_range_nowrap c a (a + sumZ counts) in
     let* size := awkward_ListOffsetArray_toRegularArray (offsets_from a counts) (zlen counts + 1) in mkRegular size (zlen segs) content) as ET.
  { unfold ListOffset_toRegularArray, rd. rewrite Ha, Hlast. cbn [bind]. rewrite Hol. rewrite <- Eo, <- Hcl. rewrite Z.add_simpl_r. reflexivity. }
  rewrite ET. split.
  - intros Hsame Hb. assert (0 <= a /\ a + sumZ counts <= zlen ws) as [Hb1 Hb2].
    { destruct Hb as [(s & Hin & Hne)|(a' & b' & Ea & Eb & Hb1 & Hb2)].
      - apply (offsets_bounds _ _ _ Hok Hpos). exists (zlen s). split; [apply in_map; exact Hin|]. intros Hz. now apply zlen_0 in Hz.
      - rewrite Ha in Ea. rewrite Hlast in Eb. injection Ea as <-. injection Eb as <-. lia. }
    destruct (Hrange Hb1 Hb2) as (c' & -> & Hd'). cbn [bind].
    destruct (toregular_kernel counts Hpos a) as [(size & -> & Hs0 & Hall & Hnil)|[_ (n & m & Hn & Hm & Hne)]]; cbn [bind].
    + assert (den (Regular size (zlen segs) c') = Some (map VList segs)) as Hfin.
      { apply regular_den; auto. intros s Hs. apply Hall. apply in_map. exact Hs. }
      exists size, c'. split; [|exact Hfin]. unfold mkRegular. destruct (Z.ltb_spec size 0); [lia|].
      rewrite (den_length _ _ Hfin), zlen_map. pose proof (zlen_nonneg segs). destruct (Z.ltb_spec (zlen segs) 0); [lia|]. reflexivity.
    + exfalso. apply in_map_iff in Hn as (s & <- & Hs). apply in_map_iff in Hm as (t & <- & Ht). apply Hne. now apply Hsame.
  - intros (s & t & Hs & Ht & Hne).
    assert (0 <= a /\ a + sumZ counts <= zlen ws) as [Hb1 Hb2].
    { apply (offsets_bounds _ _ _ Hok Hpos). destruct (Z.eq_dec (zlen s) 0) as [Hz|Hz].
      - exists (zlen t). split; [apply in_map; exact Ht|lia].
      - exists (zlen s). split; [apply in_map; exact Hs|lia]. }
    destruct (Hrange Hb1 Hb2) as (c' & -> & Hd'). cbn [bind].
    destruct (toregular_kernel counts Hpos a) as [(size & -> & Hs0 & Hall & Hnil)|[(m & ->) _]]; cbn [bind]; [|eauto].
    exfalso. apply Hne. rewrite (Hall (zlen s)), (Hall (zlen t)); [reflexivity| |]; apply in_map; assumption.
Qed.

Lemma lista_toregular is64 starts stops c segs :
  den (ListA starts stops c) = Some (map VList segs) ->
  ((forall s t, In s segs -> In t segs -> zlen s = zlen t) ->
   exists size c', toRegularArray is64 (ListA starts stops c) = Ok (Regular size (zlen segs) c') /\ den (Regular size (zlen segs) c') = Some (map VList segs))
  /\ ((exists s t, In s segs /\ In t segs /\ zlen s <> zlen t) -> exists m, toRegularArray is64 (ListA starts stops c) = Err m).
Proof.
  intros Hd. cbn [toRegularArray].
  rewrite (compact_den is64 _ _ _ _ Hd eq_refl). cbn [bind].
  destruct (broadcast_same _ _ _ _ Hd eq_refl) as (c'' & tail & -> & Hd''). cbn [bind].
  pose proof (listoffset_den _ _ _ Hd'') as Hlo.
  destruct (listoffset_toregular _ _ _ Hlo) as [H1 H2]. split; [|exact H2].
  intros Hsame. apply H1; [exact Hsame|]. right. exists 0, (sumZ (map zlen segs)).
  split; [apply nthZ_offsets_0|]. rewrite zlen_offsets_of, Z.add_simpl_r. split; [unfold offsets_of; rewrite nthZ_offsets_last; f_equal; lia|].
  split; [lia|]. rewrite (den_length _ _ Hd''), zlen_app. unfold sumZ. rewrite sum_zlen_concat. pose proof (zlen_nonneg tail). lia.
Qed.
