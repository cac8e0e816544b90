(** Padding: the kernels. *)
From Verif Require Import Base BaseLemmas LoopLemmas Content KCore Core KConvert Convert KOption Option KPad Pad
  SpecArray SpecForm SpecAxis SpecOption SpecPad OmapLemmas PCore PCarry PList PConvert POption PForm PNat PAxis PLocalIndex.

Lemma repeat_map_const {A} (x : A) a b : map (fun _ : Z => x) (zseq a b) = repeat x (Z.to_nat (b - a)).
Proof. unfold zseq. generalize (Z.to_nat (b - a)). intros n. generalize a. induction n; intros a0; simpl; f_equal; auto. Qed.
(** one padded row of an index: a, ..., a+s-1, then -1 up to position t *)
Definition row0 (s t a : Z) : list Z := map (fun j => a + j) (zseq 0 s) ++ map (fun _ => -1) (zseq s t).
Lemma zlen_row0 s t a : 0 <= s -> zlen (row0 s t a) = Z.max s t.
Proof. intros H. unfold row0. rewrite zlen_app, !zlen_map, zlen_zseq by lia. destruct (Z.leb_spec s t); [rewrite zlen_zseq by lia; lia|]. rewrite zseq_nil by lia. change (zlen (@nil Z)) with 0. lia. Qed.
Lemma fill_row s t a off pre rest : 0 <= s -> off = zlen pre -> Z.max s t <= zlen rest ->
  exists rest', (let* o := for_ 0 s (fun j o => wr o (off + j) (a + j)) (pre ++ rest) in for_ s t (fun j o => wr o (off + j) (-1)) o) = Ok ((pre ++ row0 s t a) ++ rest')
    /\ zlen rest = Z.max s t + zlen rest'.
Proof.
  intros Hs -> Hr.
  destruct (for_fill_at (fun j o => wr o (zlen pre + j) (a + j)) (fun j => a + j) s pre rest) as (r1 & E1 & L1); [lia|reflexivity|].
  rewrite E1. cbn [bind]. destruct (Z.leb_spec s t).
  - rewrite for_shift. destruct (for_fill_at (fun i => (fun j o => wr o (zlen pre + j) (-1)) (s + i)) (fun _ => -1) (t - s) (pre ++ map (fun j => a + j) (zseq 0 s)) r1) as (r2 & E2 & L2); [lia| |].
    + intros i o Hi _. cbv beta. rewrite zlen_app, zlen_map, zlen_zseq by lia. f_equal. lia.
    + exists r2. rewrite E2. split; [|lia]. unfold row0. rewrite !repeat_map_const, <- !app_assoc. replace (t - s - 0) with (t - s) by lia. reflexivity.
  - rewrite for_nil by lia. exists r1. unfold row0. rewrite (zseq_nil s t) by lia. cbn [map]. rewrite app_nil_r. split; [reflexivity|lia].
Qed.


Definition prow (clip : bool) (t : Z) (ab : Z * Z) : list Z := row0 (if clip then Z.min t (diff ab) else diff ab) t (fst ab).
Lemma zlen_padded clip t l : 0 <= t -> zlen (padded clip t l) = if clip then t else Z.max t (zlen l).
Proof.
  intros Ht. unfold padded. pose proof (zlen_nonneg l). destruct clip; [rewrite zlen_slice|]; rewrite ?zlen_app, ?zlen_repeat; lia.
Qed.
Lemma prow_den clip t ab ws : 0 <= t -> sub_ok (zlen ws) ab = true -> omap (optget ws) (prow clip t ab) = Some (padded clip t (seg ws ab)).
Proof.
  intros Ht Hs. pose proof (sub_ok_diff _ _ Hs) as Hd. pose proof (zlen_seg _ _ Hs) as Hz. unfold prow, row0. set (s := if clip then _ else _). assert (Hs0 : 0 <= s <= diff ab) by (unfold s; destruct clip; lia).
  rewrite OmapLemmas.omap_app. 
  assert (E1 : omap (optget ws) (map (fun j => fst ab + j) (zseq 0 s)) = Some (slice 0 s (seg ws ab))).
  { destruct (Z.eqb_spec s 0) as [->|]; [rewrite zseq_nil by lia; rewrite slice_empty by lia; reflexivity|].
    unfold sub_ok in Hs. unfold diff, seg in *. rewrite slice_slice by (destruct (Z.eqb_spec (fst ab) (snd ab)); lia).
    rewrite <- (omap_nthZ_zseq ws) by (destruct (Z.eqb_spec (fst ab) (snd ab)); lia).
    rewrite omap_map. replace (zseq (fst ab + 0) (fst ab + s)) with (map (fun j => fst ab + j) (zseq 0 s)).
    - rewrite omap_map. apply omap_ext. intros j Hj. apply In_zseq in Hj. unfold optget. destruct (Z.ltb_spec (fst ab + j) 0); [|reflexivity]. destruct (Z.eqb_spec (fst ab) (snd ab)); lia.
    - replace (fst ab + 0) with (0 + fst ab) by lia. replace (fst ab + s) with (s + fst ab) by lia. rewrite <- (map_id (zseq (0 + fst ab) _)). rewrite map_zseq_shift. apply map_ext. intros; lia. }
  rewrite E1. rewrite repeat_map_const.
  assert (E2 : forall n, omap (optget ws) (repeat (-1) n) = Some (repeat VNone n)). { induction n as [|n IH]; [reflexivity|]. simpl. rewrite IH. reflexivity. }
  rewrite E2. f_equal. unfold padded, s. rewrite Hz. destruct clip.
  - destruct (Z.leb_spec t (diff ab)).
    + rewrite Z.min_l by lia. rewrite Z.sub_diag. cbn [Z.to_nat repeat]. rewrite app_nil_r. replace (Z.to_nat (t - diff ab)) with O by lia. cbn [repeat]. rewrite app_nil_r. reflexivity.
    + rewrite Z.min_r by lia. rewrite (slice_full' (diff ab)) by lia. rewrite slice_full'; [reflexivity|]. rewrite zlen_app, zlen_repeat. lia.
  - rewrite slice_full' by lia. reflexivity.
Qed.
Lemma zlen_prow clip t ab ws : 0 <= t -> sub_ok (zlen ws) ab = true -> zlen (prow clip t ab) = zlen (padded clip t (seg ws ab)).
Proof. intros Ht Hs. pose proof (prow_den clip t ab ws Ht Hs) as H. symmetry. eapply omap_zlen; exact H. Qed.

Definition rows (clip : bool) (t : Z) (l : list (Z * Z)) : list Z := concat (map (prow clip t) l).
Definition psegs (clip : bool) (t : Z) (ws : list value) (l : list (Z * Z)) : list (list value) := map (padded clip t) (map (seg ws) l).
Lemma rows_den clip t ws l c : 0 <= t -> den c = Some ws -> forallb (sub_ok (zlen ws)) l = true ->
  den (IndexedOption (rows clip t l) c) = Some (concat (psegs clip t ws l)).
Proof.
  intros Ht Hc Hl. cbn [den]. rewrite Hc. unfold rows. change (fun i => if i <? 0 then Some VNone else nthZ ws i) with (optget ws). rewrite omap_concat.
  replace (omap (omap (optget ws)) (map (prow clip t) l)) with (Some (psegs clip t ws l)); [reflexivity|].
  induction l as [|ab l IH]; [reflexivity|]. cbn [forallb] in Hl. apply andb_prop in Hl as [H1 H2]. cbn [map omap]. rewrite prow_den by assumption. rewrite <- IH by assumption. reflexivity.
Qed.
Lemma zlen_rows clip t ws l : 0 <= t -> forallb (sub_ok (zlen ws)) l = true -> map zlen (map (prow clip t) l) = map zlen (psegs clip t ws l).
Proof.
  intros Ht Hl. induction l as [|ab l IH]; [reflexivity|]. cbn [forallb] in Hl. apply andb_prop in Hl as [H1 H2]. unfold psegs in *. cbn [map]. rewrite IH by assumption. f_equal. apply zlen_prow; assumption.
Qed.
Lemma zlen_concat {A} (l : list (list A)) : zlen (concat l) = sumZ (map zlen l).
Proof. induction l as [|x l IH]; [reflexivity|]. simpl. rewrite zlen_app, IH. reflexivity. Qed.

Lemma simplify_rows clip t ws l c : 0 <= t -> den c = Some ws -> forallb (sub_ok (zlen ws)) l = true ->
  exists next, simplify_optiontype (IndexedOption (rows clip t l) c) = Ok next /\ den next = Some (concat (psegs clip t ws l)).
Proof. intros Ht Hc Hl. apply simplify_io. apply rows_den; assumption. Qed.

(** ** ListArray *)
Lemma min_range_spec starts stops : zlen starts <= zlen stops -> 0 < zlen starts ->
  exists m, awkward_ListArray_min_range starts stops (zlen starts) = Ok m /\ forall ab, In ab (combine starts stops) -> m <= diff ab.
Proof.
  intros Hl H0. unfold awkward_ListArray_min_range. 
  assert (HC : forall i, 0 <= i < zlen starts -> exists a b, rd starts i = Ok a /\ rd stops i = Ok b /\ nthZ (combine starts stops) i = Some (a, b)).
  { intros i Hi. destruct (rd_in starts i) as (a & E1 & N1); [lia|]. destruct (rd_in stops i) as (b & E2 & N2); [lia|]. exists a, b. rewrite nthZ_combine, N1, N2. auto. }
  destruct (HC 0) as (a0 & b0 & E1 & E2 & E3); [lia|]. rewrite E1, E2. cbn [bind].
  match goal with |- exists m, for_ 1 (zlen starts) ?body ?s = Ok m /\ _ =>
    destruct (for_inv (fun i m => forall k ab, 0 <= k < i -> nthZ (combine starts stops) k = Some ab -> m <= diff ab) 1 (zlen starts) body s) as (m & E & H) end.
  - lia.
  - intros k ab Hk Hab. assert (k = 0) by lia. subst k. rewrite E3 in Hab. injection Hab as <-. unfold diff. simpl. lia.
  - intros i t Hi HI. destruct (HC i) as (a & b & F1 & F2 & F3); [lia|]. rewrite F1, F2. cbn [bind]. eexists. split; [reflexivity|].
    intros k ab Hk Hab. destruct (Z.eqb_spec k i) as [->|].
    + rewrite F3 in Hab. injection Hab as <-. unfold diff. simpl. destruct (Z.ltb_spec t (b - a)); lia.
    + pose proof (HI k ab ltac:(lia) Hab). destruct (Z.ltb_spec t (b - a)); lia.
  - exists m. split; [exact E|]. intros ab Hin. apply In_nthZ in Hin as (k & Hk). pose proof (nthZ_Some _ _ _ Hk). rewrite zlen_combine_le in H1 by lia. eapply H; [|exact Hk]. lia.
Qed.
Lemma rpad_length_spec starts stops t : 0 <= t -> zlen starts <= zlen stops ->  forallb (fun ab => 0 <=? diff ab) (combine starts stops) = true ->
  awkward_ListArray_rpad_and_clip_length_axis1 starts stops t (zlen starts) = Ok (sumZ (map zlen (map (prow false t) (combine starts stops)))).
Proof.
  intros Ht Hl Hd. unfold awkward_ListArray_rpad_and_clip_length_axis1.
  assert (HZ : zlen starts = zlen (combine starts stops)) by (rewrite zlen_combine_le; lia). rewrite HZ at 1.
  match goal with |- for_ 0 _ ?body ?s = _ =>
    destruct (for_list (combine starts stops) (fun d n => n = sumZ (map zlen (map (prow false t) d))) body s) as (m & E & H) end.
  - reflexivity.
  - intros d [a b] r n E ->. destruct (combine_mid _ _ _ _ _ _ E) as [N1 N2]. apply rd_Ok in N1, N2. rewrite N1, N2. cbn [bind]. eexists. split; [reflexivity|].
    rewrite !map_app, sumZ_app. cbn [map sumZ fold_right]. rewrite <- E, forallb_app in Hd. apply andb_prop in Hd as [_ Hd]. cbn [forallb] in Hd. unfold diff in Hd. simpl in Hd.
    unfold prow. rewrite zlen_row0 by (unfold diff; simpl; lia). unfold diff. simpl. destruct (Z.ltb_spec (b - a) t); lia.
  - rewrite E, H. reflexivity.
Qed.

Lemma lista_rpad_kernel starts stops t out ts tp : 0 <= t -> zlen starts <= zlen stops -> forallb (fun ab => 0 <=? diff ab) (combine starts stops) = true ->
  let l := combine starts stops in let lens := map zlen (map (prow false t) l) in
  zlen out = sumZ lens -> zlen ts = zlen starts -> zlen tp = zlen starts ->
  awkward_ListArray_rpad_axis1 out starts stops ts tp t (zlen starts) =
    Ok (rows false t l, slice 0 (zlen starts) (offsets_of lens), slice 1 (zlen starts + 1) (offsets_of lens)).
Proof.
  intros Ht Hl Hd l lens Ho Hts Htp. unfold awkward_ListArray_rpad_axis1.
  assert (HZ : zlen starts = zlen l) by (unfold l; rewrite zlen_combine_le; lia). rewrite HZ.
  match goal with |- bind (for_ 0 _ ?body ?s) _ = _ =>
    destruct (for_list l (fun d st => let ld := map zlen (map (prow false t) d) in exists r1 r2 r3,
      st = (sumZ ld, rows false t d ++ r1, slice 0 (zlen d) (offsets_of ld) ++ r2, slice 1 (zlen d + 1) (offsets_of ld) ++ r3)
      /\ sumZ ld + zlen r1 = sumZ lens /\ zlen d + zlen r2 = zlen l /\ zlen d + zlen r3 = zlen l) body s) as (st & E & r1 & r2 & r3 & -> & H1 & H2 & H3) end.
  - exists out, ts, tp. cbn. change (zlen (@nil (Z * Z))) with 0. split; [|lia]. reflexivity.
  - intros d [a b] r st E (r1 & r2 & r3 & -> & H1 & H2 & H3). unfold l in E. destruct (combine_mid _ _ _ _ _ _ E) as [N1 N2]. apply rd_Ok in N1, N2.
    assert (Hab : 0 <= b - a). { rewrite <- E, forallb_app in Hd. apply andb_prop in Hd as [_ Hd]. cbn [forallb] in Hd. unfold diff in Hd. simpl in Hd. lia. }
    set (ld := map zlen (map (prow false t) d)) in *. assert (Hld : zlen ld = zlen d) by (unfold ld; rewrite !zlen_map; reflexivity).
    pose proof (zlen_nonneg d). pose proof (zlen_nonneg r).
    assert (Hlen : zlen l = zlen d + 1 + zlen r). { unfold l. rewrite <- E, zlen_app, zlen_cons. lia. }
    assert (HL1 : zlen (slice 0 (zlen d) (offsets_of ld)) = zlen d) by (rewrite zlen_slice; rewrite ?zlen_offsets_of; lia).
    assert (HL2 : zlen (slice 1 (zlen d + 1) (offsets_of ld)) = zlen d) by (rewrite zlen_slice; rewrite ?zlen_offsets_of; lia).
    destruct (wr_push' (slice 0 (zlen d) (offsets_of ld)) r2 (sumZ ld)) as (r2' & W1 & L1); [lia|]. rewrite HL1 in W1. rewrite W1. cbn [bind]. rewrite N2, N1. cbn [bind].
    assert (Hrow : zlen (prow false t (a, b)) = Z.max (b - a) t) by (unfold prow; rewrite zlen_row0 by (unfold diff; simpl; lia); reflexivity).
    assert (Hlens : sumZ lens = sumZ ld + Z.max (b - a) t + sumZ (map zlen (map (prow false t) r))).
    { unfold lens, l. rewrite <- E, !map_app, sumZ_app. cbn [map sumZ fold_right]. rewrite Hrow. fold ld. unfold sumZ at 3. lia. }
    assert (Hr0 : 0 <= sumZ (map zlen (map (prow false t) r))) by apply sumZ_nonneg, nonneg_zlens.
    destruct (fill_row (b - a) t a (sumZ ld) (rows false t d) r1) as (r1' & F1 & L2); [lia| |lia|].
    { unfold rows. rewrite zlen_concat. reflexivity. }
    match goal with |- context [for_ 0 (b - a) ?f ?x] => destruct (for_ 0 (b - a) f x) as [o1| |] eqn:Eo end; cbn [bind] in F1; try discriminate. cbn [bind]. rewrite F1. cbn [bind].
    assert (R : rd ((slice 0 (zlen d) (offsets_of ld) ++ [sumZ ld]) ++ r2') (zlen d) = Ok (sumZ ld)).
    { apply rd_Ok. rewrite <- app_assoc. cbn [app]. rewrite <- HL1 at 2. apply nthZ_mid. }
    rewrite R. cbn [bind]. set (nx := if b - a <? t then _ else _). assert (Hnx : nx = sumZ ld + Z.max (b - a) t) by (unfold nx; destruct (Z.ltb_spec (b - a) t); lia).
    destruct (wr_push' (slice 1 (zlen d + 1) (offsets_of ld)) r3 nx) as (r3' & W2 & L3); [lia|]. rewrite HL2 in W2. rewrite W2. cbn [bind].
    eexists. split; [reflexivity|]. cbv zeta. rewrite !map_app. cbn [map]. fold ld. rewrite sumZ_app. cbn [sumZ fold_right]. rewrite Hrow, Z.add_0_r.
    exists r1', r2', r3'. rewrite zlen_app. change (zlen [(a, b)]) with 1. split; [|lia]. rewrite Hnx.
    assert (Hoff : offsets_of (ld ++ [Z.max (b - a) t]) = offsets_of ld ++ [sumZ ld + Z.max (b - a) t]).
    { apply list_eqZ; [rewrite zlen_app, !zlen_offsets_of, zlen_app; reflexivity|]. intros i Hi. rewrite zlen_offsets_of, zlen_app in Hi. change (zlen [Z.max (b - a) t]) with 1 in Hi.
      unfold offsets_of. rewrite nthZ_offsets_from by (rewrite zlen_app; change (zlen [Z.max (b - a) t]) with 1; lia).
      rewrite nthZ_app. fold (offsets_of ld). rewrite zlen_offsets_of. destruct (Z.ltb_spec i (zlen ld + 1)).
      - unfold offsets_of. rewrite nthZ_offsets_from by lia. rewrite slice_app_l by lia. reflexivity.
      - assert (i = zlen ld + 1) by lia. subst i. rewrite Z.sub_diag. rewrite slice_full' by (rewrite zlen_app; reflexivity). rewrite sumZ_app. simpl. rewrite nthZ_cons. simpl. f_equal. lia. }
    rewrite Hoff. repeat f_equal.
    + unfold rows. rewrite map_app, concat_app. cbn [map concat]. rewrite app_nil_r. reflexivity.
    + rewrite slice_app_l by (rewrite ?zlen_offsets_of; lia). rewrite (slice_snoc_nth 0 (zlen d) (offsets_of ld) (sumZ ld)); [reflexivity|lia|].
      unfold offsets_of. rewrite <- Hld. rewrite nthZ_offsets_last. f_equal.
    + rewrite (slice_snoc_nth 1 (zlen d + 1) _ (sumZ ld + Z.max (b - a) t)); [rewrite slice_app_l by (rewrite ?zlen_offsets_of; lia); reflexivity|lia|].
      replace (zlen d + 1) with (zlen (offsets_of ld)) by (rewrite zlen_offsets_of; lia). apply nthZ_mid.
  - rewrite E. cbn [bind]. unfold lens in *. rewrite (zlen_0 r1), (zlen_0 r2), (zlen_0 r3), !app_nil_r by lia. reflexivity.
Qed.

(** ** ListOffsetArray *)
Lemma offsets_of_snoc l n : offsets_of (l ++ [n]) = offsets_of l ++ [sumZ l + n].
Proof.
  apply list_eqZ; [rewrite zlen_app, !zlen_offsets_of, zlen_app; reflexivity|]. intros i Hi. rewrite zlen_offsets_of, zlen_app in Hi. change (zlen [n]) with 1 in Hi.
  unfold offsets_of. rewrite nthZ_offsets_from by (rewrite zlen_app; change (zlen [n]) with 1; lia).
  rewrite nthZ_app. fold (offsets_of l). rewrite zlen_offsets_of. destruct (Z.ltb_spec i (zlen l + 1)).
  - unfold offsets_of. rewrite nthZ_offsets_from by lia. rewrite slice_app_l by lia. reflexivity.
  - assert (i = zlen l + 1) by lia. subst i. rewrite Z.sub_diag. rewrite slice_full' by (rewrite zlen_app; reflexivity). rewrite sumZ_app. simpl. rewrite nthZ_cons. simpl. f_equal. lia.
Qed.
Lemma pairs_mid o d a b r : d ++ (a, b) :: r = pairs o -> nthZ o (zlen d) = Some a /\ nthZ o (zlen d + 1) = Some b.
Proof.
  intros E. assert (H : nthZ (pairs o) (zlen d) = Some (a, b)) by (rewrite <- E; apply nthZ_mid). rewrite nthZ_pairs in H.
  destruct (nthZ o (zlen d)), (nthZ o (zlen d + 1)); try discriminate. injection H as -> ->. auto.
Qed.
Lemma mid_nonneg (l d r : list (Z * Z)) a b : d ++ (a, b) :: r = l -> forallb (fun ab => 0 <=? diff ab) l = true -> 0 <= b - a.
Proof. intros E Hd. rewrite <- E, forallb_app in Hd. apply andb_prop in Hd as [_ Hd]. cbn [forallb] in Hd. unfold diff in Hd. simpl in Hd. lia. Qed.

Lemma listoffset_rpad_length o t out : 0 <= t -> 1 <= zlen o -> zlen out = zlen o -> forallb (fun ab => 0 <=? diff ab) (pairs o) = true ->
  let lens := map zlen (map (prow false t) (pairs o)) in
  awkward_ListOffsetArray_rpad_length_axis1 out o (zlen o - 1) t = Ok (sumZ lens, offsets_of lens).
Proof.
  intros Ht Ho Hout Hd lens. unfold awkward_ListOffsetArray_rpad_length_axis1. pose proof (zlen_pairs o Ho) as HP. rewrite <- HP.
  destruct (wr_push' [] out 0) as (r0 & W & L0); [lia|]. cbn [app] in W. change (zlen (@nil Z)) with 0 in W. rewrite W. cbn [bind].
  match goal with |- for_ 0 _ ?body ?s = _ =>
    destruct (for_list (pairs o) (fun d st => let ld := map zlen (map (prow false t) d) in exists r, st = (sumZ ld, offsets_of ld ++ r) /\ zlen d + 1 + zlen r = zlen o) body s) as (st & E & r & -> & H1) end.
  - exists r0. split; [reflexivity|]. change (zlen (@nil (Z * Z))) with 0. lia.
  - intros d [a b] r st E (r1 & -> & H1). destruct (pairs_mid _ _ _ _ _ E) as [N1 N2]. apply rd_Ok in N1, N2. rewrite N1, N2. cbn [bind].
    pose proof (mid_nonneg _ _ _ _ _ E Hd) as Hab. set (ld := map zlen (map (prow false t) d)) in *. assert (Hld : zlen ld = zlen d) by (unfold ld; rewrite !zlen_map; reflexivity).
    assert (Hlen : zlen (pairs o) = zlen d + 1 + zlen r). { rewrite <- E, zlen_app, zlen_cons. lia. } pose proof (zlen_nonneg r). pose proof (zlen_nonneg d).
    assert (R : rd (offsets_of ld ++ r1) (zlen d) = Ok (sumZ ld)).
    { apply rd_Ok. rewrite nthZ_app, zlen_offsets_of. destruct (Z.ltb_spec (zlen d) (zlen ld + 1)); [|lia]. unfold offsets_of. rewrite <- Hld, nthZ_offsets_last. f_equal. }
    rewrite R. cbn [bind]. set (nx := if t <? b - a then _ else _). assert (Hnx : nx = Z.max (b - a) t) by (unfold nx; destruct (Z.ltb_spec t (b - a)); lia).
    destruct (wr_push' (offsets_of ld) r1 (sumZ ld + nx)) as (r2 & W2 & L2); [lia|]. rewrite zlen_offsets_of, Hld in W2. rewrite W2. cbn [bind].
    eexists. split; [reflexivity|]. cbv zeta. rewrite !map_app. cbn [map]. fold ld. rewrite offsets_of_snoc, sumZ_app. cbn [sumZ fold_right].
    assert (Hrow : zlen (prow false t (a, b)) = nx) by (unfold prow; rewrite zlen_row0 by (unfold diff; simpl; lia); unfold diff; simpl; lia).
    rewrite Hrow, Z.add_0_r. exists r2. split; [reflexivity|]. rewrite zlen_app. change (zlen [(a, b)]) with 1. lia.
  - rewrite E. rewrite (zlen_0 r), app_nil_r by lia. reflexivity.
Qed.
Lemma listoffset_rpad_kernel o t out : 0 <= t -> 1 <= zlen o -> forallb (fun ab => 0 <=? diff ab) (pairs o) = true ->
  zlen out = sumZ (map zlen (map (prow false t) (pairs o))) ->
  awkward_ListOffsetArray_rpad_axis1 out o (zlen o - 1) t = Ok (rows false t (pairs o)).
Proof.
  intros Ht Ho Hd Hout. unfold awkward_ListOffsetArray_rpad_axis1.
  erewrite (for_emit_exact (pairs o) (prow false t)); [reflexivity|symmetry; apply zlen_pairs; exact Ho|rewrite zlen_concat; exact Hout|].
  intros i [a b] d r Hx Hr. rewrite nthZ_pairs in Hx. destruct (nthZ o i) as [a'|] eqn:N1; [|discriminate]. destruct (nthZ o (i + 1)) as [b'|] eqn:N2; [|discriminate]. injection Hx as -> ->.
  assert (Hab : 0 <= b - a). { rewrite forallb_forall in Hd. specialize (Hd (a, b)). unfold diff in Hd. simpl in Hd. assert (In (a, b) (pairs o)) by (apply (nthZ_In _ i); rewrite nthZ_pairs, N1, N2; reflexivity). specialize (Hd H). lia. }
  apply rd_Ok in N1, N2. rewrite N1, N2. cbn [bind]. unfold prow in *. change (diff (a, b)) with (b - a) in *. cbn [fst] in *. rewrite zlen_row0 in * by lia.
  destruct (for_append (fun j => a + j) 0 (b - a) (fun j st => let '(count, toindex) := st in let* toindex := wr toindex count (a + j) in Ok (count + 1, toindex)) d r) as (r1 & E1 & L1); [reflexivity|lia|lia|].
  rewrite E1. cbn [bind]. destruct (Z.leb_spec (b - a) t).
  - destruct (for_append (fun j => -1) (b - a) t (fun j st => let '(count, toindex) := st in let* toindex := wr toindex count (-1) in Ok (count + 1, toindex)) (d ++ map (fun j => a + j) (zseq 0 (b - a))) r1) as (r2 & E2 & L2); [reflexivity|lia|lia|].
    rewrite zlen_app, zlen_map, zlen_zseq in E2 by lia. replace (zlen d + (b - a - 0)) with (zlen d + (b - a - 0)) in E2 by lia. rewrite E2. exists r2. unfold row0. rewrite <- !app_assoc. split; [|lia]. f_equal. f_equal. lia.
  - rewrite for_nil by lia. exists r1. unfold row0. rewrite (zseq_nil (b - a) t) by lia. cbn [map]. rewrite app_nil_r. split; [|lia]. f_equal. f_equal. lia.
Qed.

(** rows of equal length, written one after the other *)
Lemma for_rows (l : list (Z * Z)) t out (body : Z -> list Z -> res (list Z)) n : 0 <= t -> n = zlen l -> zlen out = n * t -> forallb (fun ab => 0 <=? diff ab) l = true ->
  (forall i ab o, nthZ l i = Some ab -> body i o = let s := Z.min t (diff ab) in
     let* o := for_ 0 s (fun j o => wr o (i * t + j) (fst ab + j)) o in for_ s t (fun j o => wr o (i * t + j) (-1)) o) ->
  for_ 0 n body out = Ok (rows true t l).
Proof.
  intros Ht -> Hout Hd Hb.
  assert (HP : forall ab, 0 <= diff ab -> zlen (prow true t ab) = t). { intros ab H. unfold prow. rewrite zlen_row0 by lia. lia. }
  destruct (for_list l (fun d o => exists r, o = rows true t d ++ r /\ zlen (rows true t d) = zlen d * t /\ zlen d * t + zlen r = zlen l * t) body out) as (o & E & r & -> & H1 & H2).
  - exists out. cbn. change (zlen (@nil Z)) with 0. change (zlen (@nil (Z * Z))) with 0. repeat split; lia.
  - intros d [a b] r o E (r1 & -> & H1 & H2). pose proof (mid_nonneg _ _ _ _ _ E Hd) as Hab.
    rewrite (Hb (zlen d) (a, b)) by (rewrite <- E; apply nthZ_mid). cbv zeta. change (diff (a, b)) with (b - a). cbn [fst].
    assert (Hlen : zlen l = zlen d + 1 + zlen r). { rewrite <- E, zlen_app, zlen_cons. lia. } pose proof (zlen_nonneg r). pose proof (zlen_nonneg d).
    destruct (fill_row (Z.min t (b - a)) t a (zlen d * t) (rows true t d) r1) as (r2 & F & L); [lia|lia|nia|]. rewrite F. eexists. split; [reflexivity|]. exists r2.
    assert (HR : rows true t (d ++ [(a, b)]) = rows true t d ++ row0 (Z.min t (b - a)) t a). { unfold rows. rewrite map_app, concat_app. cbn [map concat]. rewrite app_nil_r. reflexivity. }
    rewrite HR, !zlen_app, zlen_row0 by lia. change (zlen [(a, b)]) with 1. repeat split; nia.
  - rewrite E. rewrite (zlen_0 r), app_nil_r by nia. reflexivity.
Qed.
Lemma rpad_axis1_ok t n ts tp : 0 <= n -> zlen ts = n -> zlen tp = n -> exists r, awkward_index_rpad_and_clip_axis1 ts tp t n = Ok r.
Proof.
  intros Hn H1 H2. unfold awkward_index_rpad_and_clip_axis1.
  match goal with |- exists r, bind (for_ 0 n ?body ?s) _ = Ok r =>
    destruct (for_inv (fun i st => zlen (snd (fst st)) = n /\ zlen (snd st) = n) 0 n body s) as (st & E & H) end; [lia|auto| |].
  - intros i [[o a] b] Hi [A B]. cbn [fst snd] in *. destruct (wr_spec a i o ltac:(lia)) as (a' & -> & La & _). cbn [bind]. destruct (wr_spec b i (o + t) ltac:(lia)) as (b' & -> & Lb & _). cbn [bind].
    eexists. split; [reflexivity|]. cbn [fst snd]. lia.
  - rewrite E. cbn [bind]. destruct st as [[? ?] ?]. eauto.
Qed.

(** ** the methods *)
Lemma lift_lists clip t (ws : list value) (l : list (Z * Z)) : map VList (psegs clip t ws l) = map (lift (pad clip t) 1) (map VList (map (seg ws) l)).
Proof. unfold psegs. rewrite !map_map. reflexivity. Qed.
Lemma zlen_psegs clip t ws l : zlen (psegs clip t ws l) = zlen l.
Proof. unfold psegs. rewrite !zlen_map. reflexivity. Qed.
Lemma padded_id t l : t <= zlen l -> padded false t l = l.
Proof. intros H. unfold padded. replace (Z.to_nat (t - zlen l)) with O by lia. cbn [repeat]. apply app_nil_r. Qed.

Lemma lista_rpad_good starts stops c t vs : 0 <= t -> den (ListA starts stops c) = Some vs -> vs <> [] ->
  good (ListArray_rpad starts stops c t) (Some (map (lift (pad false t) 1) vs)).
Proof.
  intros Ht Hd Hne. destruct (list_inv _ _ _ _ Hd eq_refl) as (ws & Hw & Hl & Hvs). pose proof (view_diff_nonneg _ _ _ _ Hd eq_refl) as Hdn.
  assert (Hss : zlen starts <= zlen stops). { cbn [den] in Hd. rewrite Hw in Hd. destruct (Z.leb_spec (zlen starts) (zlen stops)); [assumption|discriminate]. }
  assert (HZ : zlen (combine starts stops) = zlen starts) by (rewrite zlen_combine_le; lia).
  assert (H0 : 0 < zlen starts). { destruct (Z.eqb_spec (zlen starts) 0); [|pose proof (zlen_nonneg starts); lia]. exfalso. apply Hne. rewrite Hvs. rewrite (zlen_0 (combine starts stops)) by lia. reflexivity. }
  unfold ListArray_rpad. destruct (min_range_spec starts stops Hss H0) as (m & -> & Hm). cbn [bind]. destruct (Z.ltb_spec t m).
  - eexists. split; [reflexivity|]. rewrite Hd, Hvs. f_equal. rewrite <- lift_lists. f_equal. unfold psegs. rewrite map_map. apply map_ext_in. intros ab Hin. symmetry. apply padded_id.
    rewrite forallb_forall in Hl. rewrite (zlen_seg _ _ (Hl _ Hin)). specialize (Hm _ Hin). lia.
  - rewrite rpad_length_spec by assumption. cbn [bind]. set (lens := map zlen (map (prow false t) (combine starts stops))). assert (0 <= sumZ lens) by apply sumZ_nonneg, nonneg_zlens.
    unfold allocz. destruct (Z.ltb_spec (sumZ lens) 0); [lia|]. cbn [bind]. rewrite lista_rpad_kernel by (try assumption; rewrite zlen_alloc; try reflexivity; lia). cbn [bind]. fold lens.
    destruct (simplify_rows false t ws (combine starts stops) c Ht Hw Hl) as (next & -> & Hn). cbn [bind].
    assert (EL : lens = map zlen (psegs false t ws (combine starts stops))) by (unfold lens; apply zlen_rows; assumption).
    pose proof (listoffset_den0 _ _ Hn) as D. rewrite <- EL in D.
    assert (Hlen : zlen (offsets_of lens) = zlen starts + 1). { rewrite zlen_offsets_of. unfold lens. rewrite !zlen_map. lia. }
    assert (D2 : den (ListA (slice 0 (zlen starts) (offsets_of lens)) (slice 1 (zlen starts + 1) (offsets_of lens)) next) = Some (map VList (psegs false t ws (combine starts stops)))).
    { cbn [den] in *. rewrite Hn in *. rewrite !zlen_slice by lia. destruct (Z.leb_spec (zlen starts - 0) (zlen starts + 1 - 1)); [|lia].
      replace (zlen starts) with (zlen (offsets_of lens) - 1) at 1 by lia. rewrite <- Hlen. rewrite combine_starts_stops by lia. destruct (1 <=? zlen (offsets_of lens)); [exact D|discriminate]. }
    rewrite (mkListA_den _ _ _ _ D2). eexists. split; [reflexivity|]. rewrite D2, Hvs, lift_lists. reflexivity.
Qed.
Lemma listoffset_rpad_good o c t vs : 0 <= t -> den (ListOffset o c) = Some vs -> good (ListOffsetArray_rpad o c t) (Some (map (lift (pad false t) 1) vs)).
Proof.
  intros Ht Hd. destruct (list_inv _ _ _ _ Hd eq_refl) as (ws & Hw & Hl & Hvs). pose proof (view_diff_nonneg _ _ _ _ Hd eq_refl) as Hdn.
  assert (Ho : 1 <= zlen o). { cbn [den] in Hd. rewrite Hw in Hd. destruct (Z.leb_spec 1 (zlen o)); [assumption|discriminate]. }
  unfold ListOffsetArray_rpad. rewrite listoffset_rpad_length by (try assumption; rewrite zlen_alloc; lia). cbn [bind].
  set (lens := map zlen (map (prow false t) (pairs o))). assert (0 <= sumZ lens) by apply sumZ_nonneg, nonneg_zlens.
  unfold allocz. destruct (Z.ltb_spec (sumZ lens) 0); [lia|]. cbn [bind]. rewrite listoffset_rpad_kernel by (try assumption; rewrite zlen_alloc; try reflexivity; lia). cbn [bind].
  destruct (simplify_rows false t ws (pairs o) c Ht Hw Hl) as (next & -> & Hn). cbn [bind].
  pose proof (listoffset_den0 _ _ Hn) as D. rewrite <- (zlen_rows false t ws (pairs o) Ht Hl) in D. fold lens in D.
  rewrite (mkListOffset_den _ _ _ D). eexists. split; [reflexivity|]. rewrite D, Hvs, lift_lists. reflexivity.
Qed.
Lemma regular_of_rows t (ws : list value) l c next : 0 <= t -> den c = Some ws -> forallb (sub_ok (zlen ws)) l = true -> den next = Some (concat (psegs true t ws l)) ->
  good (mkRegular t (zlen l) next) (Some (map VList (psegs true t ws l))).
Proof.
  intros Ht Hw Hl Hn. assert (D : den (Regular t (zlen l) next) = Some (map VList (psegs true t ws l))).
  { apply regular_den; [exact Ht|intros _; rewrite zlen_psegs; reflexivity| |exact Hn]. intros s Hin. unfold psegs in Hin. apply in_map_iff in Hin as (x & <- & _). rewrite zlen_padded by exact Ht. reflexivity. }
  rewrite (mkRegular_den _ _ _ _ D). eexists. split; [reflexivity|exact D].
Qed.
Lemma listoffset_clip_good o c t vs : 0 <= t -> den (ListOffset o c) = Some vs -> good (ListOffsetArray_rpad_and_clip o c t) (Some (map (lift (pad true t) 1) vs)).
Proof.
  intros Ht Hd. destruct (list_inv _ _ _ _ Hd eq_refl) as (ws & Hw & Hl & Hvs). pose proof (view_diff_nonneg _ _ _ _ Hd eq_refl) as Hdn.
  assert (Ho : 1 <= zlen o). { cbn [den] in Hd. rewrite Hw in Hd. destruct (Z.leb_spec 1 (zlen o)); [assumption|discriminate]. }
  unfold ListOffsetArray_rpad_and_clip. pose proof (zlen_pairs o Ho) as HP. rewrite <- HP. pose proof (zlen_nonneg (pairs o)).
  destruct (rpad_axis1_ok t (zlen (pairs o)) (alloc (zlen (pairs o))) (alloc (zlen (pairs o)))) as (r & ->); [lia|apply zlen_alloc; lia|apply zlen_alloc; lia|]. cbn [bind].
  unfold allocz. destruct (Z.ltb_spec (t * zlen (pairs o)) 0); [nia|]. cbn [bind]. unfold awkward_ListOffsetArray_rpad_and_clip_axis1.
  rewrite (for_rows (pairs o) t); [|exact Ht|reflexivity|rewrite zlen_alloc; nia|exact Hdn|].
  2: { intros i [a b] out Hx. rewrite nthZ_pairs in Hx. destruct (nthZ o i) as [a'|] eqn:N1; [|discriminate]. destruct (nthZ o (i + 1)) as [b'|] eqn:N2; [|discriminate]. injection Hx as -> ->.
       apply rd_Ok in N1, N2. rewrite N1, N2. cbn [bind]. change (diff (a, b)) with (b - a). cbv zeta. cbn [fst].
       replace (if t <? b - a then t else b - a) with (Z.min t (b - a)) by (destruct (Z.ltb_spec t (b - a)); lia). reflexivity. }
  cbn [bind]. destruct (simplify_rows true t ws (pairs o) c Ht Hw Hl) as (next & -> & Hn). cbn [bind].
  rewrite Hvs, <- lift_lists. eapply regular_of_rows; eassumption.
Qed.
Lemma regular_clip_good size zl c t vs : 0 <= t -> den (Regular size zl c) = Some vs ->
  good (RegularArray_rpad_and_clip size (length_ (Regular size zl c)) c t) (Some (map (lift (pad true t) 1) vs)).
Proof.
  intros Ht Hd. destruct (list_inv _ _ _ _ Hd eq_refl) as (ws & Hw & Hl & Hvs). pose proof (view_diff_nonneg _ _ _ _ Hd eq_refl) as Hdn.
  destruct (regular_inv _ _ _ _ Hd) as (_ & _ & _ & Hs & _). set (n := length_ (Regular size zl c)) in *.
  assert (Hn0 : 0 <= n) by (unfold n; rewrite (den_length _ _ Hd); apply zlen_nonneg).
  set (l := map (fun i => (i * size, (i + 1) * size)) (zseq 0 n)) in *. assert (HL : zlen l = n) by (unfold l; rewrite zlen_map, zlen_zseq; lia).
  unfold RegularArray_rpad_and_clip. unfold allocz. destruct (Z.ltb_spec (n * t) 0); [nia|]. cbn [bind]. unfold awkward_RegularArray_rpad_and_clip_axis1.
  rewrite (for_rows l t); [|exact Ht|lia|rewrite zlen_alloc; nia|exact Hdn|].
  2: { intros i ab out Hx. pose proof (nthZ_Some _ _ _ Hx). unfold l in Hx. rewrite nthZ_map, nthZ_zseq in Hx by lia. injection Hx as <-. unfold diff. cbv zeta. cbn [fst snd].
       replace ((0 + i + 1) * size - (0 + i) * size) with size by lia. replace ((0 + i) * size) with (i * size) by lia. replace (if t <? size then t else size) with (Z.min t size) by (destruct (Z.ltb_spec t size); lia). reflexivity. }
  cbn [bind]. destruct (simplify_rows true t ws l c Ht Hw Hl) as (next & -> & Hn). cbn [bind]. rewrite <- HL.
  rewrite Hvs, <- lift_lists. eapply regular_of_rows; eassumption.
Qed.
