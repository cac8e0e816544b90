(** localindex: proofs. *)
From Verif Require Import Base BaseLemmas LoopLemmas Content KCore Core KConvert Convert KOption Option KAxis Axis
  SpecArray SpecForm SpecAxis SpecOption SpecConvert OmapLemmas PCore PCarry PList PConvert POption PForm PNat PAxis.

Lemma loop_shift {S} n i k (body : Z -> S -> res S) s : loop n (i + k) body s = loop n i (fun j => body (j + k)) s.
Proof. revert i s. induction n as [|n IH]; intros i s; simpl; [reflexivity|]. destruct (body (i + k) s); simpl; try reflexivity. rewrite <- IH. f_equal. lia. Qed.
Lemma for_shift {S} a b (body : Z -> S -> res S) s : for_ a b body s = for_ 0 (b - a) (fun i => body (a + i)) s.
Proof. unfold for_. rewrite Z.sub_0_r. replace a with (0 + a) at 2 by lia. rewrite loop_shift. 
  generalize (Z.to_nat (b - a)) 0 s. induction n as [|n IH]; intros z s0; simpl; [reflexivity|]. rewrite (Z.add_comm z a). destruct (body (a + z) s0); simpl; auto.
Qed.

Lemma localindex_kernel counts out : nonneg_counts counts -> zlen out = sumZ counts ->
  awkward_ListArray_localindex out (offsets_of counts) (zlen counts) = Ok (concat (map (zseq 0) counts)).
Proof.
  intros Hc Ho. unfold awkward_ListArray_localindex.
  destruct (for_list counts (fun d o => exists r, o = concat (map (zseq 0) d) ++ r /\ zlen (concat (map (zseq 0) d)) = sumZ d /\ sumZ d + zlen r = sumZ counts)
     (fun i toindex => let* start := rd (offsets_of counts) i in let* stop := rd (offsets_of counts) (i + 1) in
        for_ start stop (fun j toindex => wr toindex j (j - start)) toindex) out) as (s & -> & r & -> & H1 & H2).
  - exists out. repeat split. simpl. lia.
  - intros d n r t E (r1 & -> & H1 & H2). unfold nonneg_counts in Hc. subst counts. apply Forall_app in Hc as [Hd Hc]. inversion Hc as [|? ? Hn Hr]; subst.
    pose proof (zlen_nonneg d). pose proof (zlen_nonneg r). pose proof (sumZ_nonneg _ Hr). rewrite sumZ_app in H2. simpl in H2.
    assert (R1 : rd (offsets_of (d ++ n :: r)) (zlen d) = Ok (sumZ d)).
    { apply rd_Ok. unfold offsets_of. rewrite nthZ_offsets_from by (rewrite zlen_app, zlen_cons; lia). rewrite slice_app. f_equal. }
    assert (R2 : rd (offsets_of (d ++ n :: r)) (zlen d + 1) = Ok (sumZ d + n)).
    { apply rd_Ok. unfold offsets_of. rewrite nthZ_offsets_from by (rewrite zlen_app, zlen_cons; lia).
      replace (d ++ n :: r) with ((d ++ [n]) ++ r) by (rewrite <- app_assoc; reflexivity). replace (zlen d + 1) with (zlen (d ++ [n])) by (rewrite zlen_app; reflexivity).
      rewrite slice_app, sumZ_app. simpl. f_equal. lia. }
    rewrite R1, R2. cbn [bind]. rewrite for_shift.
    destruct (for_fill_at (fun i => (fun j toindex => wr toindex j (j - sumZ d)) (sumZ d + i)) (fun i => i) n (concat (map (zseq 0) d)) r1) as (r2 & E2 & L2).
    + lia.
    + intros i o Hi _. cbv beta. rewrite H1. f_equal. lia.
    + rewrite map_id in E2. replace (sumZ d + n - sumZ d) with n by lia. rewrite E2. eexists. split; [reflexivity|]. exists r2.
      rewrite map_app, concat_app, zlen_app, !sumZ_app. simpl. rewrite app_nil_r, zlen_zseq by lia. split; [reflexivity|]. lia.
  - rewrite (zlen_0 r), app_nil_r by lia. reflexivity.
Qed.
Lemma regular_localindex_kernel n size out : 0 <= n -> 0 <= size -> zlen out = n * size ->
  awkward_RegularArray_localindex out size n = Ok (concat (map (zseq 0) (map (fun _ => size) (zseq 0 n)))).
Proof.
  intros Hn Hs Ho. unfold awkward_RegularArray_localindex.
  destruct (for_fill2 (fun i j o => wr o (i * size + j) j) (fun i j => j) n size out Hn Hs) as (rest & -> & L); [lia| |].
  - intros; reflexivity.
  - rewrite (zlen_0 rest), app_nil_r by lia. f_equal. f_equal. rewrite map_map. apply map_ext. intros _. now rewrite map_id.
Qed.

Lemma localindex_axis0_good c vs : den c = Some vs -> good (localindex_axis0 c) (Some (map VInt (zseq 0 (zlen vs)))).
Proof.
  intros Hd. unfold localindex_axis0, awkward_localindex. rewrite (den_length _ _ Hd). pose proof (zlen_nonneg vs).
  rewrite (for_fill_all _ (fun i => i)) by (try (rewrite zlen_alloc; lia); reflexivity). cbn [bind]. eexists. split; [reflexivity|]. cbn [den]. rewrite map_id. reflexivity.
Qed.

Lemma concat_index (segs : list (list value)) :
  Some (map (scalar DInt) (concat (map (zseq 0) (map zlen segs)))) = Some (concat (map (fun l => map VInt (zseq 0 (zlen l))) segs)).
Proof. f_equal. rewrite concat_map, !map_map. reflexivity. Qed.
Lemma list_localindex_good c l c' vs w : den c = Some vs -> list_view c = Some (l, c') ->
  good (let* offsets := compact_offsets64 w true c in let* innerlength := rd offsets (zlen offsets - 1) in
        let* localindex := awkward_ListArray_localindex (alloc innerlength) offsets (zlen offsets - 1) in
        mkListOffset offsets (Numpy DInt localindex)) (Some (map (lift local_index 1) vs)).
Proof.
  intros Hd Hv. destruct (list_inv _ _ _ _ Hd Hv) as (ws & Hw & Hl & ->). set (segs := map (seg ws) l) in *.
  rewrite (compact_den _ _ _ _ _ Hd Hv). cbn [bind]. rewrite zlen_offsets_of, zlen_map. replace (zlen segs + 1 - 1) with (zlen (map zlen segs)) by (rewrite zlen_map; lia).
  rewrite rd_offsets_last. cbn [bind]. rewrite localindex_kernel.
  2: apply nonneg_zlens. 2: rewrite zlen_alloc; [reflexivity|]; apply sumZ_nonneg, nonneg_zlens.
  cbn [bind]. 
  pose proof (listoffset_den0 (map (fun l => map VInt (zseq 0 (zlen l))) segs) (Numpy DInt (concat (map (zseq 0) (map zlen segs)))) (concat_index segs)) as D.
  replace (map zlen (map (fun l => map VInt (zseq 0 (zlen l))) segs)) with (map zlen segs) in D.
  2: { rewrite map_map. apply map_ext. intros s. pose proof (zlen_nonneg s). rewrite zlen_map, zlen_zseq; lia. }
  rewrite (mkListOffset_den _ _ _ D). eexists. split; [reflexivity|]. rewrite D. f_equal. rewrite !map_map. apply map_ext. reflexivity.
Qed.

Section Width.
Variable is64 : content -> bool.

Lemma localindex_good fuel : forall c axis depth vs, (need c <= fuel)%nat -> den c = Some vs -> 0 <= depth < axis ->
  good (localindex is64 fuel c axis depth)
       (if has_axis (axis - depth) (form_of c) then Some (map (lift local_index (axis - depth)) vs) else None).
Proof.
  induction fuel as [|fuel IH]; intros c axis depth vs Hf Hd Ha.
  { pose proof (need_pos c). lia. }
  assert (Hw : axis_wrap_if_negative c axis = Ok axis) by (apply wrap_nonneg; lia).
  destruct c; cbn [localindex]; try (rewrite Hw; cbn [bind]; destruct (Z.eqb_spec axis depth); [lia|]); cbn [form_of has_axis].
  - cbn [den] in Hd. injection Hd as <-. exists (Numpy DInt []). split; reflexivity.
  - eexists. reflexivity.
  - (* ListA *) destruct (Z.eqb_spec axis (depth + 1)) as [->|Hne].
    + replace (depth + 1 - depth) with 1 by lia. rewrite Z.eqb_refl. eapply list_localindex_good; [exact Hd|reflexivity].
    + destruct (Z.eqb_spec (axis - depth) 1); [lia|]. destruct (content_inv1 _ _ Hd) as [ws Hws]. cbn [need bound] in Hf.
      pose proof (need_bound c). pose proof (IH c axis (depth + 1) ws ltac:(lia) Hws ltac:(lia)) as G. replace (axis - (depth + 1)) with (axis - depth - 1) in G by lia.
      destruct (has_axis (axis - depth - 1) (form_of c)).
      * destruct G as (c' & -> & Hc'). cbn [bind]. pose proof (nat_lista (lift local_index (axis - depth - 1)) (lift local_index (axis - depth)) _ _ _ _ _ _ (fun l => lift_list local_index (axis - depth) l ltac:(lia)) Hws Hc' Hd) as D.
        rewrite (mkListA_den _ _ _ _ D). eexists. split; [reflexivity|exact D].
      * destruct G as (m & ->). exists m. reflexivity.
  - (* ListOffset *) destruct (Z.eqb_spec axis (depth + 1)) as [->|Hne].
    + replace (depth + 1 - depth) with 1 by lia. rewrite Z.eqb_refl. eapply list_localindex_good; [exact Hd|reflexivity].
    + destruct (Z.eqb_spec (axis - depth) 1); [lia|]. destruct (content_inv1 _ _ Hd) as [ws Hws]. cbn [need bound] in Hf.
      pose proof (need_bound c). pose proof (IH c axis (depth + 1) ws ltac:(lia) Hws ltac:(lia)) as G. replace (axis - (depth + 1)) with (axis - depth - 1) in G by lia.
      destruct (has_axis (axis - depth - 1) (form_of c)).
      * destruct G as (c' & -> & Hc'). cbn [bind]. pose proof (nat_listoffset (lift local_index (axis - depth - 1)) (lift local_index (axis - depth)) _ _ _ _ _ (fun l => lift_list local_index (axis - depth) l ltac:(lia)) Hws Hc' Hd) as D.
        rewrite (mkListOffset_den _ _ _ D). eexists. split; [reflexivity|exact D].
      * destruct G as (m & ->). exists m. reflexivity.
  - (* Regular *) rewrite (den_length _ _ Hd). destruct (regular_inv _ _ _ _ Hd) as (ws & segs & Hws & Hs & -> & Hl & Hi & Hz & Hn). rewrite zlen_map. pose proof (zlen_nonneg segs).
    destruct (Z.eqb_spec axis (depth + 1)) as [->|Hne].
    + replace (depth + 1 - depth) with 1 by lia. rewrite Z.eqb_refl. rewrite regular_localindex_kernel by (try (rewrite zlen_alloc); lia). cbn [bind].
      assert (D : den (Regular size (zlen segs) (Numpy DInt (concat (map (zseq 0) (map (fun _ => size) (zseq 0 (zlen segs))))))) = Some (map VList (map (fun l => map VInt (zseq 0 (zlen l))) segs))).
      { apply regular_den; [exact Hs|rewrite zlen_map; reflexivity| |].
        - intros l Hin. apply in_map_iff in Hin as (s & <- & Hin). rewrite zlen_map, zlen_zseq; rewrite (Hl _ Hin); lia.
        - rewrite <- concat_index. cbn [den]. do 4 f_equal. apply list_eqZ; rewrite !zlen_map, zlen_zseq by lia; [lia|]. intros k Hk.
          rewrite !nthZ_map, nthZ_zseq by lia. destruct (nthZ_lt segs k) as [s E]; [lia|]. rewrite E. cbn [option_map]. now rewrite (Hl _ (nthZ_In _ _ _ E)). }
      rewrite (mkRegular_den _ _ _ _ D). eexists. split; [reflexivity|]. rewrite D. f_equal. rewrite !map_map. apply map_ext. reflexivity.
    + destruct (Z.eqb_spec (axis - depth) 1); [lia|]. cbn [need bound] in Hf.
      pose proof (need_bound c). pose proof (IH c axis (depth + 1) ws ltac:(lia) Hws ltac:(lia)) as G. replace (axis - (depth + 1)) with (axis - depth - 1) in G by lia.
      destruct (has_axis (axis - depth - 1) (form_of c)).
      * destruct G as (c' & -> & Hc'). cbn [bind].
        pose proof (nat_regular (lift local_index (axis - depth - 1)) (lift local_index (axis - depth)) size zeros_length (zlen segs) _ _ _ _ (fun l => lift_list local_index (axis - depth) l ltac:(lia)) (fun E => eq_sym (Hz E)) Hws Hc' Hd) as D.
        rewrite (mkRegular_den _ _ _ _ D). eexists. split; [reflexivity|exact D].
      * destruct G as (m & ->). exists m. reflexivity.
  - (* Indexed *) destruct (project_indexed _ _ _ Hd) as (p & E & Hp & F & B). rewrite E. cbn [bind]. rewrite <- F. apply IH; [|exact Hp|exact Ha].
    pose proof (project_need _ _ _ E). lia.
  - apply option_path_of_good; [exact Hd|reflexivity|reflexivity|]. cbn [below]. intros next ws F B Hn. rewrite <- F. apply IH; [|exact Hn|exact Ha].
    pose proof (need_bound next). cbn [need bound] in Hf. lia.
  - apply option_path_of_good; [exact Hd|reflexivity|reflexivity|]. cbn [below]. intros next ws F B Hn. rewrite <- F. apply IH; [|exact Hn|exact Ha].
    pose proof (need_bound next). cbn [need bound] in Hf. lia.
  - apply option_path_of_good; [exact Hd|reflexivity|reflexivity|]. cbn [below]. intros next ws F B Hn. rewrite <- F. apply IH; [|exact Hn|exact Ha].
    pose proof (need_bound next). cbn [need bound] in Hf. lia.
  - (* Unmasked *) cbn [den] in Hd. cbn [need bound] in Hf. pose proof (need_bound c). pose proof (IH c axis depth vs ltac:(lia) Hd Ha) as G. destruct (has_axis (axis - depth) (form_of c)).
    + destruct G as (c' & -> & Hc'). cbn [bind]. eexists. split; [reflexivity|exact Hc'].
    + destruct G as (m & ->). exists m. reflexivity.
  - (* Record *) destruct (record_inv _ _ _ _ Hd) as [vss Hvss]. rewrite forallb_map. eapply record_good; [apply lift_row|exact Hvss|exact Hd|].
    pose proof (mapres_good (fun x => localindex is64 fuel x axis depth) (lift local_index (axis - depth)) (fun x => has_axis (axis - depth) (form_of x)) contents vss Hvss) as G.
    apply G. intros x us Hin Hx. apply IH; [|exact Hx|exact Ha]. pose proof (need_bound x). pose proof (maxl_In _ _ (in_map bound _ _ Hin)). cbn [need bound] in Hf. lia.
  - (* Union *) destruct (union_inv _ _ _ _ Hd) as [vss Hvss]. rewrite forallb_map. eapply union_good; [exact Hvss|exact Hd|].
    pose proof (mapres_good (fun x => localindex is64 fuel x axis depth) (lift local_index (axis - depth)) (fun x => has_axis (axis - depth) (form_of x)) contents vss Hvss) as G.
    apply G. intros x us Hin Hx. apply IH; [|exact Hx|exact Ha]. pose proof (need_bound x). pose proof (maxl_In _ _ (in_map bound _ _ Hin)). cbn [need bound] in Hf. lia.
Qed.
End Width.
