(** Proofs about virtual arrays: the requests to a generated array. *)
From Verif Require Import Base BaseLemmas LoopLemmas OmapLemmas Content KCore Core KRange KConvert Convert KOption Option KAxis Axis KGetitem
  SpecArray SpecForm SpecSlice SpecOption PCore PRange PCarry PAt PList POption PForm PAxis PNat PNum Getitem SpecGetitem PGetitemK PGetitem1 PField PGetitem PGetitem2
  Virtual SpecVirtual PVirtual ThmC03.
From Coq Require Import String.
From Coq Require Import List.
Import ListNotations.
Local Open Scope string_scope.
Local Open Scope list_scope.
Local Open Scope Z_scope.
Ltac Zify.zify_post_hook ::= idtac.

(** the same type, up to missing values, and nothing that ranges change *)
Definition like (c c' : content) : Prop := form_of c' = form_of c /\ (steady (layout c) = true -> steady (layout c') = true).
Lemma like_trans a b c : like a b -> like b c -> like a c.
Proof. intros [A1 A2] [B1 B2]. split; [congruence|auto]. Qed.
Lemma range_like c a b c' : getitem_range_nowrap c a b = Ok c' -> like c c'.
Proof. intros E. split; [exact (proj1 (range_same _ _ _ _ E))|]. intros HS. rewrite (range_layout _ _ _ _ HS E). exact HS. Qed.
Lemma carry_like c cry lz c' : carry c cry lz = Ok c' -> like c c'.
Proof. intros E. split; [exact (proj1 (carry_same _ _ _ _ E))|]. intros HS. exact (carry_steady _ _ _ _ HS E). Qed.

Lemma getitem_range_layout c a b c' : steady (layout c) = true -> getitem_range c a b = Ok c' -> layout c' = layout c /\ form_of c' = form_of c.
Proof.
  intros HS E. assert (G : c' = c \/ exists x y, getitem_range_nowrap c x y = Ok c').
  { unfold getitem_range in E. destruct c; try (left; congruence); right; destruct (regularize_rangeslice _ _ _ _ _ _) as [x y]; try (destruct (_ <? _); [discriminate|]); eauto. }
  destruct G as [->|(x & y & Ex)]; [split; reflexivity|]. split; [exact (range_layout _ _ _ _ HS Ex)|exact (proj1 (range_same _ _ _ _ Ex))].
Qed.

(** ** one row *)
Lemma row_length n z out ws : den out = Some ws -> zlen ws = n -> 0 < n -> length_ (Regular n z out) = 1.
Proof. intros Hd HL Hn. cbn [length_]. destruct (Z.eqb_spec n 0); cbn [negb]; [lia|]. rewrite (den_length _ _ Hd), HL. apply Z.quot_same. lia. Qed.
Lemma mkRegular_any n z out ws : den out = Some ws -> 0 <= n -> 0 <= z -> mkRegular n z out = Ok (Regular n z out).
Proof.
  intros Hd Hn Hz. unfold mkRegular. destruct (Z.ltb_spec n 0); [lia|]. assert (0 <= length_ (Regular n z out)); [|destruct (Z.ltb_spec (length_ (Regular n z out)) 0); [lia|reflexivity]].
  cbn [length_]. destruct (Z.eqb_spec n 0); cbn [negb]; [lia|]. rewrite (den_length _ _ Hd). apply Z.quot_pos; [apply zlen_nonneg|lia].
Qed.

Lemma slice_request is64 fuel c vs a b s ws : den c = Some vs -> s <> 0 -> omap (nthZ vs) (py_slice (opt64 a) (opt64 b) s (zlen vs)) = Some ws ->
  exists c', getitem is64 (S (S fuel)) c [SRange a b s] = Ok (IArray c') /\ den c' = Some ws /\ like c c'.
Proof.
  intros Hd Hs Hw. destruct (one_row is64 c vs Hd) as [Hd1 HL1]. pose proof (den_length _ _ Hd) as HL. pose proof (zlen_nonneg vs) as Hn.
  unfold getitem. rewrite (mkRegular_any (length_ c) 1 c vs Hd ltac:(lia) ltac:(lia)). cbn [bind]. cbn [getitem_next]. rewrite HL1.
  destruct (Z.eqb_spec s 0); [contradiction|]. pose proof (nextsize_spec a b s (zlen vs) Hn Hs) as N. pose proof (regular_range_spec a b s (zlen vs) 1) as R. rewrite HL.
  destruct (RegularArray_range_nextsize a b s (zlen vs)) as [st ns]. destruct N as [Hns N].
  assert (Hz : zlen (py_slice (opt64 a) (opt64 b) s (zlen vs)) = ns) by (rewrite <- N, zlen_map, zlen_zseq by lia; lia).
  specialize (R (alloc (1 * ns)) Hn ltac:(lia) Hs). rewrite R by (apply zlen_alloc; lia). cbn [bind].
  change (zseq 0 1) with [0]. cbn [map concat]. rewrite app_nil_r. rewrite (map_ext _ (fun x => x)) by (intros; lia). rewrite map_id.
  destruct (carry_den c vs _ ws true Hd Hw) as (x & Ex & Dx). rewrite Ex. cbn [bind]. pose proof (omap_zlen _ _ _ Hw) as Hzw. rewrite (mkRegular_any ns 1 x ws Dx Hns ltac:(lia)). cbn [bind].
  assert (HR : length_ (Regular ns 1 x) = 1). { destruct (Z.eq_dec ns 0) as [->|]; [reflexivity|]. eapply row_length; [exact Dx|lia|lia]. }
  rewrite HR. change (1 =? 0) with false. cbn [getitem_at_nowrap]. destruct (range_den x ws (0 * ns) ((0 + 1) * ns) Dx) as (y & Ey & Dy); [lia|lia|]. rewrite Ey. cbn [bind].
  exists y. split; [reflexivity|]. rewrite Dy. split; [f_equal; replace (0 * ns) with 0 by lia; replace ((0 + 1) * ns) with (zlen ws) by lia; apply slice_full|].
  eapply like_trans; [exact (carry_like _ _ _ _ Ex)|exact (range_like _ _ _ _ Ey)].
Qed.

Lemma elem_positions vs idx r : omap (fun x => wrap x (zlen vs)) idx = Some r -> omap (nthZ vs) r = omap (elem vs) idx.
Proof.
  revert r. induction idx as [|i idx IH]; intros r H; cbn [omap] in H |- *; [injection H as <-; reflexivity|]. unfold elem at 1. destruct (wrap i (zlen vs)) as [k|]; [|discriminate].
  destruct (omap _ idx) as [r'|] eqn:E; [|discriminate]. injection H as <-. cbn [omap]. rewrite (IH r' eq_refl). reflexivity.
Qed.
Lemma elem_wrap vs i v : elem vs i = Some v -> exists k, wrap i (zlen vs) = Some k.
Proof. unfold elem. destruct (wrap i (zlen vs)); [eauto|discriminate]. Qed.
Lemma wrap_elem vs i k : wrap i (zlen vs) = Some k -> exists v, elem vs i = Some v /\ nthZ vs k = Some v.
Proof.
  intros H. unfold elem. rewrite H. unfold wrap in H. destruct ((0 <=? _) && _) eqn:E; [|discriminate]. injection H as <-. apply andb_prop in E. destruct E as [E1 E2].
  destruct (nthZ_lt vs (if i <? 0 then i + zlen vs else i)) as [v Hv]; [lia|]. eauto.
Qed.

Lemma index_request is64 fuel c vs idx : den c = Some vs ->
  match omap (elem vs) idx with
  | Some ws => exists c', getitem is64 (S (S fuel)) c [SArray [zlen idx] idx] = Ok (IArray c') /\ den c' = Some ws /\ like c c'
  | None => exists m, getitem is64 (S (S fuel)) c [SArray [zlen idx] idx] = Err m
  end.
Proof.
  intros Hd. destruct (one_row is64 c vs Hd) as [Hd1 HL1]. pose proof (den_length _ _ Hd) as HL. pose proof (zlen_nonneg vs) as Hn. pose proof (zlen_nonneg idx) as Hi.
  unfold getitem. rewrite (mkRegular_any (length_ c) 1 c vs Hd ltac:(lia) ltac:(lia)). cbn [bind]. cbn [getitem_next]. rewrite HL1, HL.
  pose proof (regularize_spec idx (zlen vs) (alloc (zlen idx)) (zlen_alloc _ Hi)) as R.
  destruct (omap (fun x => wrap x (zlen vs)) idx) as [r|] eqn:Er.
  - rewrite R. cbn [bind]. pose proof (elem_positions _ _ _ Er) as Hw. destruct (omap (elem vs) idx) as [ws|] eqn:Ew.
    2:{ exfalso. destruct (omap_total (elem vs) idx) as [ws E']; [|congruence]. intros i Hin. destruct (omap_In _ _ _ _ Er Hin) as (k & Hk & _). destruct (wrap_elem _ _ _ Hk) as (v & Hv & _). eauto. }
    destruct (regular_array_spec idx r (zlen vs) 1 (alloc (1 * zlen idx)) (alloc (1 * zlen idx)) ltac:(lia) Er) as (pss & Hp & Ha); [apply zlen_alloc; lia|apply zlen_alloc; lia|]. rewrite Ha. cbn [bind].
    assert (Hc : concat pss = r).
    { change (regs (zlen vs) 1) with [(0 * zlen vs, (0 + 1) * zlen vs)] in Hp. cbn [omap] in Hp. rewrite (regs_arr_pos idx r (zlen vs) 1 Er) in Hp by (left; reflexivity). injection Hp as <-. cbn [concat fst]. rewrite app_nil_r.
      rewrite (map_ext _ (fun x => x)) by (intros; lia). apply map_id. }
    rewrite Hc. destruct (carry_den c vs r ws true Hd Hw) as (x & Ex & Dx). rewrite Ex. cbn [bind]. unfold getitem_next_array_wrap. cbn [rev app]. rewrite (mkRegular_any (zlen idx) 0 x ws Dx Hi ltac:(lia)). cbn [bind].
    pose proof (omap_zlen _ _ _ Ew) as Hz. destruct (Z.eq_dec (zlen idx) 0) as [E0|E0].
    + assert (HR : length_ (Regular (zlen idx) 0 x) = 0) by (cbn [length_]; rewrite E0; reflexivity). rewrite HR. change (0 =? 0) with true. cbn [getitem_nothing].
      destruct (range_den x ws 0 0 Dx) as (y & Ey & Dy); [lia|apply zlen_nonneg|]. rewrite Ey. cbn [bind]. exists y. split; [reflexivity|]. rewrite Dy. rewrite slice_empty by lia. split; [f_equal; symmetry; apply zlen_0; lia|].
      eapply like_trans; [exact (carry_like _ _ _ _ Ex)|exact (range_like _ _ _ _ Ey)].
    + rewrite (row_length (zlen idx) 0 x ws Dx) by lia. change (1 =? 0) with false. cbn [getitem_at_nowrap]. destruct (range_den x ws (0 * zlen idx) ((0 + 1) * zlen idx) Dx) as (y & Ey & Dy); [lia|lia|]. rewrite Ey. cbn [bind].
      exists y. split; [reflexivity|]. rewrite Dy. split; [f_equal; replace (0 * zlen idx) with 0 by lia; replace ((0 + 1) * zlen idx) with (zlen ws) by lia; apply slice_full|].
      eapply like_trans; [exact (carry_like _ _ _ _ Ex)|exact (range_like _ _ _ _ Ey)].
  - destruct R as [m Rm]. rewrite Rm. cbn [bind]. destruct (omap (elem vs) idx) as [ws|] eqn:Ew; [|eauto].
    exfalso. destruct (omap_total (fun x => wrap x (zlen vs)) idx) as [ws' E']; [|congruence]. intros i Hin. destruct (omap_In _ _ _ _ Ew Hin) as (v & Hv & _). exact (elem_wrap _ _ _ Hv).
Qed.

Lemma field_request is64 fuel key c vs : den c = Some vs -> has_field key (form_of c) = true ->
  exists x c' ws, getitem_field key c = Ok x /\ getitem is64 (S (S fuel)) c [SField key] = Ok (IArray c') /\ omap (proj key) vs = Some ws /\ den x = Some ws /\ den c' = Some ws /\ like x c' /\
    (steady (layout x) = true -> layout c' = layout x).
Proof.
  intros Hd HF. destruct (field_den key c vs HF Hd) as (x & ws & Ex & Ew & Dx). pose proof (den_length _ _ Hd) as HL. pose proof (zlen_nonneg vs) as Hn. pose proof (omap_zlen _ _ _ Ew) as Hz.
  destruct (one_row is64 c vs Hd) as [Hd1 HL1].
  unfold getitem. rewrite (mkRegular_any (length_ c) 1 c vs Hd ltac:(lia) ltac:(lia)). cbn [bind]. cbn [getitem_next getitem_field]. rewrite Ex. cbn [bind]. rewrite HL1. rewrite (mkRegular_any (length_ c) 1 x ws Dx ltac:(lia) ltac:(lia)). cbn [bind].
  rewrite HL. assert (HR : length_ (Regular (zlen vs) 1 x) = 1). { destruct (Z.eq_dec (zlen vs) 0) as [E0|]; [cbn [length_]; rewrite E0; reflexivity|]. eapply row_length; [exact Dx|lia|lia]. }
  rewrite HR. change (1 =? 0) with false. cbn [getitem_at_nowrap]. destruct (range_den x ws (0 * zlen vs) ((0 + 1) * zlen vs) Dx) as (y & Ey & Dy); [lia|lia|]. rewrite Ey. cbn [bind].
  exists x, y, ws. split; [reflexivity|]. split; [reflexivity|]. split; [exact Ew|]. split; [exact Dx|]. split; [rewrite Dy; f_equal; replace (0 * zlen vs) with 0 by lia; replace ((0 + 1) * zlen vs) with (zlen ws) by lia; apply slice_full|].
  split; [exact (range_like _ _ _ _ Ey)|]. intros HS. exact (range_layout _ _ _ _ HS Ey).
Qed.
