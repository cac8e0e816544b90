(** Strided arrays: elements, ranges, picking rows, slices without index arrays *)
From Verif Require Import Base BaseLemmas LoopLemmas OmapLemmas Content KRange KGetitem KCore Core SpecSlice PRange PCarry Strided SpecStrided PStrided.
Local Open Scope list_scope.
Local Open Scope Z_scope.

(** ** Positions *)
Lemma lenhead_ok start stop step n : 0 <= n -> step <> 0 -> step <> kSliceNone ->
  exists a, nd_lenhead start stop step n = Ok (a, step, zlen (positions start stop step n)) /\
    forall j, 0 <= j < zlen (positions start stop step n) -> nthZ (positions start stop step n) j = Some (a + j * step) /\ 0 <= a + j * step < n.
Proof.
  intros Hn Hs Hk. unfold nd_lenhead. destruct (Z.eqb_spec step kSliceNone); [contradiction|]. pose proof (regularize_py start stop step n Hn Hs) as R.
  destruct (regularize_rangeslice _ _ _ _ _ _) as [a b]. destruct R as (_ & R & Ra & Rb & Rab). unfold positions. rewrite <- R. destruct (Z.eqb_spec step 0); [contradiction|]. exists a.
  rewrite zlen_py_range by exact Hs. split.
  - do 2 f_equal. unfold py_range_len. destruct (Z.ltb_spec 0 step).
    + destruct (Z.ltb_spec a b).
      * rewrite <- quot_ceil by lia. rewrite (Z.abs_eq step) by lia. replace (Z.abs (a - b)) with (b - a) by lia. destruct (negb _); lia.
      * replace (Z.abs (a - b)) with 0 by lia. rewrite (Z.abs_eq step), Z.quot_0_l, Z.rem_0_l by lia. reflexivity.
    + destruct (Z.ltb_spec b a).
      * rewrite <- quot_ceil by lia. rewrite (Z.abs_neq step) by lia. replace (Z.abs (a - b)) with (a - b) by lia. destruct (negb _); lia.
      * replace (Z.abs (a - b)) with 0 by lia. rewrite Z.quot_0_l, Z.rem_0_l by lia. reflexivity.
  - intros j Hj. assert (E : nthZ (py_range a b step) j = Some (a + j * step)) by (unfold py_range; rewrite nthZ_map, nthZ_zseq by lia; reflexivity). split; [exact E|].
    apply nthZ_In in E. rewrite R in E. apply (py_slice_in_range _ _ _ _ _ Hn Hs E).
Qed.
Lemma positions_all n : 0 <= n -> positions kSliceNone kSliceNone 1 n = zseq 0 n.
Proof.
  intros H. unfold positions, py_slice, py_range, py_range_len, py_start, py_stop. change (opt64 kSliceNone) with (@None Z). change (0 <? 1) with true. cbn match.
  destruct (Z.ltb_spec 0 n); [|assert (n = 0) as -> by lia; reflexivity]. rewrite Z.div_1_r. replace (n - 0 - 1 + 1) with n by lia.
  rewrite <- (map_id (zseq 0 n)) at 2. apply map_ext; intros; lia.
Qed.
Lemma dimlength_consumed items : nd_dimlength items = consumed items.
Proof. reflexivity. Qed.
Lemma consumed_nonneg items : 0 <= consumed items.
Proof. apply zlen_nonneg. Qed.

(** ** Ellipses *)
Lemma shape_ell_direct common met items sh : items = [] \/ zlen sh = consumed items -> slice_shape common met (NEllipsis :: items) sh = slice_shape common met items sh.
Proof.
  intros H. cbn [slice_shape]. destruct H as [->|E].
  - change (consumed []) with 0. pose proof (zlen_nonneg sh). destruct (Z.ltb_spec (zlen sh - 0) 0); [lia|]. cbn [slice_shape option_map]. now rewrite firstn_skipn.
  - rewrite E, Z.sub_diag. change (0 <? 0) with false. cbn [Z.to_nat firstn skipn]. destruct (slice_shape _ _ _ _); reflexivity.
Qed.
Lemma source_ell_direct common p items sh idx : items = [] \/ zlen sh = consumed items -> source common p (NEllipsis :: items) sh idx = source common p items sh idx.
Proof.
  intros H. cbn [source]. destruct H as [->|E].
  - cbn [source option_map]. now rewrite firstn_skipn.
  - rewrite E, Z.sub_diag. cbn [Z.to_nat firstn skipn]. destruct (source _ _ _ _ _); reflexivity.
Qed.
Lemma shape_ell_step common met items n sh : zlen (n :: sh) <> consumed items -> 0 <= n ->
  slice_shape common met (NEllipsis :: items) (n :: sh) = slice_shape common met (NRange kSliceNone kSliceNone 1 :: NEllipsis :: items) (n :: sh).
Proof.
  intros E Hn. cbn [slice_shape]. rewrite positions_all, zlen_zseq, Z.sub_0_r by lia. rewrite zlen_cons in *.
  destruct (Z.ltb_spec (zlen sh + 1 - consumed items) 0), (Z.ltb_spec (zlen sh - consumed items) 0); try lia; try reflexivity.
  replace (Z.to_nat (zlen sh + 1 - consumed items)) with (S (Z.to_nat (zlen sh - consumed items))) by lia. cbn [firstn skipn]. destruct (slice_shape _ _ _ _); reflexivity.
Qed.
Lemma source_ell_step common p items n sh j idx : consumed items < zlen (n :: sh) -> 0 <= j < n ->
  source common p (NEllipsis :: items) (n :: sh) (j :: idx) = source common p (NRange kSliceNone kSliceNone 1 :: NEllipsis :: items) (n :: sh) (j :: idx).
Proof.
  intros E Hj. cbn [source]. rewrite positions_all, nthZ_zseq by lia. rewrite zlen_cons in *.
  replace (Z.to_nat (zlen sh + 1 - consumed items)) with (S (Z.to_nat (zlen sh - consumed items))) by lia. cbn [firstn skipn]. destruct (source _ _ _ _ _); reflexivity.
Qed.
Lemma shape_ell_many common met items sh : zlen sh < consumed items -> slice_shape common met (NEllipsis :: items) sh = None.
Proof. intros E. cbn [slice_shape]. destruct (Z.ltb_spec (zlen sh - consumed items) 0); [reflexivity|lia]. Qed.
Lemma shape_ell_many' common met items n sh : zlen (n :: sh) < consumed items -> slice_shape common met (NRange kSliceNone kSliceNone 1 :: NEllipsis :: items) (n :: sh) = None.
Proof. intros E. rewrite zlen_cons in E. cbn [slice_shape]. destruct (Z.ltb_spec (zlen sh - consumed items) 0); [reflexivity|lia]. Qed.

(** ** Slices by strides *)
Definition nonneg (sh : list Z) : Prop := Forall (fun n => 0 <= n) sh.
Definition by_ok (mem : list Z) (off isz : Z) (sh st : list Z) (items : list nditem) (r : res ndarray) : Prop :=
  match slice_shape None false items sh with
  | Some rs => exists out d t0 ts, r = Ok out /\ nd_mem out = mem /\ nd_itemsize out = isz /\ nd_shape out = d :: rs /\ nd_strides out = t0 :: ts /\ zlen ts = zlen rs /\ nonneg rs /\
      forall idx, inside rs idx -> exists src, source None None items sh idx = Some src /\ inside sh src /\ nd_offset out + dot idx ts = off + dot src st
  | None => exists m, r = Err m
  end.

Lemma range_step mem off isz n sh s st start stop step items a r length s0 :
  0 <= n -> (forall j, 0 <= j < zlen (positions start stop step n) -> nthZ (positions start stop step n) j = Some (a + j * step) /\ 0 <= a + j * step < n) ->
  by_ok mem (off + a * s) isz sh st items r ->
  by_ok mem off isz (n :: sh) (s :: st) (NRange start stop step :: items)
    (let* out := r in Ok (mkND (nd_mem out) (length :: zlen (positions start stop step n) :: tl (nd_shape out)) (s0 :: s * step :: tl (nd_strides out)) (nd_offset out) isz)).
Proof.
  intros Hn P H. unfold by_ok in *. cbn [slice_shape]. destruct (slice_shape None false items sh) as [rs|]; cbn [option_map].
  - destruct H as (out & d & t0 & ts & -> & Em & Ei & Es & Et & L & F & G). cbn [bind]. eexists _, _, _, _. split; [reflexivity|]. cbn [nd_mem nd_shape nd_strides nd_offset nd_itemsize]. rewrite Es, Et. cbn [tl].
    split; [exact Em|]. split; [reflexivity|]. split; [reflexivity|]. split; [reflexivity|]. split; [rewrite !zlen_cons; lia|]. split; [constructor; [apply zlen_nonneg|exact F]|].
    intros idx I. apply inside_inv in I as (j & idx' & -> & Hj & I). destruct (P j Hj) as [P1 P2]. destruct (G idx' I) as (src & S1 & S2 & S3).
    exists (a + j * step :: src). cbn [source]. rewrite P1, S1. split; [reflexivity|]. split; [apply inside_cons; auto|]. cbn [dot]. lia.
  - destruct H as (m & ->). eexists; reflexivity.
Qed.
Lemma ell_step mem off isz n sh st items r : 0 <= n -> zlen (n :: sh) <> consumed items ->
  by_ok mem off isz (n :: sh) st (NRange kSliceNone kSliceNone 1 :: NEllipsis :: items) r -> by_ok mem off isz (n :: sh) st (NEllipsis :: items) r.
Proof.
  intros Hn E H. unfold by_ok in *. rewrite (shape_ell_step _ _ _ _ _ E Hn). destruct (slice_shape _ _ _ (n :: sh)) as [rs|] eqn:Es; [|exact H].
  destruct (Z.lt_ge_cases (zlen (n :: sh)) (consumed items)) as [X|X]; [rewrite shape_ell_many' in Es by exact X; discriminate|].
  destruct H as (out & d & t0 & ts & -> & Em & Ei & Es' & Et & L & F & G). exists out, d, t0, ts. repeat (split; [first [reflexivity|eassumption]|]).
  intros idx I. assert (exists j idx', idx = j :: idx' /\ 0 <= j < n) as (j & idx' & -> & Hj).
  { cbn [slice_shape] in Es. match type of Es with option_map _ ?x = _ => destruct x; [|discriminate] end. cbn [option_map] in Es. injection Es as <-. apply inside_inv in I as (j & idx' & -> & Hj & _).
    rewrite positions_all, zlen_zseq in Hj by lia. exists j, idx'. split; [reflexivity|lia]. }
  rewrite source_ell_step by lia. apply G, I.
Qed.

Lemma bystrides_unfold fuel a items length : getitem_bystrides (S fuel) a items length =
  match items with
  | [] => Ok a
  | NAt at_ :: tail =>
      match nd_shape a, nd_strides a with
      | _ :: n :: _, _ :: s :: _ =>
          let i := if at_ <? 0 then at_ + n else at_ in
          if (i <? 0) || (n <=? i) then Err "index out of range"%string
          else
            let next := mkND (nd_mem a) (flatten_shape (nd_shape a)) (tl (nd_strides a)) (nd_offset a + i * s) (nd_itemsize a) in
            let* out := getitem_bystrides fuel next tail length in
            Ok (mkND (nd_mem out) (length :: tl (nd_shape out)) (nd_strides out) (nd_offset out) (nd_itemsize a))
      | _, _ => Err "too many dimensions in slice"%string
      end
  | NRange start stop step :: tail =>
      match nd_shape a, nd_strides a with
      | _ :: n :: _, s0 :: s :: _ =>
          let* r := nd_lenhead start stop step n in
          let '(start, step, lenhead) := r in
          let next := mkND (nd_mem a) (flatten_shape (nd_shape a)) (tl (nd_strides a)) (nd_offset a + start * s) (nd_itemsize a) in
          let* out := getitem_bystrides fuel next tail (length * lenhead) in
          Ok (mkND (nd_mem out) (length :: lenhead :: tl (nd_shape out)) (s0 :: s * step :: tl (nd_strides out)) (nd_offset out) (nd_itemsize a))
      | _, _ => Err "too many dimensions in slice"%string
      end
  | NEllipsis :: tail =>
      if (zlen tail =? 0) || (zlen (nd_shape a) - 1 =? nd_dimlength tail) then getitem_bystrides fuel a tail length
      else getitem_bystrides fuel a (NRange kSliceNone kSliceNone 1 :: NEllipsis :: tail) length
  | NNewAxis :: tail =>
      let* out := getitem_bystrides fuel a tail length in
      match nd_strides out with
      | s :: _ => Ok (mkND (nd_mem out) (length :: 1 :: tl (nd_shape out)) (s :: nd_strides out) (nd_offset out) (nd_itemsize a))
      | [] => UB
      end
  | NArray _ _ _ :: _ => Err "unrecognized slice item type for NumpyArray::getitem_bystrides"%string
  end.
Proof. reflexivity. Qed.

Lemma bystrides_ok mem isz : forall N fuel items sh st off n0 s0 length,
  (fuel < N)%nat -> (2 * List.length sh + List.length items < fuel)%nat -> zlen sh = zlen st -> nonneg sh -> Forall item_ok items -> existsb is_array items = false ->
  by_ok mem off isz sh st items (getitem_bystrides fuel (mkND mem (n0 :: sh) (s0 :: st) off isz) items length).
Proof.
  induction N as [|N IH]; intros fuel items sh st off n0 s0 length HN Hf L F O A; [lia|]. destruct fuel as [|fuel]; [lia|]. rewrite bystrides_unfold.
  destruct items as [|it items].
  { unfold by_ok. cbn [slice_shape]. eexists _, _, _, _. split; [reflexivity|]. cbn [nd_mem nd_shape nd_strides nd_offset nd_itemsize].
    split; [reflexivity|]. split; [reflexivity|]. split; [reflexivity|]. split; [reflexivity|]. split; [lia|]. split; [exact F|]. intros idx I. exists idx. auto. }
  inversion O as [|? ? Oi O']; subst. cbn [existsb] in A. apply Bool.orb_false_iff in A as [Ai A]. cbn [List.length] in Hf.
  destruct it as [i|start stop step| | |]; cbn [nd_shape nd_strides nd_mem nd_offset nd_itemsize].
  - (* an integer *) destruct sh as [|n sh], st as [|s st]; rewrite ?zlen_nil, ?zlen_cons in L; try (pose proof (zlen_nonneg st); lia); try (pose proof (zlen_nonneg sh); lia).
    { unfold by_ok. cbn [slice_shape]. eexists; reflexivity. }
    inversion F as [|? ? Fn Fs]; subst. cbn zeta. cbn [flatten_shape tl]. set (k := if i <? 0 then i + n else i).
    unfold by_ok. cbn [slice_shape]. unfold position. fold k.
    destruct (Z.ltb_spec k 0), (Z.leb_spec n k), (Z.leb_spec 0 k), (Z.ltb_spec k n); try lia; cbn [orb andb]; try (eexists; reflexivity).
    specialize (IH fuel items sh st (off + k * s) (n0 * n) s length ltac:(lia) ltac:(cbn [List.length] in Hf; lia) ltac:(lia) Fs O' A). unfold by_ok in IH.
    destruct (slice_shape None false items sh) as [rs|].
    + destruct IH as (out & d & t0 & ts & -> & Em & Ei & Es & Et & Lt & Fr & G). cbn [bind]. eexists _, _, _, _. split; [reflexivity|]. cbn [nd_mem nd_shape nd_strides nd_offset nd_itemsize]. rewrite Es, Et. cbn [tl].
      split; [exact Em|]. split; [reflexivity|]. split; [reflexivity|]. split; [reflexivity|]. split; [exact Lt|]. split; [exact Fr|].
      intros idx I. destruct (G idx I) as (src & S1 & S2 & S3). exists (k :: src). cbn [source says]. unfold position. fold k. destruct (Z.leb_spec 0 k), (Z.ltb_spec k n); try lia. cbn [andb]. rewrite S1.
      split; [reflexivity|]. split; [apply inside_cons; split; [lia|exact S2]|]. cbn [dot]. lia.
    + destruct IH as (m & ->). eexists; reflexivity.
  - (* a range *) destruct sh as [|n sh], st as [|s st]; rewrite ?zlen_nil, ?zlen_cons in L; try (pose proof (zlen_nonneg st); lia); try (pose proof (zlen_nonneg sh); lia).
    { unfold by_ok. cbn [slice_shape]. eexists; reflexivity. }
    inversion F as [|? ? Fn Fs]; subst. cbn [item_ok] in Oi. destruct Oi as [O1 O2]. destruct (lenhead_ok start stop step n Fn O1 O2) as (a & E & P). rewrite E. cbn [bind]. cbn [flatten_shape tl].
    apply range_step with (a := a); auto. apply IH; auto; cbn [List.length] in Hf; lia.
  - (* an ellipsis *) rewrite dimlength_consumed, zlen_cons. replace (zlen sh + 1 - 1) with (zlen sh) by lia. destruct (Z.eqb_spec (zlen items) 0) as [E0|E0]; [|destruct (Z.eqb_spec (zlen sh) (consumed items)) as [E1|E1]]; cbn [orb].
    + apply zlen_0 in E0. subst items. specialize (IH fuel [] sh st off n0 s0 length ltac:(lia) ltac:(lia) L F O' A). unfold by_ok in *. rewrite shape_ell_direct by auto. destruct (slice_shape _ _ _ _); [|exact IH].
      destruct IH as (out & d & t0 & ts & IH). exists out, d, t0, ts. repeat (destruct IH as [? IH]; split; [assumption|]). intros idx I. rewrite source_ell_direct by auto. apply IH, I.
    + specialize (IH fuel items sh st off n0 s0 length ltac:(lia) ltac:(lia) L F O' A). unfold by_ok in *. rewrite shape_ell_direct by auto. destruct (slice_shape _ _ _ _); [|exact IH].
      destruct IH as (out & d & t0 & ts & IH). exists out, d, t0, ts. repeat (destruct IH as [? IH]; split; [assumption|]). intros idx I. rewrite source_ell_direct by auto. apply IH, I.
    + assert (0 < List.length items)%nat as Hl by (unfold zlen in E0; lia). destruct fuel as [|fuel]; [lia|]. rewrite bystrides_unfold. cbn [nd_shape nd_strides nd_mem nd_offset nd_itemsize].
      destruct sh as [|n sh], st as [|s st]; rewrite ?zlen_nil, ?zlen_cons in L; try (pose proof (zlen_nonneg st); lia); try (pose proof (zlen_nonneg sh); lia).
      { unfold by_ok. pose proof (consumed_nonneg items). rewrite shape_ell_many by (change (zlen (@nil Z)) with 0 in *; lia). eexists; reflexivity. }
      inversion F as [|? ? Fn Fs]; subst. apply ell_step; [exact Fn|exact E1|]. destruct (lenhead_ok kSliceNone kSliceNone 1 n Fn ltac:(lia) ltac:(unfold kSliceNone; lia)) as (a & E & P). rewrite E. cbn [bind]. cbn [flatten_shape tl].
      apply range_step with (a := a); auto. apply IH; auto; cbn [List.length] in *; lia.
  - (* a new dimension *) specialize (IH fuel items sh st off n0 s0 length ltac:(lia) ltac:(lia) L F O' A). unfold by_ok in *. cbn [slice_shape]. destruct (slice_shape None false items sh) as [rs|]; cbn [option_map].
    + destruct IH as (out & d & t0 & ts & -> & Em & Ei & Es & Et & Lt & Fr & G). cbn [bind]. rewrite Et. eexists _, _, _, _. split; [reflexivity|]. cbn [nd_mem nd_shape nd_strides nd_offset nd_itemsize]. rewrite Es. cbn [tl].
      split; [exact Em|]. split; [reflexivity|]. split; [reflexivity|]. split; [reflexivity|]. split; [rewrite !zlen_cons; lia|]. split; [constructor; [lia|exact Fr]|].
      intros idx I. apply inside_inv in I as (j & idx' & -> & Hj & I). destruct (G idx' I) as (src & S1 & S2 & S3). exists src. cbn [source tl]. split; [exact S1|]. split; [exact S2|]. cbn [dot]. assert (j = 0) as -> by lia. lia.
    + destruct IH as (m & ->). eexists; reflexivity.
  - discriminate Ai.
Qed.

(** no arrays: slices are views *)
Lemma sealed_shape_none : forall items, existsb is_array items = false -> sealed_shape None items = Ok None.
Proof. induction items as [|it items IH]; intros A; [reflexivity|]. cbn [existsb] in A. apply Bool.orb_false_iff in A as [Ai A]. destruct it; cbn [sealed_shape]; try discriminate Ai; auto. Qed.
Lemma basic_slice a items : wellformed a -> nd_shape a <> [] -> Forall item_ok items -> existsb is_array items = false ->
  match slice_shape None false items (nd_shape a) with
  | Some _ => exists s, nd_slice a items = Ok s /\ nd_mem s = nd_mem a /\ wellformed s /\ is_slice None items a s
  | None => exists m, nd_slice a items = Err m
  end.
Proof.
  intros (L & F & Hi & W) Hs O A. unfold nd_slice, become_sealed. rewrite sealed_shape_none by exact A. cbn [bind]. unfold nd_getitem. rewrite A.
  destruct a as [mem shape strides off isz]; cbn [nd_mem nd_shape nd_strides nd_offset nd_itemsize] in *.
  destruct shape as [|n sh]; [contradiction|]. destruct strides as [|s st]; [rewrite zlen_cons, zlen_nil in L; pose proof (zlen_nonneg sh); lia|].
  pose proof (bystrides_ok mem isz (S (nd_fuel (mkND mem (n :: sh) (s :: st) off isz) items)) (nd_fuel (mkND mem (n :: sh) (s :: st) off isz) items) items (n :: sh) (s :: st) off 1 (n * s) 1
    ltac:(lia) ltac:(unfold nd_fuel; cbn [nd_shape]; lia) L F O A) as H.
  unfold by_ok in H. destruct (slice_shape None false items (n :: sh)) as [rs|] eqn:Er.
  - destruct H as (out & d & t0 & ts & -> & Em & Ei & Es & Et & Lt & Fr & G). cbn [bind]. eexists; split; [reflexivity|]. cbn [nd_mem nd_shape nd_strides nd_offset nd_itemsize]. rewrite Es, Et. cbn [tl]. split; [exact Em|].
    assert (X : forall idx, inside rs idx -> exists src, source None None items (n :: sh) idx = Some src /\ inside (n :: sh) src /\ element (mkND (nd_mem out) rs ts (nd_offset out) isz) idx = element (mkND mem (n :: sh) (s :: st) off isz) src).
    { intros idx I. destruct (G idx I) as (src & S1 & S2 & S3). exists src. split; [exact S1|]. split; [exact S2|]. unfold element. cbn [nd_mem nd_shape nd_strides nd_offset nd_itemsize]. rewrite S3, Em. reflexivity. }
    split.
    + split; [cbn [nd_shape nd_strides]; lia|]. split; [exact Fr|]. split; [exact Hi|]. cbn [nd_shape]. intros idx I. destruct (X idx I) as (src & _ & S2 & S3). rewrite S3. apply W, S2.
    + split; [exact Er|]. exact X.
  - destruct H as (m & ->). eexists; reflexivity.
Qed.

(** ** Elements, ranges, rows *)
Lemma at_ok a i : wellformed a -> nd_shape a <> [] ->
  match position i (hd 0 (nd_shape a)) with
  | Some k => exists s, nd_at a i = Ok s /\ nd_mem s = nd_mem a /\ wellformed s /\ nd_shape s = tl (nd_shape a) /\ forall idx, inside (nd_shape s) idx -> element s idx = element a (k :: idx)
  | None => exists m, nd_at a i = Err m
  end.
Proof.
  intros (L & F & Hi & W) Hs. destruct a as [mem shape strides off isz]; cbn [nd_mem nd_shape nd_strides nd_offset nd_itemsize] in *.
  destruct shape as [|n sh]; [contradiction|]. destruct strides as [|s st]; [rewrite zlen_cons, zlen_nil in L; pose proof (zlen_nonneg sh); lia|]. rewrite !zlen_cons in L. inversion F as [|? ? Fn Fs]; subst.
  unfold nd_at, position. cbn [nd_shape hd tl]. cbv zeta. set (k := if i <? 0 then i + n else i).
  destruct (Z.ltb_spec k 0), (Z.leb_spec n k), (Z.leb_spec 0 k), (Z.ltb_spec k n); try lia; cbn [orb andb]; try (eexists; reflexivity).
  unfold nd_at_nowrap. cbn [nd_mem nd_shape nd_strides nd_offset nd_itemsize]. eexists; split; [reflexivity|]. cbn [nd_mem nd_shape nd_strides nd_offset nd_itemsize]. split; [reflexivity|].
  assert (X : forall idx, element (mkND mem sh st (off + s * k) isz) idx = element (mkND mem (n :: sh) (s :: st) off isz) (k :: idx)) by (intros; unfold element; cbn [nd_mem nd_strides nd_offset nd_itemsize dot]; f_equal; lia).
  split; [|split; [reflexivity|intros; apply X]]. split; [cbn [nd_shape nd_strides]; lia|]. split; [exact Fs|]. split; [exact Hi|]. cbn [nd_shape]. intros idx I. rewrite X. apply W. apply inside_cons. split; [lia|exact I].
Qed.
Lemma range_ok a start stop : wellformed a -> nd_shape a <> [] ->
  exists s, nd_range a start stop = Ok s /\ nd_mem s = nd_mem a /\ wellformed s /\ is_slice None [NRange start stop 1] a s.
Proof.
  intros (L & F & Hi & W) Hs. destruct a as [mem shape strides off isz]; cbn [nd_mem nd_shape nd_strides nd_offset nd_itemsize] in *.
  destruct shape as [|n sh]; [contradiction|]. destruct strides as [|s st]; [rewrite zlen_cons, zlen_nil in L; pose proof (zlen_nonneg sh); lia|]. rewrite !zlen_cons in L. inversion F as [|? ? Fn Fs]; subst.
  unfold nd_range. cbn [nd_shape]. pose proof (regularize_py start stop 1 n Fn ltac:(lia)) as R. change (0 <? 1) with true in R. destruct (regularize_rangeslice _ _ _ _ _ _) as [a b]. destruct R as (_ & R & Ra & Rb & Rab).
  unfold nd_range_nowrap. cbn [nd_mem nd_shape nd_strides nd_offset nd_itemsize]. eexists; split; [reflexivity|]. cbn [nd_mem]. split; [reflexivity|].
  assert (Lp : zlen (positions start stop 1 n) = b - a). { unfold positions. rewrite <- R, zlen_py_range by lia. unfold py_range_len. change (0 <? 1) with true. cbn match. rewrite Z.div_1_r. destruct (Z.ltb_spec a b); lia. }
  assert (X : is_slice None [NRange start stop 1] (mkND mem (n :: sh) (s :: st) off isz) (mkND mem (b - a :: sh) (s :: st) (off + s * a) isz)).
  { split; [cbn [slice_shape nd_shape option_map]; rewrite Lp; reflexivity|]. cbn [nd_shape]. intros idx I. apply inside_inv in I as (j & idx' & -> & Hj & I). cbn [source].
    assert (E : nthZ (positions start stop 1 n) j = Some (a + j * 1)). { unfold positions. rewrite <- R. unfold py_range. rewrite nthZ_map, nthZ_zseq; [reflexivity|]. rewrite <- zlen_py_range by lia. unfold positions in Lp. rewrite <- R in Lp. lia. }
    rewrite E. eexists; split; [reflexivity|]. split; [apply inside_cons; split; [lia|exact I]|]. unfold element. cbn [nd_mem nd_shape nd_strides nd_offset nd_itemsize dot]. f_equal; lia. }
  split; [|exact X]. split; [cbn [nd_shape nd_strides]; rewrite !zlen_cons; lia|]. split; [constructor; [lia|exact Fs]|]. split; [exact Hi|]. intros idx I. destruct X as [_ X]. destruct (X idx I) as (src & _ & S2 & S3). rewrite S3. apply W, S2.
Qed.
Lemma carry_ok a carry : wellformed a -> nd_shape a <> [] -> Forall (fun i => 0 <= i < hd 0 (nd_shape a)) carry ->
  exists s, nd_carry a carry = Ok s /\ wellformed s /\ nd_shape s = zlen carry :: tl (nd_shape a) /\ nd_itemsize s = nd_itemsize a /\
    forall j i idx, nthZ carry j = Some i -> inside (tl (nd_shape a)) idx -> element s (j :: idx) = element a (i :: idx).
Proof.
  intros W0 Hs C. destruct (contiguous_ok a W0) as (c & E & Es & Et & Ei & G). pose proof (contiguous_wellformed a c W0 E) as Wc. unfold nd_carry. rewrite E. cbn [bind].
  destruct W0 as (L & F & Hi & W). destruct (nd_shape a) as [|n sh] eqn:Ea; [contradiction|]. clear Hs. cbn [hd tl] in *. rewrite Es, Et. cbn [cst]. destruct Wc as (Lc & Fc & _ & Wc). rewrite Es in Fc, Wc. rewrite Ei in *. inversion Fc as [|? ? Fn Fs]; subst.
  destruct (iscontiguous_spec carry) as (b & Eb & Hb). rewrite Eb. cbn [bind]. pose proof (prod_nonneg _ Fs) as PN.
  assert (Y : forall s, nd_shape s = zlen carry :: sh -> nd_itemsize s = nd_itemsize a -> zlen (nd_strides s) = zlen sh + 1 -> (forall j i idx, nthZ carry j = Some i -> inside sh idx -> element s (j :: idx) = element a (i :: idx)) -> wellformed s).
  { intros s Ss Si Sl H. split; [rewrite Ss, Sl, zlen_cons; lia|]. rewrite Ss. split; [constructor; [apply zlen_nonneg|exact Fs]|]. split; [lia|]. intros idx I. apply inside_inv in I as (j & idx' & -> & Hj & I).
    destruct (nthZ_lt carry j Hj) as (i & Ej). rewrite (H j i idx' Ej I). apply W. apply inside_cons. split; [|exact I]. rewrite Forall_forall in C. apply C. eapply nthZ_In; eauto. }
  assert (B : forall j i, nthZ carry j = Some i -> 0 <= i < n) by (intros j i Ej; rewrite Forall_forall in C; apply C; eapply nthZ_In; eauto).
  destruct b.
  - destruct Hb as [Hb _]. specialize (Hb eq_refl).
    assert (Hsame : forall j i, nthZ carry j = Some i -> i = j) by (intros j i Ej; pose proof (nthZ_Some _ _ _ Ej); rewrite Hb, nthZ_zseq in Ej by lia; injection Ej; lia).
    destruct (Z.eqb_spec (zlen carry) n) as [En|En].
    + exists c. assert (X : forall j i idx, nthZ carry j = Some i -> inside sh idx -> element c (j :: idx) = element a (i :: idx)).
      { intros j i idx Ej I. pose proof (Hsame j i Ej) as Eij; subst i. apply G. apply inside_cons. split; [eapply B; eauto|exact I]. }
      split; [reflexivity|]. rewrite Es, En. split; [apply Y; auto; [rewrite Es, En; reflexivity|rewrite Et, cst_len, zlen_cons; lia]|]. auto.
    + unfold nd_range_nowrap. rewrite Es, Et. cbn [cst]. eexists; split; [reflexivity|]. rewrite !Z.sub_0_r.
      match goal with |- wellformed ?s /\ _ => assert (X : forall j i idx, nthZ carry j = Some i -> inside sh idx -> element s (j :: idx) = element a (i :: idx)) end.
      { intros j i idx Ej I. pose proof (B j i Ej) as Bj. pose proof (Hsame j i Ej) as Eij; subst i. rewrite <- (G (j :: idx)) by (apply inside_cons; split; auto). unfold element. cbn [nd_mem nd_shape nd_strides nd_offset nd_itemsize]. rewrite Et. cbn [cst dot]. rewrite Z.mul_0_r, Z.add_0_r. reflexivity. }
      cbn [nd_shape nd_itemsize]. split; [apply Y; cbn [nd_shape nd_itemsize nd_strides]; auto; rewrite zlen_cons, cst_len; reflexivity|]. auto.
  - set (R := nd_itemsize a * prod sh).
    destruct (copy_rows (nd_mem c) R (fun p => nd_offset c + p * R) carry) as (out & Eo & Lo & H); [subst R; nia| |].
    { intros p Hp. rewrite Forall_forall in C. specialize (C p Hp). apply box_in; auto. intros idx I. specialize (Wc (p :: idx) ltac:(apply inside_cons; auto)). unfold element in Wc. rewrite Et, Ei in Wc. cbn [cst dot] in Wc. fold R in Wc.
      replace (nd_offset c + p * R + dot idx (cst (nd_itemsize a) sh)) with (nd_offset c + (p * R + dot idx (cst (nd_itemsize a) sh))) by lia. exact Wc. }
    unfold awkward_NumpyArray_getitem_next_null. rewrite Eo. cbn [bind]. eexists; split; [reflexivity|].
    match goal with |- wellformed ?s /\ _ => assert (X : forall j i idx, nthZ carry j = Some i -> inside sh idx -> element s (j :: idx) = element a (i :: idx)) end.
    { intros j i idx Ej I. rewrite <- (G (i :: idx)) by (apply inside_cons; split; [eapply B; eauto|exact I]). unfold element. cbn [nd_mem nd_shape nd_strides nd_offset nd_itemsize]. rewrite Et, Ei. cbn [cst dot]. fold R.
      pose proof (dot_cst _ _ _ Hi I). rewrite Z.add_0_l, (H j i Ej) by lia. f_equal; lia. }
    cbn [nd_shape nd_itemsize]. split; [apply Y; cbn [nd_shape nd_itemsize nd_strides]; auto; rewrite zlen_cons, cst_len; reflexivity|]. auto.
Qed.
