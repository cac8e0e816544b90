(** C39: multidimensional arrays.  Elements, ranges, slices, contiguous copies, rows and nested lists of a strided array are those that
    NumPy defines, and no byte outside of the buffer is read ([UB] is never the outcome). *)
From Coq Require Import String List ZArith Lia.
From Verif Require Import Base BaseLemmas Content KRange SpecSlice SpecArray Strided SpecStrided PStrided PStrided2 PStrided3 PStrided4.
Import ListNotations.
Local Open Scope string_scope.
Local Open Scope list_scope.
Local Open Scope Z_scope.

(** a 2 by 3 array of two-byte items, stored by columns with gaps between them *)
Definition demo : ndarray := mkND (zseq 0 26) [2; 3] [2; 8] 1 2.
Lemma demo_ok : wellformed demo.
Proof.
  split; [reflexivity|]. split; [repeat constructor; lia|]. split; [cbn; lia|]. cbn [nd_shape demo]. intros idx I.
  apply inside_inv in I as (i & ? & -> & Hi & I). apply inside_inv in I as (j & ? & -> & Hj & I). apply inside_nil in I as ->.
  assert (i = 0 \/ i = 1) as [-> | ->] by lia; (assert (j = 0 \/ j = 1 \/ j = 2) as [-> | [-> | ->]] by lia); discriminate.
Qed.

(** ** array[i] *)
Theorem C39_item : forall a i, wellformed a -> nd_shape a <> [] ->
  match position i (hd 0 (nd_shape a)) with
  | Some k => exists s, nd_at a i = Ok s /\ nd_mem s = nd_mem a /\ wellformed s /\ nd_shape s = tl (nd_shape a) /\
                forall idx, inside (nd_shape s) idx -> element s idx = element a (k :: idx)
  | None => exists m, nd_at a i = Err m
  end.
Proof. exact at_ok. Qed.
Print Assumptions C39_item.
Example C39_item_demo : exists s, nd_at demo (-1) = Ok s /\ nd_shape s = [3] /\ element s [2] = Some [19; 20] /\ element demo [1; 2] = Some [19; 20].
Proof. eexists. split; [vm_compute; reflexivity|]. repeat split; vm_compute; reflexivity. Qed.

(** ** array[start:stop] *)
Theorem C39_range : forall a start stop, wellformed a -> nd_shape a <> [] ->
  exists s, nd_range a start stop = Ok s /\ nd_mem s = nd_mem a /\ wellformed s /\ is_slice None [NRange start stop 1] a s.
Proof. exact range_ok. Qed.
Print Assumptions C39_range.
Example C39_range_demo : exists s, nd_range demo 1 5 = Ok s /\ nd_shape s = [1; 3] /\ element s [0; 0] = Some [3; 4].
Proof. eexists. split; [vm_compute; reflexivity|]. repeat split; vm_compute; reflexivity. Qed.

(** ** Slices made of integers, ranges, an ellipsis and new dimensions: a view of the same buffer, or an error exactly when NumPy has no such slice *)
Theorem C39_basic_slice : forall a items, wellformed a -> nd_shape a <> [] -> Forall item_ok items -> existsb is_array items = false ->
  match slice_shape None false items (nd_shape a) with
  | Some _ => exists s, nd_slice a items = Ok s /\ nd_mem s = nd_mem a /\ wellformed s /\ is_slice None items a s
  | None => exists m, nd_slice a items = Err m
  end.
Proof. exact basic_slice. Qed.
Print Assumptions C39_basic_slice.
Definition backwards : list nditem := [NRange kSliceNone kSliceNone (-1); NNewAxis; NEllipsis; NRange 1 kSliceNone 1].
Example C39_basic_slice_demo : Forall item_ok backwards /\ existsb is_array backwards = false /\
  exists s, nd_slice demo backwards = Ok s /\ nd_shape s = [2; 1; 2] /\ element s [0; 0; 1] = Some [19; 20] /\ source None None backwards [2; 3] [0; 0; 1] = Some [1; 2].
Proof. split; [repeat constructor; cbn; discriminate|]. split; [reflexivity|]. eexists. split; [vm_compute; reflexivity|]. repeat split; vm_compute; reflexivity. Qed.
Example C39_basic_slice_error : slice_shape None false [NAt 0; NAt 3] [2; 3] = None /\ nd_slice demo [NAt 0; NAt 3] = Err "index out of range".
Proof. split; vm_compute; reflexivity. Qed.

(** ** Contiguous copies: the same elements, at consecutive places in row-major order *)
Lemma nthZ_indices_inv : forall sh k p, nonneg sh -> nthZ (indices sh) k = Some p -> k = dot p (cst 1 sh).
Proof.
  induction sh as [|n sh IH]; intros k p N E.
  - cbn [indices] in E. pose proof (nthZ_Some _ _ _ E) as B. change (zlen [@nil Z]) with 1 in B. assert (k = 0) as -> by lia. injection E as <-. reflexivity.
  - inversion N as [|? ? N1 N2]; subst. rewrite indices_grid in E. apply nthZ_grid_inv in E as (i & j & Hi & Hj & -> & ->); auto; [|apply zlen_nonneg].
    destruct (nthZ_lt (indices sh) j Hj) as (q & Eq). rewrite Eq. cbn [cst dot]. rewrite <- (IH j q N2 Eq), zlen_indices by exact N2. lia.
Qed.
Theorem C39_contiguous : forall a, wellformed a ->
  exists c, nd_contiguous a = Ok c /\ wellformed c /\ nd_shape c = nd_shape a /\ nd_itemsize c = nd_itemsize a /\
    (forall idx, inside (nd_shape a) idx -> element c idx = element a idx) /\
    (forall k idx, nthZ (indices (nd_shape a)) k = Some idx -> element a idx = block (nd_mem c) (nd_offset c + k * nd_itemsize a) (nd_itemsize a)).
Proof.
  intros a W. destruct (contiguous_ok a W) as (c & E & Es & Et & Ei & G). exists c. split; [exact E|]. split; [eapply contiguous_wellformed; eauto|]. split; [exact Es|]. split; [exact Ei|]. split; [exact G|].
  intros k idx Hk. rewrite <- (G idx) by (apply In_indices; eapply nthZ_In; eauto). unfold element. rewrite Et, Ei. rewrite (nthZ_indices_inv (nd_shape a) k idx) by (auto; apply W). rewrite (dot_cst_scale (nd_itemsize a)). f_equal; lia.
Qed.
Print Assumptions C39_contiguous.
Example C39_contiguous_demo : nd_contiguous demo = Ok (mkND [1; 2; 9; 10; 17; 18; 3; 4; 11; 12; 19; 20] [2; 3] [6; 2] 0 2).
Proof. vm_compute. reflexivity. Qed.

(** ** Picking rows *)
Theorem C39_rows : forall a carry, wellformed a -> nd_shape a <> [] -> Forall (fun i => 0 <= i < hd 0 (nd_shape a)) carry ->
  exists s, nd_carry a carry = Ok s /\ wellformed s /\ nd_shape s = zlen carry :: tl (nd_shape a) /\ nd_itemsize s = nd_itemsize a /\
    forall j i idx, nthZ carry j = Some i -> inside (tl (nd_shape a)) idx -> element s (j :: idx) = element a (i :: idx).
Proof. exact carry_ok. Qed.
Print Assumptions C39_rows.
Example C39_rows_demo : exists s, nd_carry demo [1; 0; 1] = Ok s /\ nd_shape s = [3; 3] /\ element s [2; 1] = Some [11; 12].
Proof. eexists. split; [vm_compute; reflexivity|]. repeat split; vm_compute; reflexivity. Qed.

(** ** Slices with index arrays.  Partial: the index arrays have one or two dimensions, and none is broadcast from length 1 to length 0; what happens
    otherwise is shown by the refutations below. *)
Theorem C39_index_arrays_partial : forall a items b, wellformed a -> nd_shape a <> [] -> Forall item_ok items ->
  common_shape items b -> no_empty_broadcast items b -> zlen b <= 2 -> adjacent items -> ellipses items <= 1 ->
  match slice_shape (Some b) false items (nd_shape a) with
  | Some _ => exists s, nd_slice a items = Ok s /\ wellformed s /\ nd_itemsize s = nd_itemsize a /\ is_slice (Some b) items a s
  | None => exists m, nd_slice a items = Err m
  end.
Proof. exact advanced_slice. Qed.
Print Assumptions C39_index_arrays_partial.
(** index arrays and integers that do not stand next to each other, or a second ellipsis, are refused *)
Theorem C39_separated_refused : forall a items b, Forall item_ok items -> common_shape items b -> no_empty_broadcast items b ->
  ~ (adjacent items /\ ellipses items <= 1) -> exists m, nd_slice a items = Err m.
Proof. exact separated_slice. Qed.
Print Assumptions C39_separated_refused.
Definition column : nditem := NArray [0; 1; -1] [3; 1] [1; 1].
Definition row : nditem := NArray [2; 0] [1; 2] [2; 1].
Lemma column_ok : item_ok column.
Proof.
  cbn. repeat split; [discriminate|repeat constructor; lia|]. intros p I. apply inside_inv in I as (i & ? & -> & Hi & I). apply inside_inv in I as (j & ? & -> & Hj & I). apply inside_nil in I as ->.
  assert (j = 0) as -> by lia. assert (i = 0 \/ i = 1 \/ i = 2) as [-> | [-> | ->]] by lia; discriminate.
Qed.
Lemma row_ok : item_ok row.
Proof.
  cbn. repeat split; [discriminate|repeat constructor; lia|]. intros p I. apply inside_inv in I as (i & ? & -> & Hi & I). apply inside_inv in I as (j & ? & -> & Hj & I). apply inside_nil in I as ->.
  assert (i = 0) as -> by lia. assert (j = 0 \/ j = 1) as [-> | ->] by lia; discriminate.
Qed.
Lemma column_row_common : common_shape [column; row] [3; 2] /\ no_empty_broadcast [column; row] [3; 2].
Proof.
  split.
  - split; [eexists _, _, _; left; reflexivity|]. split.
    + intros ? ? ? [E|[E|[]]]; injection E as <- <- <-; repeat constructor; lia.
    + intros k c E. pose proof (nthZ_Some _ _ _ E) as B. change (zlen [3; 2]) with 2 in B. assert (k = 0 \/ k = 1) as [-> | ->] by lia; injection E as <-.
      * eexists _, _, _. split; [left; reflexivity|reflexivity].
      * eexists _, _, _. split; [right; left; reflexivity|reflexivity].
  - intros ? ? ? [E|[E|[]]]; injection E as <- <- <-; repeat constructor; lia.
Qed.
Example C39_index_arrays_demo : Forall item_ok [column; row] /\ common_shape [column; row] [3; 2] /\ no_empty_broadcast [column; row] [3; 2] /\ adjacent [column; row] /\ ellipses [column; row] <= 1 /\
  exists s, nd_slice demo [column; row] = Ok s /\ nd_shape s = [3; 2] /\ element s [2; 0] = Some [19; 20] /\ source (Some [3; 2]) None [column; row] [2; 3] [2; 0] = Some [1; 2].
Proof.
  split; [constructor; [apply column_ok|constructor; [apply row_ok|constructor]]|]. split; [apply column_row_common|]. split; [apply column_row_common|].
  split; [exists [], [column; row], []; repeat split; reflexivity|]. split; [vm_compute; discriminate|]. eexists. split; [vm_compute; reflexivity|]. repeat split; vm_compute; reflexivity.
Qed.
Example C39_separated_demo : nd_slice demo [column; NNewAxis; row] = Err "advanced indexes separated by basic indexes is not permitted (simple integers are advanced when any arrays are present)".
Proof. vm_compute. reflexivity. Qed.

(** ** Nested lists.  Partial: the dimensions after the second are not 0. *)
Theorem C39_nested_partial : forall decode dt a, wellformed a -> nd_shape a <> [] -> Forall (fun n => 0 < n) (tl (tl (nd_shape a))) ->
  exists c vs, nd_toRegularArray decode dt a = Ok c /\ den c = Some vs /\
    VList vs = nested (nd_shape a) (fun idx => match element a idx with Some bs => scalar dt (decode bs) | None => VNone end).
Proof. exact regular_ok. Qed.
Print Assumptions C39_nested_partial.
Example C39_nested_demo : nd_toRegularArray (fun b => hd 0 b) DInt demo = Ok (Regular 3 2 (Numpy DInt [1; 9; 17; 3; 11; 19])).
Proof. vm_compute. reflexivity. Qed.

(** ** What does not hold *)
(** An index array of three dimensions is not flattened: some of the flat positions are never written (here 6 and 7, as fresh memory happens to be), and others
    hold the wrong elements (awkward_slicearray_ravel.cpp multiplies by the length of the next dimension instead of by all that follow). *)
Theorem C39_index_array_3d_refuted : exists index shape strides fl, array_ok index shape strides /\ nd_ravel index shape strides = Ok fl /\
  nthZ (indices shape) 2 = Some [0; 1; 0] /\ nthZ index (dot [0; 1; 0] strides) = Some 2 /\ nthZ fl 2 = Some 4 /\
  nthZ (indices shape) 6 = Some [1; 1; 0] /\ nthZ index (dot [1; 1; 0] strides) = Some 6 /\ nthZ fl 6 = Some poison.
Proof.
  exists [0; 1; 2; 3; 4; 5; 6; 7], [2; 2; 2], [4; 2; 1]. eexists. split; [|split; [vm_compute; reflexivity|repeat split; vm_compute; reflexivity]].
  repeat split; [discriminate|repeat constructor; lia|]. intros p I. apply inside_inv in I as (i & ? & -> & Hi & I). apply inside_inv in I as (j & ? & -> & Hj & I). apply inside_inv in I as (k & ? & -> & Hk & I). apply inside_nil in I as ->.
  assert (i = 0 \/ i = 1) as [-> | ->] by lia; (assert (j = 0 \/ j = 1) as [-> | ->] by lia); (assert (k = 0 \/ k = 1) as [-> | ->] by lia); discriminate.
Qed.
Print Assumptions C39_index_array_3d_refuted.
(** An empty index array followed by one of length 1 is refused; in the other order it is not. *)
Theorem C39_empty_broadcast_refuted : exists a items items' m s, wellformed a /\ Forall item_ok items /\ common_shape items [0] /\ slice_shape (Some [0]) false items (nd_shape a) = Some [0] /\
  nd_slice a items = Err m /\ items' = rev items /\ nd_slice a items' = Ok s /\ nd_shape s = [0].
Proof.
  exists demo, [NArray [] [0] [1]; NArray [0] [1] [1]], [NArray [0] [1] [1]; NArray [] [0] [1]]. eexists _, _. split; [exact demo_ok|]. split.
  - constructor; [|constructor; [|constructor]]; (split; [discriminate|]; split; [reflexivity|]; split; [repeat constructor; lia|]).
    + intros p I. apply inside_inv in I as (i & ? & -> & Hi & I). lia.
    + intros p I. apply inside_inv in I as (i & ? & -> & Hi & I). apply inside_nil in I as ->. assert (i = 0) as -> by lia. discriminate.
  - split.
    + split; [eexists _, _, _; left; reflexivity|]. split; [intros ? ? ? [E|[E|[]]]; injection E as <- <- <-; repeat constructor; lia|].
      intros k c E. pose proof (nthZ_Some _ _ _ E) as B. change (zlen [0]) with 1 in B. assert (k = 0) as -> by lia. injection E as <-. eexists _, _, _. split; [left; reflexivity|reflexivity].
    + split; [vm_compute; reflexivity|]. split; [vm_compute; reflexivity|]. split; [reflexivity|]. split; vm_compute; reflexivity.
Qed.
Print Assumptions C39_empty_broadcast_refuted.
(** A dimension of length 0 after the second: the number of lists is lost.  An array of shape (2, 3, 0) becomes one list of three empty lists. *)
Theorem C39_nested_empty_refuted : exists a c vs, wellformed a /\ nd_toRegularArray (fun _ => 0) DInt a = Ok c /\ den c = Some vs /\
  vs = [VList [VList []; VList []; VList []]] /\ nested (nd_shape a) (fun _ => VNone) = VList [VList [VList []; VList []; VList []]; VList [VList []; VList []; VList []]].
Proof.
  exists (mkND [] [2; 3; 0] [0; 0; 8] 0 8). eexists _, _. split; [|repeat split; vm_compute; reflexivity].
  split; [reflexivity|]. split; [repeat constructor; lia|]. split; [cbn; lia|]. intros idx I. apply inside_inv in I as (i & ? & -> & Hi & I). apply inside_inv in I as (j & ? & -> & Hj & I). apply inside_inv in I as (k & ? & -> & Hk & I). lia.
Qed.
Print Assumptions C39_nested_empty_refuted.
(** Without index arrays a second ellipsis is accepted, though NumPy refuses it, and this library too when there is an index array. *)
Theorem C39_one_ellipsis_refuted : exists s m, nd_slice demo [NEllipsis; NEllipsis; NAt 0] = Ok s /\ nd_slice demo [NEllipsis; NEllipsis; NArray [0] [1] [1]] = Err m.
Proof. eexists _, _. split; vm_compute; reflexivity. Qed.
Print Assumptions C39_one_ellipsis_refuted.
