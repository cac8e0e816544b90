(** C09: ak.flatten(array, axis) concatenates the lists at that axis, in order; missing lists have no elements. *)
From Verif Require Import Base BaseLemmas Content KCore Core Convert Option Axis Flatten SpecArray SpecForm SpecAxis SpecFlatten
  PCore PList PConvert PForm PAxis PNat PFlatten.
Local Open Scope string_scope. Local Open Scope list_scope. Local Open Scope Z_scope.

Lemma flat_ok1 c : flattens 1 (form_of c) = true -> flat_ok 1 c.
Proof.
  induction c using content_ind'; cbn [form_of flattens flat_ok]; change (1 =? 1) with true; cbv iota; intros Hf; try exact I; auto; try discriminate.
  rewrite forallb_map, forallb_forall in Hf. apply fok_all. rewrite Forall_forall in *. auto.
Qed.

(** axis 1: for every array of lists *)
Theorem C09_flatten_axis1 : forall is64 c vs, den c = Some vs -> flattens 1 (form_of c) = true ->
  exists n, forall fuel, (n <= fuel)%nat ->
  exists c', flatten is64 fuel c 1 = Ok c' /\ den c' = Some (concat (map items vs)).
Proof.
  intros is64 c vs Hd Hf. exists (need c). intros fuel Hl.
  pose proof (flatten_good is64 fuel c 1 0 vs Hl Hd ltac:(lia) (flat_ok1 c Hf)) as G. unfold flat_outcome in G. change (1 - 0) with 1 in G. rewrite Hf in G. destruct G as (o & c' & E & _ & D).
  exists c'. unfold flatten. rewrite E. split; [reflexivity|exact D].
Qed.
Print Assumptions C09_flatten_axis1.

(** deeper axes.  Missing: the layouts excluded by flat_ok (offsets of empty lists beyond the content, records without fields) and
    parts of unknown type above the axis; see the refutations below *)
Theorem C09_flatten_partial : forall is64 c vs axis, den c = Some vs -> 1 < axis -> flattens axis (form_of c) = true -> flat_ok axis c ->
  exists n, forall fuel, (n <= fuel)%nat ->
  exists c', flatten is64 fuel c axis = Ok c' /\ den c' = Some (map (lift (fun l => VList (concat (map items l))) (axis - 1)) vs).
Proof.
  intros is64 c vs axis Hd Ha Hf HZ. exists (need c). intros fuel Hl.
  pose proof (flatten_good is64 fuel c axis 0 vs Hl Hd ltac:(lia)) as G. unfold flat_outcome in G. rewrite Z.sub_0_r, Hf in G. destruct (G HZ) as (o & c' & E & _ & D).
  exists c'. unfold flatten. rewrite E. split; [reflexivity|]. rewrite D. unfold flattened. destruct (Z.eqb_spec axis 1); [lia|reflexivity].
Qed.
Print Assumptions C09_flatten_partial.

(** no element is lost, duplicated or reordered: the elements of the flattened array, in order, are those of the lists in order *)
Theorem C09_flatten_length : forall is64 c vs, den c = Some vs -> flattens 1 (form_of c) = true ->
  exists n, forall fuel, (n <= fuel)%nat ->
  exists c' ws, flatten is64 fuel c 1 = Ok c' /\ den c' = Some ws /\ zlen ws = fold_right Z.add 0 (map (fun v => zlen (items v)) vs).
Proof.
  intros is64 c vs Hd Hf. destruct (C09_flatten_axis1 is64 c vs Hd Hf) as (n & H). exists n. intros fuel Hl. destruct (H fuel Hl) as (c' & E & D).
  exists c', (concat (map items vs)). repeat split; auto. clear. induction vs as [|v vs IH]; [reflexivity|]. cbn [map concat fold_right]. rewrite zlen_app, IH. reflexivity.
Qed.
Print Assumptions C09_flatten_length.

(** an axis at which some branch has no lists is an error *)
Theorem C09_out_of_range : forall is64 c vs axis, den c = Some vs -> 0 < axis -> flattens axis (form_of c) = false -> definite (form_of c) = true -> flat_ok axis c ->
  exists n, forall fuel, (n <= fuel)%nat -> exists m, flatten is64 fuel c axis = Err m.
Proof.
  intros is64 c vs axis Hd Ha Hf HD HZ. exists (need c). intros fuel Hl.
  pose proof (flatten_good is64 fuel c axis 0 vs Hl Hd ltac:(lia)) as G. unfold flat_outcome in G. rewrite Z.sub_0_r, Hf in G. destruct (G HZ HD) as (m & E).
  exists m. unfold flatten. rewrite E. reflexivity.
Qed.
Print Assumptions C09_out_of_range.

Theorem C09_axis0 : forall is64 c vs fuel, den c = Some vs -> (1 <= fuel)%nat -> exists m, flatten is64 fuel c 0 = Err m.
Proof.
  intros is64 c vs fuel Hd Hf. destruct fuel as [|fuel]; [lia|]. unfold flatten.
  destruct c; cbn [offsets_and_flattened]; try (rewrite wrap_nonneg by lia; cbn [bind]; change (0 =? 0) with true; cbv iota; cbn [bind]; eexists; reflexivity).
  - destruct (to_listoffset (is64 (ListA starts stops c)) true _ _ _ _ Hd eq_refl) as (o & c'' & E & D & O0). rewrite E. cbn [bind]. rewrite wrap_nonneg by lia. eexists. reflexivity.
  - destruct (to_listoffset (is64 (Regular size zeros_length c)) true _ _ _ _ Hd eq_refl) as (o & c'' & E & D & O0). rewrite E. cbn [bind]. rewrite wrap_nonneg by lia. eexists. reflexivity.
Qed.
Print Assumptions C09_axis0.

(** negative axes count from the innermost lists, if all branches have the same depth *)
Theorem C09_negative_axis : forall is64 c d axis, axis < 0 -> uniform_depth (form_of c) = Some d -> d <= kMaxInt64 -> 0 <= d + axis ->
  forall fuel, flatten is64 fuel c axis = flatten is64 fuel c (d + axis).
Proof.
  intros is64 c d axis Ha Hu Hk Hp fuel.
  assert (W : forall x, form_of x = form_of c -> axis_wrap_if_negative x axis = Ok (d + axis)).
  { intros x Hx. rewrite (wrap_uniform x axis d Ha) by (rewrite ?Hx; assumption). destruct (Z.ltb_spec (d + axis) 0); [lia|reflexivity]. }
  assert (W0 : forall x, axis_wrap_if_negative x (d + axis) = Ok (d + axis)) by (intros; apply wrap_nonneg; lia).
  unfold flatten. destruct fuel as [|fuel]; [reflexivity|].
  destruct c; cbn [offsets_and_flattened]; try (rewrite W by reflexivity; rewrite W0; reflexivity).
  - destruct (toListOffsetArray64 (is64 (ListA starts stops c)) true (ListA starts stops c)) as [lo|m|] eqn:E; [|reflexivity..]. cbn [bind].
    destruct (tolistoffset_same _ _ _ _ E) as (o & x & -> & [F _]). rewrite (W (ListOffset o x) F), W0. reflexivity.
  - destruct (toListOffsetArray64 (is64 (Regular size zeros_length c)) true (Regular size zeros_length c)) as [lo|m|] eqn:E; [|reflexivity..]. cbn [bind].
    destruct (tolistoffset_same _ _ _ _ E) as (o & x & -> & [F _]). rewrite (W (ListOffset o x) F), W0. reflexivity.
Qed.
Print Assumptions C09_negative_axis.

Local Notation run := (flatten (fun _ => true) 10).

(** Offsets of empty lists may lie beyond the content of a valid array; ListOffsetArray.cpp:1010-1032 uses them as positions in the
    inner offsets, outside of that buffer. *)
Theorem C09_offsets_refuted :
  den (ListOffset [7; 7] (ListOffset [0; 1] (Numpy DInt [1]))) = Some [VList []] /\
  run (ListOffset [7; 7] (ListOffset [0; 1] (Numpy DInt [1]))) 2 = UB.
Proof. split; vm_compute; reflexivity. Qed.
Print Assumptions C09_offsets_refuted.

(** RecordArray.cpp:1098-1129 makes the new record array without its length: records without fields disappear. *)
Theorem C09_fieldless_refuted :
  den (Record (Some []) 3 []) = Some [VRec []; VRec []; VRec []] /\ flattens 2 (form_of (Record (Some []) 3 [])) = true /\
  run (Record (Some []) 3 []) 2 = Ok (Record (Some []) 0 []) /\ den (Record (Some []) 0 []) = Some [].
Proof. repeat split; vm_compute; reflexivity. Qed.
Print Assumptions C09_fieldless_refuted.

(** EmptyArray.cpp:458-471 gives offsets at any axis: missing values above it disappear, records containing it are refused. *)
Theorem C09_unknown_refuted :
  den (IndexedOption [-1; -1] Empty) = Some [VNone; VNone] /\
  run (IndexedOption [-1; -1] Empty) 2 = Ok Empty /\
  den (Record (Some ["x"]) 0 [Empty]) = Some [] /\ exists m, run (Record (Some ["x"]) 0 [Empty]) 2 = Err m.
Proof. split; [vm_compute; reflexivity|]. split; [vm_compute; reflexivity|]. split; [vm_compute; reflexivity|]. eexists. vm_compute. reflexivity. Qed.
Print Assumptions C09_unknown_refuted.

(** non-vacuity *)
Definition flatten_example : content :=
  Union [0; 1; 0; 1] [1; 0; 0; 1] [
    ListA [3; 0] [5; 2] (IndexedOption [0; -1; 2; 1; -1] (ListOffset [1; 3; 3; 4] (Numpy DInt [9; 1; 2; 3])));
    Regular 1 0 (BitMasked [1] true true 2 (Regular 2 0 (Numpy DInt [1; 2; 3; 4])))].
Example C09_ex1 : flattens 1 (form_of flatten_example) = true /\
  den flatten_example = Some [VList [VList [VInt 1; VInt 2]; VNone]; VList [VList [VInt 1; VInt 2]]; VList [VList []; VNone]; VList [VNone]] /\
  exists c', run flatten_example 1 = Ok c' /\ den c' = Some [VList [VInt 1; VInt 2]; VNone; VList [VInt 1; VInt 2]; VList []; VNone; VNone].
Proof. split; [reflexivity|]. split; [vm_compute; reflexivity|]. eexists. split; vm_compute; reflexivity. Qed.
Definition flatten_example2 : content :=
  Record (Some ["x"; "y"]) 2 [ListA [1; 0] [2; 1] (ListOffset [1; 3; 4] (Numpy DInt [9; 1; 2; 3])); flatten_example].
Example C09_ex2 : exists vs, den flatten_example2 = Some vs /\ flattens 2 (form_of flatten_example2) = true /\ flat_ok 2 flatten_example2 /\
  map (lift (fun l => VList (concat (map items l))) 1) vs =
  [VRec [("x", VList [VInt 3]); ("y", VList [VInt 1; VInt 2])]; VRec [("x", VList [VInt 1; VInt 2]); ("y", VList [VInt 1; VInt 2])]] /\
  exists c', run flatten_example2 2 = Ok c' /\ den c' = Some (map (lift (fun l => VList (concat (map items l))) 1) vs).
Proof.
  eexists. split; [vm_compute; reflexivity|]. split; [reflexivity|]. split; [cbn; repeat split; discriminate|]. split; [vm_compute; reflexivity|]. eexists. split; vm_compute; reflexivity.
Qed.
Example C09_ex_range : flattens 3 (form_of flatten_example2) = false /\ definite (form_of flatten_example2) = true /\ flat_ok 3 flatten_example2.
Proof. split; [reflexivity|]. split; [reflexivity|]. cbn. repeat split; try discriminate; repeat first [apply Forall_nil|apply Forall_cons; [unfold zlen; simpl; lia|]]. Qed.
