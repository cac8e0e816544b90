(** C11: ak.local_index(array, axis) has the list structure of the array down to that axis, and each list at that
    axis contains 0, 1, ..., length-1.  [lift] and [has_axis] are in SpecAxis.v.  "exists n, forall fuel >= n" says
    that the recursion of the method ends. *)
From Verif Require Import Base BaseLemmas Content KCore Core Convert Option Axis SpecArray SpecForm SpecAxis PForm PAxis PLocalIndex ExampleArrays.
Local Open Scope string_scope.

Theorem C11_local_index : forall is64 c vs axis, den c = Some vs -> 0 < axis -> has_axis axis (form_of c) = true ->
  exists n, forall fuel, (n <= fuel)%nat ->
  exists c', localindex is64 fuel c axis 0 = Ok c' /\ den c' = Some (map (lift local_index axis) vs).
Proof.
  intros is64 c vs axis Hd Ha Hh. exists (need c). intros fuel Hf. pose proof (localindex_good is64 fuel c axis 0 vs Hf Hd ltac:(lia)) as G.
  rewrite Z.sub_0_r, Hh in G. exact G.
Qed.
Print Assumptions C11_local_index.

(** axis 0: the positions in the array itself *)
Theorem C11_local_index_axis0 : forall is64 c vs fuel, den c = Some vs -> (1 <= fuel)%nat ->
  exists c', localindex is64 fuel c 0 0 = Ok c' /\ den c' = Some (map VInt (zseq 0 (zlen vs))).
Proof.
  intros is64 c vs fuel Hd Hf. destruct fuel; [lia|]. pose proof (localindex_axis0_good c vs Hd) as G.
  destruct c; exact G.
Qed.
Print Assumptions C11_local_index_axis0.

(** an axis that some branch of the type does not have is an error *)
Theorem C11_out_of_range : forall is64 c vs axis, den c = Some vs -> 0 < axis -> has_axis axis (form_of c) = false ->
  exists n, forall fuel, (n <= fuel)%nat -> exists m, localindex is64 fuel c axis 0 = Err m.
Proof.
  intros is64 c vs axis Hd Ha Hh. exists (need c). intros fuel Hf. pose proof (localindex_good is64 fuel c axis 0 vs Hf Hd ltac:(lia)) as G.
  rewrite Z.sub_0_r, Hh in G. exact G.
Qed.
Print Assumptions C11_out_of_range.

(** negative axes count from the innermost lists, if all branches have the same depth *)
Theorem C11_negative_axis : forall is64 c d axis, axis < 0 -> uniform_depth (form_of c) = Some d -> d <= kMaxInt64 -> 0 <= d + axis ->
  forall fuel, localindex is64 fuel c axis 0 = localindex is64 fuel c (d + axis) 0.
Proof.
  intros is64 c d axis Ha Hu Hk Hp fuel. destruct fuel; [reflexivity|].
  assert (W : axis_wrap_if_negative c axis = Ok (d + axis)).
  { rewrite (wrap_uniform c axis d Ha Hu Hk). destruct (Z.ltb_spec (d + axis) 0); [lia|reflexivity]. }
  destruct c; try reflexivity; cbn [localindex]; rewrite W, (wrap_nonneg _ (d + axis) Hp); reflexivity.
Qed.
Print Assumptions C11_negative_axis.

(** Without "all branches have the same depth" the claim about negative axes is false: in a list of records
    {x: list, y: list of lists}, axis = -1 is resolved in each field against the depth below the outer list, so it
    numbers the records of the field x and the outer lists of the field y, not the innermost lists. *)
Definition mixed : content :=
  ListOffset [0; 1] (Record (Some ["x"; "y"]) 1
    [ListOffset [0; 2] (Numpy DInt [5; 6]); ListOffset [0; 1] (ListOffset [0; 2] (Numpy DInt [7; 8]))]).
Theorem C11_negative_axis_refuted :
  den mixed = Some [VList [VRec [("x", VList [VInt 5; VInt 6]); ("y", VList [VList [VInt 7; VInt 8]])]]] /\
  exists c', localindex (fun _ => true) 10 mixed (-1) 0 = Ok c' /\
  den c' <> Some [VList [VRec [("x", VList [VInt 0; VInt 1]); ("y", VList [VList [VInt 0; VInt 1]])]]] /\
  den c' = Some [VList [VRec [("x", VInt 0); ("y", VList [VInt 0])]]].
Proof. split; [reflexivity|]. eexists. split; [vm_compute; reflexivity|]. split; [vm_compute; discriminate|vm_compute; reflexivity]. Qed.
Print Assumptions C11_negative_axis_refuted.

(** non-vacuity: options, records, gaps and a union below an outer list *)
Definition li_example : content :=
  ListA [3; 0; 1] [5; 0; 3] (IndexedOption [0; -1; 2; 1; -1]
    (Record (Some ["x"; "y"]) 3 [ListOffset [1; 3; 3; 4] (Numpy DInt [9; 1; 2; 3]);
                                 Union [0; 1; 0] [0; 0; 1] [Regular 2 0 (Numpy DInt [1; 2; 3; 4]); ListOffset [0; 1] (Numpy DBool [1])]])).
Example C11_ex : exists vs, den li_example = Some vs /\ has_axis 2 (form_of li_example) = true /\
  map (lift local_index 2) vs =
  [VList [VRec [("x", VList []); ("y", VList [VInt 0])]; VNone]; VList [];
   VList [VNone; VRec [("x", VList [VInt 0]); ("y", VList [VInt 0; VInt 1])]]].
Proof. eexists. split; [vm_compute; reflexivity|]. split; vm_compute; reflexivity. Qed.
Example C11_ex_run : exists c', localindex (fun _ => true) 10 li_example 2 0 = Ok c' /\
  den c' = Some [VList [VRec [("x", VList []); ("y", VList [VInt 0])]; VNone]; VList [];
   VList [VNone; VRec [("x", VList [VInt 0]); ("y", VList [VInt 0; VInt 1])]]].
Proof. eexists. split; vm_compute; reflexivity. Qed.
Example C11_ex_range : has_axis 3 (form_of li_example) = false.
Proof. reflexivity. Qed.
Example C11_ex_negative : uniform_depth (form_of (ListOffset [0; 1] (Unmasked (ListOffset [0; 2] (Numpy DInt [7; 8]))))) = Some 3.
Proof. reflexivity. Qed.
