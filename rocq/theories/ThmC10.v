(** C10: ak.num(array, axis) replaces each list at that axis by its number of elements. *)
From Verif Require Import Base BaseLemmas Content KCore Core Convert Option Axis KMerge Merge Num SpecArray SpecForm SpecAxis SpecMerge SpecNum
  PCore PForm PAxis PNum.
Local Open Scope string_scope. Local Open Scope list_scope. Local Open Scope Z_scope.

(** Missing: unions.  Offsets above the counted lists have to start at 0 (see C10_offset_refuted). *)
Theorem C10_num_partial : forall is64 rc narrow refeq mfuel c vs axis, den c = Some vs -> 0 < axis -> has_axis axis (form_of c) = true ->
  union_free (form_of c) = true -> zero_based axis c ->
  exists n, forall fuel, (n <= fuel)%nat ->
  exists c', num is64 rc narrow refeq mfuel fuel c axis = Ok (Counts c') /\ den c' = Some (map (lift count axis) vs).
Proof.
  intros is64 rc narrow refeq mfuel c vs axis Hd Ha Hh Hu HZ. exists (need c). intros fuel Hf.
  pose proof (num_good is64 rc narrow refeq mfuel fuel c axis 0 vs Hf Hd ltac:(lia) Hu) as G. rewrite Z.sub_0_r, Hh in G. destruct (G HZ) as (c' & E & D).
  exists c'. split; [|exact D]. unfold num. rewrite wrap_nonneg by lia. cbn [bind]. destruct (Z.eqb_spec axis 0); [lia|]. rewrite E. reflexivity.
Qed.
Print Assumptions C10_num_partial.

(** axis 0: the length of the array; for a record array that length for every field *)
Theorem C10_num_axis0 : forall is64 rc narrow refeq mfuel fuel c vs, den c = Some vs ->
  num is64 rc narrow refeq mfuel fuel c 0 =
  Ok (match c with Record keys _ cs => CountRow keys (map (fun _ => zlen vs) cs) | _ => Count (zlen vs) end).
Proof.
  intros is64 rc narrow refeq mfuel fuel c vs Hd. pose proof (den_length _ _ Hd) as HL. unfold num. rewrite wrap_nonneg by lia. cbn [bind]. change (0 =? 0) with true. cbv iota.
  destruct c; rewrite ?HL; try reflexivity. cbn [length_] in HL. rewrite HL. reflexivity.
Qed.
Print Assumptions C10_num_axis0.

(** an axis that some branch of the type does not have is an error *)
Theorem C10_out_of_range : forall is64 rc narrow refeq mfuel c vs axis, den c = Some vs -> 0 < axis -> has_axis axis (form_of c) = false ->
  union_free (form_of c) = true -> zero_based axis c ->
  exists n, forall fuel, (n <= fuel)%nat -> exists m, num is64 rc narrow refeq mfuel fuel c axis = Err m.
Proof.
  intros is64 rc narrow refeq mfuel c vs axis Hd Ha Hh Hu HZ. exists (need c). intros fuel Hf.
  pose proof (num_good is64 rc narrow refeq mfuel fuel c axis 0 vs Hf Hd ltac:(lia) Hu) as G. rewrite Z.sub_0_r, Hh in G. destruct (G HZ) as (m & E).
  exists m. unfold num. rewrite wrap_nonneg by lia. cbn [bind]. destruct (Z.eqb_spec axis 0); [lia|]. rewrite E. reflexivity.
Qed.
Print Assumptions C10_out_of_range.

(** negative axes count from the innermost lists, if all branches have the same depth *)
Theorem C10_negative_axis : forall is64 rc narrow refeq mfuel c d axis, axis < 0 -> uniform_depth (form_of c) = Some d -> d <= kMaxInt64 -> 0 <= d + axis ->
  forall fuel, num is64 rc narrow refeq mfuel fuel c axis = num is64 rc narrow refeq mfuel fuel c (d + axis).
Proof.
  intros is64 rc narrow refeq mfuel c d axis Ha Hu Hk Hp fuel.
  assert (W : axis_wrap_if_negative c axis = Ok (d + axis)).
  { rewrite (wrap_uniform c axis d Ha Hu Hk). destruct (Z.ltb_spec (d + axis) 0); [lia|reflexivity]. }
  unfold num. rewrite W, (wrap_nonneg _ (d + axis) Hp). cbn [bind]. destruct (d + axis =? 0); [reflexivity|].
  destruct fuel; [reflexivity|]. cbn [num_next]. rewrite W, (wrap_nonneg _ (d + axis) Hp). reflexivity.
Qed.
Print Assumptions C10_negative_axis.

Local Notation run := (num (fun _ => true) (fun _ => 1) (fun _ => false) (fun _ _ => false) 10).

(** With offsets that do not start at 0 the counts are taken from the wrong lists: ListOffsetArray.cpp:969-974 puts offsets
    shifted to 0 over the counts of the whole content.  Slicing array[1:] makes such offsets. *)
Definition shifted : content := ListOffset [1; 2] (ListOffset [0; 3; 4] (Numpy DInt [1; 2; 3; 4])).
Theorem C10_offset_refuted :
  getitem_range_nowrap (ListOffset [0; 1; 2] (ListOffset [0; 3; 4] (Numpy DInt [1; 2; 3; 4]))) 1 2 = Ok shifted /\
  den shifted = Some [VList [VList [VInt 4]]] /\
  exists c', run 10 shifted 2 = Ok (Counts c') /\ den c' = Some [VList [VInt 3]] /\
  map (lift count 2) [VList [VList [VInt 4]]] = [VList [VInt 1]].
Proof. split; [vm_compute; reflexivity|]. split; [vm_compute; reflexivity|]. eexists. split; [vm_compute; reflexivity|]. split; vm_compute; reflexivity. Qed.
Print Assumptions C10_offset_refuted.

(** non-vacuity *)
Definition num_example : content :=
  ListA [3; 0; 1] [5; 0; 3] (IndexedOption [0; -1; 2; 1; -1]
    (Record (Some ["x"; "y"]) 3 [ListOffset [1; 3; 3; 4] (Numpy DInt [9; 1; 2; 3]); BitMasked [5] true true 3 (Regular 2 0 (Numpy DInt [1; 2; 3; 4; 5; 6]))])).
Example C10_ex : exists vs, den num_example = Some vs /\ has_axis 2 (form_of num_example) = true /\ union_free (form_of num_example) = true /\ zero_based 2 num_example /\
  map (lift count 2) vs = [VList [VRec [("x", VInt 0); ("y", VNone)]; VNone]; VList []; VList [VNone; VRec [("x", VInt 1); ("y", VInt 2)]]].
Proof. eexists. split; [vm_compute; reflexivity|]. repeat split; vm_compute; reflexivity. Qed.
Example C10_ex_run : exists c', run 10 num_example 2 = Ok (Counts c') /\
  den c' = Some [VList [VRec [("x", VInt 0); ("y", VNone)]; VNone]; VList []; VList [VNone; VRec [("x", VInt 1); ("y", VInt 2)]]].
Proof. eexists. split; vm_compute; reflexivity. Qed.
Example C10_ex_range : has_axis 3 (form_of num_example) = false.
Proof. reflexivity. Qed.
