(** C13: ak.pad_none(array, target, axis, clip) extends each list at that axis by missing values to [target] elements; with
    clip it also cuts off what is beyond. *)
From Verif Require Import Base BaseLemmas Content KCore Core Convert Option Axis Combinations KMerge Merge KPad Pad SpecArray SpecForm SpecAxis SpecMerge SpecPad
  PCore PForm PAxis PConvert POption PPadK PPad.
Local Open Scope string_scope. Local Open Scope list_scope. Local Open Scope Z_scope.

(** what [padded] is: length and elements *)
Theorem C13_padded_length : forall clip t l, 0 <= t -> zlen (padded clip t l) = if clip then t else Z.max t (zlen l).
Proof.
  intros clip t l Ht. unfold padded. pose proof (zlen_nonneg l). destruct clip; [rewrite zlen_slice; [lia|lia|]|]; rewrite zlen_app, zlen_repeat; lia.
Qed.
Print Assumptions C13_padded_length.
Theorem C13_padded_elements : forall clip t l i, 0 <= t -> 0 <= i < zlen (padded clip t l) ->
  nthZ (padded clip t l) i = if i <? zlen l then nthZ l i else Some VNone.
Proof.
  intros clip t l i Ht Hi. assert (Hp : 0 <= i < zlen l + Z.max 0 (t - zlen l) /\ (clip = true -> i < t)).
  { rewrite C13_padded_length in Hi by exact Ht. pose proof (zlen_nonneg l). destruct clip; lia. }
  unfold padded. replace (nthZ (if clip then _ else _) i) with (nthZ (l ++ repeat VNone (Z.to_nat (t - zlen l))) i).
  - rewrite nthZ_app. destruct (Z.ltb_spec i (zlen l)); [reflexivity|]. rewrite nthZ_repeat by lia. reflexivity.
  - destruct clip; [|reflexivity]. rewrite nthZ_slice by lia; f_equal; lia.
Qed.
Print Assumptions C13_padded_elements.

(** the method.  Its hypotheses: fields of records are as long as the record (see C13_untrimmed_refuted), no unions, and
    without clip no ListArray is reached without elements (see C13_empty_refuted). *)
Theorem C13_pad_partial : forall is64 rc narrow refeq mfuel clip target c vs axis, den c = Some vs -> 0 < axis -> 0 <= target -> has_lists axis (form_of c) = true ->
  tidy c -> union_free (form_of c) = true -> clip = true \/ nonempty_lists 0 axis c vs ->
  exists n, forall fuel, (n <= fuel)%nat ->
  exists c', rpad is64 rc narrow refeq mfuel clip fuel c target axis 0 = Ok c' /\ den c' = Some (map (lift (pad clip target) axis) vs).
Proof.
  intros is64 rc narrow refeq mfuel clip t c vs axis Hd Ha Ht Hh Hti Hu HN. exists (need c). intros fuel Hf.
  pose proof (rpad_good is64 rc narrow refeq mfuel clip t Ht fuel c axis 0 vs Hf Hd ltac:(lia) Hu Hti) as G. rewrite Z.sub_0_r, Hh in G. exact (G HN).
Qed.
Print Assumptions C13_pad_partial.
(** an axis that some branch of the type does not have is an error *)
Theorem C13_out_of_range : forall is64 rc narrow refeq mfuel clip target c vs axis, den c = Some vs -> 0 < axis -> 0 <= target -> has_lists axis (form_of c) = false ->
  tidy c -> union_free (form_of c) = true -> clip = true \/ nonempty_lists 0 axis c vs ->
  exists n, forall fuel, (n <= fuel)%nat -> exists m, rpad is64 rc narrow refeq mfuel clip fuel c target axis 0 = Err m.
Proof.
  intros is64 rc narrow refeq mfuel clip t c vs axis Hd Ha Ht Hh Hti Hu HN. exists (need c). intros fuel Hf.
  pose proof (rpad_good is64 rc narrow refeq mfuel clip t Ht fuel c axis 0 vs Hf Hd ltac:(lia) Hu Hti) as G. rewrite Z.sub_0_r, Hh in G. exact (G HN).
Qed.
Print Assumptions C13_out_of_range.
(** axis 0: the array itself is extended *)
Theorem C13_pad_axis0 : forall is64 rc narrow refeq mfuel clip target c vs fuel, den c = Some vs -> 0 <= target -> (1 <= fuel)%nat ->
  clip = false \/ (forall x, c <> Unmasked x) ->
  exists c', rpad is64 rc narrow refeq mfuel clip fuel c target 0 0 = Ok c' /\ den c' = Some (padded clip target vs).
Proof.
  intros is64 rc narrow refeq mfuel clip t c vs fuel Hd Ht Hf HU. destruct fuel; [lia|]. pose proof (rpad_axis0_good c vs t clip Ht Hd) as G.
  destruct c; cbn [rpad]; rewrite (wrap_nonneg _ 0) by lia; cbn [bind]; change (0 =? 0) with true; cbn [negb]; cbv iota; try exact G.
  - cbn [den] in Hd. injection Hd as <-. pose proof (rpad_axis0_good Empty [] t true Ht eq_refl) as G'. destruct clip; [exact G'|]. rewrite padded_clip in G' by (change (zlen (@nil value)) with 0; lia). exact G'.
  - destruct clip; [|exact G]. destruct (to_listoffset (is64 (ListA starts stops c)) true _ _ _ _ Hd eq_refl) as (o & c'' & E & D & _). rewrite E. cbn [bind].
    exact (rpad_axis0_good _ vs t true Ht D).
  - destruct (to_byte_masked _ _ Hd ltac:(left; eauto 6)) as (m & vw & x & E & D & _). rewrite E. cbn [bind]. exact (rpad_axis0_good _ vs t clip Ht D).
  - destruct HU as [->|HU]; [exact G|]. destruct (HU c eq_refl).
Qed.
Print Assumptions C13_pad_axis0.
(** negative axes count from the innermost lists, if all branches have the same depth *)
Theorem C13_negative_axis : forall is64 rc narrow refeq mfuel clip target c d axis, axis < 0 -> uniform_depth (form_of c) = Some d -> d <= kMaxInt64 -> 0 <= d + axis ->
  forall fuel, rpad is64 rc narrow refeq mfuel clip fuel c target axis 0 = rpad is64 rc narrow refeq mfuel clip fuel c target (d + axis) 0.
Proof.
  intros is64 rc narrow refeq mfuel clip t c d axis Ha Hu Hk Hp fuel. destruct fuel; [reflexivity|].
  assert (W : axis_wrap_if_negative c axis = Ok (d + axis)).
  { rewrite (wrap_uniform c axis d Ha Hu Hk). destruct (Z.ltb_spec (d + axis) 0); [lia|reflexivity]. }
  cbn [rpad]. rewrite W, (wrap_nonneg _ (d + axis) Hp). reflexivity.
Qed.
Print Assumptions C13_negative_axis.

Local Notation run := (rpad (fun _ => true) (fun _ => 1) (fun _ => false) (fun _ _ => false) 10).

(** An UnmaskedArray ignores clip at axis 0 (UnmaskedArray.cpp:887 calls rpad_axis0(target, false)). *)
Theorem C13_unmasked_clip_refuted :
  exists c', run true 10 (Unmasked (Numpy DInt [1; 2; 3])) 1 0 0 = Ok c' /\ den c' = Some [VInt 1; VInt 2; VInt 3] /\
  padded true 1 [VInt 1; VInt 2; VInt 3] = [VInt 1].
Proof. eexists. split; [vm_compute; reflexivity|]. split; vm_compute; reflexivity. Qed.
Print Assumptions C13_unmasked_clip_refuted.
(** Without clip, a ListArray of length 0 is read out of bounds (awkward_ListArray_min_range.cpp:14 reads starts[0]); also one
    that is left empty because all its lists are missing, and a ListOffsetArray below two option-type nodes. *)
Theorem C13_empty_refuted :
  den (ListA [] [] (Numpy DInt [1])) = Some [] /\ run false 10 (ListA [] [] (Numpy DInt [1])) 1 1 0 = UB /\
  den (IndexedOption [-1] (ListA [0] [1] (Numpy DInt [1]))) = Some [VNone] /\ run false 10 (IndexedOption [-1] (ListA [0] [1] (Numpy DInt [1]))) 1 1 0 = UB /\
  den (IndexedOption [-1] (IndexedOption [1; 0] (ListOffset [0; 1; 1] (Numpy DInt [1])))) = Some [VNone] /\
  den (IndexedOption [2] (IndexedOption [1; 0; -1] (ListOffset [0; 1; 1] (Numpy DInt [1])))) = Some [VNone] /\
  run false 10 (Indexed [0] (IndexedOption [-1] (ListA [0] [1] (Numpy DInt [1])))) 1 1 0 = UB.
Proof. repeat split; vm_compute; reflexivity. Qed.
Print Assumptions C13_empty_refuted.
(** If the fields of a record array are longer than the array, padding below it changes its length (RecordArray.cpp:1422-1436
    takes the length of the shortest field). *)
Theorem C13_untrimmed_refuted :
  den (Record (Some ["x"]) 1 [ListOffset [0; 1; 2] (Numpy DInt [1; 2])]) = Some [VRec [("x", VList [VInt 1])]] /\
  exists c', run true 10 (Record (Some ["x"]) 1 [ListOffset [0; 1; 2] (Numpy DInt [1; 2])]) 1 1 0 = Ok c' /\
  den c' = Some [VRec [("x", VList [VInt 1])]; VRec [("x", VList [VInt 2])]].
Proof. split; [vm_compute; reflexivity|]. eexists. split; vm_compute; reflexivity. Qed.
Print Assumptions C13_untrimmed_refuted.

(** non-vacuity *)
Definition pad_example : content :=
  ListA [3; 0; 1] [5; 0; 3] (IndexedOption [0; -1; 2; 1; -1]
    (Record (Some ["x"; "y"]) 3 [ListA [1; 3; 3] [3; 3; 4] (Numpy DInt [9; 1; 2; 3]); BitMasked [5] true true 3 (Regular 2 0 (Numpy DInt [1; 2; 3; 4; 5; 6]))])).
Example C13_ex : exists vs, den pad_example = Some vs /\ has_lists 2 (form_of pad_example) = true /\ tidy pad_example /\ union_free (form_of pad_example) = true /\
  nonempty_lists 0 2 pad_example vs /\
  map (lift (pad false 1) 2) vs =
  [VList [VRec [("x", VList [VNone]); ("y", VNone)]; VNone]; VList [];
   VList [VNone; VRec [("x", VList [VInt 3]); ("y", VList [VInt 5; VInt 6])]]].
Proof.
  exists (values pad_example). split; [vm_compute; reflexivity|]. split; [vm_compute; reflexivity|]. split.
  - split; [discriminate|]. split; [repeat constructor; cbn; intuition discriminate|]. split; [repeat constructor|]. cbn. auto.
  - split; [reflexivity|]. split; [|vm_compute; reflexivity]. cbn. split; [|vm_compute; auto]. exists (VList [VInt 3]). split; [vm_compute; auto|discriminate].
Qed.
Example C13_ex_run : exists c', run false 10 pad_example 1 2 0 = Ok c' /\
  den c' = Some [VList [VRec [("x", VList [VNone]); ("y", VNone)]; VNone]; VList [];
   VList [VNone; VRec [("x", VList [VInt 3]); ("y", VList [VInt 5; VInt 6])]]].
Proof. eexists. split; vm_compute; reflexivity. Qed.
Example C13_ex_clip : exists c', run true 10 pad_example 1 2 0 = Ok c' /\
  den c' = Some [VList [VRec [("x", VList [VNone]); ("y", VNone)]; VNone]; VList [];
   VList [VNone; VRec [("x", VList [VInt 3]); ("y", VList [VInt 5])]]].
Proof. eexists. split; vm_compute; reflexivity. Qed.
Example C13_ex_range : has_lists 3 (form_of pad_example) = false.
Proof. reflexivity. Qed.
