(** C01: range slices follow Python slice semantics.

    The specification is [py_slice] (SpecSlice): the positions of s[start:stop:step].
    Absent bounds are encoded as 2^63-1, decoded by [opt64]. *)
From Verif Require Import Base SpecSlice KRange PRange.

(** Slicing the outermost dimension, array[start:stop]. *)
Theorem C01_getitem_range : forall start stop len, 0 <= len ->
  let '(a, b) := regularize_rangeslice start stop true
     (negb (start =? kSliceNone)) (negb (stop =? kSliceNone)) len in
  0 <= a <= b /\ b <= len /\ zseq a b = py_slice (opt64 start) (opt64 stop) 1 len.
Proof. exact regularize_step1. Qed.
Print Assumptions C01_getitem_range.
Example C01_getitem_range_ex :
  regularize_rangeslice (-3) kSliceNone true true false 5 = (2, 5) /\
  py_slice (Some (-3)) None 1 5 = [2; 3; 4].
Proof. split; reflexivity. Qed.

(** Positions selected by Python slices are always inside the sequence. *)
Theorem C01_in_bounds : forall start stop step len p,
  0 <= len -> step <> 0 -> In p (py_slice start stop step len) -> 0 <= p < len.
Proof. exact py_slice_in_range. Qed.
Print Assumptions C01_in_bounds.
Example C01_in_bounds_ex : In 4 (py_slice None (Some (-100)) (-2) 5).
Proof. now left. Qed.

(** Slicing every list of a list array, array[:, start:stop:step]: for lists [starts[i], stops[i])
    of at most [maxlen] elements the first kernel computes the number of elements kept and the second,
    given output buffers of that size and arbitrary contents, fills them with the positions selected
    in each list and the offsets delimiting them.  [range_ok]: step is not zero and step plus or minus the list
    length stays within 64 bits. *)
Theorem C01_list_range_count : forall start stop step maxlen starts stops,
  zlen starts <= zlen stops -> range_ok step maxlen ->
  (forall a b, In (a, b) (combine starts stops) -> 0 <= b - a <= maxlen) ->
  awkward_ListArray_getitem_next_range_carrylength starts stops (zlen starts) start stop step
  = Ok (zlen (concat (map (fun ab => py_slice (opt64 start) (opt64 stop) step (snd ab - fst ab))
                          (combine starts stops)))).
Proof. exact carrylength_spec. Qed.
Print Assumptions C01_list_range_count.

Theorem C01_list_range : forall start stop step maxlen starts stops tooffsets tocarry,
  zlen starts <= zlen stops -> range_ok step maxlen ->
  (forall a b, In (a, b) (combine starts stops) -> 0 <= b - a <= maxlen) ->
  zlen tooffsets = zlen starts + 1 ->
  zlen tocarry = zlen (concat (map (fun ab => py_slice (opt64 start) (opt64 stop) step (snd ab - fst ab))
                                   (combine starts stops))) ->
  awkward_ListArray_getitem_next_range tooffsets tocarry starts stops (zlen starts) start stop step
  = Ok (offsets_of (map (fun ab => zlen (py_slice (opt64 start) (opt64 stop) step (snd ab - fst ab))) (combine starts stops)),
        concat (map (fun ab => map (Z.add (fst ab)) (py_slice (opt64 start) (opt64 stop) step (snd ab - fst ab)))
                    (combine starts stops))).
Proof. exact list_range_spec. Qed.
Print Assumptions C01_list_range.
Example C01_list_range_ex :
  range_ok (-2) 10 /\
  awkward_ListArray_getitem_next_range (alloc 4) (alloc 5) [5; 0; 10] [9; 0; 15] 3 kSliceNone kSliceNone (-2)
  = Ok ([0; 2; 2; 5], [8; 6; 14; 12; 10]).
Proof. split; [unfold range_ok, int64_min, int64_max; lia|vm_compute; reflexivity]. Qed.

(** Slicing every row of a regular array (rows of [size] elements). *)
Theorem C01_regular_range : forall start stop step size length tocarry,
  0 <= size -> 0 <= length -> step <> 0 ->
  let '(a, n) := RegularArray_range_nextsize start stop step size in
  zlen tocarry = length * n ->
  awkward_RegularArray_getitem_next_range tocarry a step length size n
  = Ok (concat (map (fun i => map (Z.add (i * size)) (py_slice (opt64 start) (opt64 stop) step size)) (zseq 0 length))).
Proof. exact regular_range_spec. Qed.
Print Assumptions C01_regular_range.
Example C01_regular_range_ex :
  RegularArray_range_nextsize 3 (-100) (-2) 4 = (3, 2) /\
  awkward_RegularArray_getitem_next_range (alloc 4) 3 (-2) 2 4 2 = Ok [3; 1; 7; 5].
Proof. split; vm_compute; reflexivity. Qed.

(** Without [range_ok] the claim is false of the code: `j += step` overflows for a huge step
    (awkward_ListArray_getitem_next_range.cpp:28), which is undefined behaviour, although
    Python selects one element. *)
Theorem C01_huge_step_refuted : exists starts stops start step,
  py_slice (Some start) None step 3 = [2] /\ starts = [0] /\ stops = [3] /\
  int64_min <= step <= int64_max /\
  awkward_ListArray_getitem_next_range_carrylength starts stops 1 start kSliceNone step = UB.
Proof.
  exists [0], [3], 2, 9223372036854775806. repeat split; try (vm_compute; congruence); vm_compute; reflexivity.
Qed.
Print Assumptions C01_huge_step_refuted.
