(** Model of range slicing: kernel-utils.cpp and the range kernels. *)
From Verif Require Import Base.

(** src/awkward/common.h: kSliceNone = kMaxInt64 + 1 = 2^63 - 1, the encoding of an absent bound. *)
Definition kSliceNone : Z := 9223372036854775807.
Definition int64_max : Z := 9223372036854775807.
Definition int64_min : Z := -9223372036854775808.
(** signed 64-bit addition: overflow is undefined behaviour *)
Definition add64 (a b : Z) : res Z :=
  if (int64_min <=? a + b) && (a + b <=? int64_max) then Ok (a + b) else UB.

(** src/cpu-kernels/kernel-utils.cpp:109-141.  The C++ updates *start and *stop in
    place; here each assignment is a [let]. *)
Definition regularize_rangeslice (start stop : Z) (posstep hasstart hasstop : bool) (length : Z) : Z * Z :=
  if posstep then
    let start := if negb hasstart then 0 else if start <? 0 then start + length else start in
    let start := if start <? 0 then 0 else start in
    let start := if length <? start then length else start in
    let stop := if negb hasstop then length else if stop <? 0 then stop + length else stop in
    let stop := if stop <? 0 then 0 else stop in
    let stop := if length <? stop then length else stop in
    let stop := if stop <? start then start else stop in
    (start, stop)
  else
    let start := if negb hasstart then length - 1 else if start <? 0 then start + length else start in
    let start := if start <? -1 then -1 else start in
    let start := if length - 1 <? start then length - 1 else start in
    let stop := if negb hasstop then -1 else if stop <? 0 then stop + length else stop in
    let stop := if stop <? -1 then -1 else stop in
    let stop := if length - 1 <? stop then length - 1 else stop in
    let stop := if start <? stop then start else stop in
    (start, stop).

(** for (int64_t j = j0;  j < hi;  j += step) body(j), and its mirror image with j > lo.
    [fuel] bounds the iterations; running out of it answers [UB] so no theorem can rely on it. *)
Fixpoint for_up {S} (fuel : nat) (j hi step : Z) (body : Z -> S -> res S) (s : S) : res S :=
  if j <? hi then
    match fuel with
    | O => UB
    | Datatypes.S fuel' =>
      let* s := body j s in
      let* j' := add64 j step in
      for_up fuel' j' hi step body s
    end
  else Ok s.
Fixpoint for_down {S} (fuel : nat) (j lo step : Z) (body : Z -> S -> res S) (s : S) : res S :=
  if lo <? j then
    match fuel with
    | O => UB
    | Datatypes.S fuel' =>
      let* s := body j s in
      let* j' := add64 j step in
      for_down fuel' j' lo step body s
    end
  else Ok s.
Definition for_range {S} (j j' step : Z) (body : Z -> S -> res S) (s : S) : res S :=
  if 0 <? step then for_up (Z.to_nat (j' - j)) j j' step body s
  else for_down (Z.to_nat (j - j')) j j' step body s.

(** src/cpu-kernels/awkward_ListArray_getitem_next_range_carrylength.cpp:9-38 *)
Definition awkward_ListArray_getitem_next_range_carrylength
    (fromstarts fromstops : list Z) (lenstarts start stop step : Z) : res Z :=
  for_ 0 lenstarts (fun i carrylength =>
    let* b := rd fromstops i in
    let* a := rd fromstarts i in
    let length := b - a in
    let '(regular_start, regular_stop) :=
      regularize_rangeslice start stop (0 <? step)
        (negb (start =? kSliceNone)) (negb (stop =? kSliceNone)) length in
    for_range regular_start regular_stop step (fun _ n => Ok (n + 1)) carrylength) 0.

(** src/cpu-kernels/awkward_ListArray_getitem_next_range.cpp:9-49.
    The step>0 and step<=0 copies of the outer loop are written once. *)
Definition awkward_ListArray_getitem_next_range
    (tooffsets tocarry fromstarts fromstops : list Z) (lenstarts start stop step : Z)
  : res (list Z * list Z) :=
  let* tooffsets := wr tooffsets 0 0 in
  let* out := for_ 0 lenstarts (fun i st =>
    let '(k, tooffsets, tocarry) := st in
    let* b := rd fromstops i in
    let* a := rd fromstarts i in
    let length := b - a in
    let '(regular_start, regular_stop) :=
      regularize_rangeslice start stop (0 <? step)
        (negb (start =? kSliceNone)) (negb (stop =? kSliceNone)) length in
    let* st := for_range regular_start regular_stop step (fun j st =>
        let '(k, tocarry) := st in
        let* a := rd fromstarts i in
        let* tocarry := wr tocarry k (a + j) in
        Ok (k + 1, tocarry)) (k, tocarry) in
    let '(k, tocarry) := st in
    let* tooffsets := wr tooffsets (i + 1) k in
    Ok (k, tooffsets, tocarry)) (0, tooffsets, tocarry) in
  let '(_, tooffsets, tocarry) := out in
  Ok (tooffsets, tocarry).

(** src/libawkward/array/RegularArray.cpp:1382-1405: number of items kept in each row *)
Definition RegularArray_range_nextsize (start stop step size : Z) : Z * Z :=
  let '(regular_start, regular_stop) :=
    regularize_rangeslice start stop (0 <? step)
      (negb (start =? kSliceNone)) (negb (stop =? kSliceNone)) size in
  let regular_step := Z.abs step in
  let nextsize :=
    if (0 <? step) && (0 <? regular_stop - regular_start) then
      let diff := regular_stop - regular_start in
      let q := Z.quot diff regular_step in
      if negb (Z.rem diff regular_step =? 0) then q + 1 else q
    else if (step <? 0) && (regular_stop - regular_start <? 0) then
      let diff := regular_start - regular_stop in
      let q := Z.quot diff regular_step in
      if negb (Z.rem diff regular_step =? 0) then q + 1 else q
    else 0 in
  (regular_start, nextsize).

(** src/cpu-kernels/awkward_RegularArray_getitem_next_range.cpp:9-21 *)
Definition awkward_RegularArray_getitem_next_range
    (tocarry : list Z) (regular_start step length size nextsize : Z) : res (list Z) :=
  for_ 0 length (fun i tocarry =>
    for_ 0 nextsize (fun j tocarry =>
      wr tocarry (i*nextsize + j) (i*size + regular_start + j*step)) tocarry) tocarry.
