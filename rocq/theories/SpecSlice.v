(** Specification of slices, from the Python manual ("slice objects",
    Sequence Types: s[i:j:k]).  No reference to the model. *)
From Verif Require Import Base.

(** Where s[start:stop:step] begins and ends for a sequence of length [len]:
    an absent bound is the end of the sequence in the direction of travel,
    a negative bound counts from the end, and both are clipped. *)
Definition py_start (start : option Z) (step len : Z) : Z :=
  if 0 <? step then
    match start with
    | None => 0
    | Some x => if x <? 0 then Z.max 0 (x + len) else Z.min x len
    end
  else
    match start with
    | None => len - 1
    | Some x => if x <? 0 then Z.max (-1) (x + len) else Z.min x (len - 1)
    end.
Definition py_stop (stop : option Z) (step len : Z) : Z :=
  if 0 <? step then
    match stop with
    | None => len
    | Some x => if x <? 0 then Z.max 0 (x + len) else Z.min x len
    end
  else
    match stop with
    | None => -1
    | Some x => if x <? 0 then Z.max (-1) (x + len) else Z.min x (len - 1)
    end.

(** Number of items in range(i, j, step). *)
Definition py_range_len (i j step : Z) : Z :=
  if 0 <? step then (if i <? j then (j - i - 1) / step + 1 else 0)
  else (if j <? i then (i - j - 1) / (- step) + 1 else 0).
(** range(i, j, step) *)
Definition py_range (i j step : Z) : list Z :=
  map (fun n => i + n * step) (zseq 0 (py_range_len i j step)).
(** The positions selected by s[start:stop:step], in order. *)
Definition py_slice (start stop : option Z) (step len : Z) : list Z :=
  py_range (py_start start step len) (py_stop stop step len) step.

(** Slice bounds arrive as 64-bit integers in which 2^63-1 (kSliceNone) stands for "absent". *)
Definition opt64 (x : Z) : option Z := if x =? 9223372036854775807 then None else Some x.

(** [picks l is r]: r is the list of the elements of l at the positions [is]. *)
Definition picks {A} (l : list A) (positions : list Z) (r : list A) : Prop :=
  map Some r = map (nthZ l) positions.

(** Cumulative sums starting with 0: the offsets of consecutive lists of these lengths. *)
Fixpoint offsets_from (a : Z) (lens : list Z) : list Z :=
  a :: match lens with [] => [] | n :: t => offsets_from (a + n) t end.
Definition offsets_of (lens : list Z) : list Z := offsets_from 0 lens.
