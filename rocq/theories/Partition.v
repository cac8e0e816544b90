(** Partitioned arrays: libawkward/partition/PartitionedArray.cpp and IrregularlyPartitionedArray.cpp. *)
From Verif Require Import Base Content KRange KCore Core Convert Option KMerge Merge Getitem.

(** PartitionedArray (PartitionedArray.h:19-) with the stops of IrregularlyPartitionedArray (IrregularlyPartitionedArray.h:17-).
    The constructors PartitionedArray.cpp:14-22 and IrregularlyPartitionedArray.cpp:12-22 *)
Record parray : Type := PArray { partitions : list content; pstops : list Z }.
Definition mkPArray (ps : list content) (stops : list Z) : res parray :=
  if zlen ps =? 0 then Err "PartitionedArray must have at least one partition"
  else if negb (zlen ps =? zlen stops) then Err "IrregularlyPartitionedArray stops must have the same length as its partitions"
  else Ok (PArray ps stops).

Section Partition.
(** the width of index buffers, as in Getitem.v *)
Variable is64 : content -> bool.

(** IrregularlyPartitionedArray::length: IrregularlyPartitionedArray.cpp:149-152 *)
Definition plength (p : parray) : res Z := rd (pstops p) (zlen (pstops p) - 1).

(** IrregularlyPartitionedArray::partitionid_index_at: IrregularlyPartitionedArray.cpp:43-66; the loop from partition [i] on *)
Fixpoint partition_from (stops : list Z) (i start at_ : Z) : Z * Z :=
  match stops with
  | [] => (i, 0)
  | stop :: t => if at_ <? stop then (i, at_ - start) else partition_from t (i + 1) stop at_
  end.
Definition partitionid_index_at (p : parray) (at_ : Z) : Z * Z :=
  if at_ <? 0 then (-1, -1) else partition_from (pstops p) 0 0 at_.

(** PartitionedArray::getitem_at and getitem_at_nowrap: PartitionedArray.cpp:88-111 *)
Definition pgetitem_at (p : parray) (at_ : Z) : res item :=
  let* length := plength p in
  let regular_at := if at_ <? 0 then at_ + length else at_ in
  if negb ((0 <=? regular_at) && (regular_at <? length)) then Err "index out of range" else
  let '(partitionid, index) := partitionid_index_at p regular_at in
  let* c := rd (partitions p) partitionid in
  getitem_at_nowrap c index.

(** one SliceRange applied to a partition: slice.append(SliceRange(a, b, step)); p->getitem(slice).
    The result of a range is always an array.  [getitem_next] is entered twice: for the range and for the end of the slice. *)
Definition slice_piece (c : content) (a b step : Z) : res content :=
  let* it := getitem is64 2 c [SRange a b step] in
  match it with IArray c' => Ok c' | _ => UB end.

(** the end of both loops: PartitionedArray.cpp:190-194 and 243-247 *)
Definition push_piece (c : content) (st : Z * list content * list Z * Z) (offset : Z) : Z * list content * list Z * Z :=
  let '(_, parts, stops, total) := st in
  let total := total + length_ c in
  if 0 <? length_ c then (offset, parts ++ [c], stops ++ [total], total) else (offset, parts, stops, total).

(** PartitionedArray::getitem_range_nowrap: PartitionedArray.cpp:128-261.  C++'s % is [Z.rem]. *)
Definition pgetitem_range_nowrap (p : parray) (start stop step : Z) : res parray :=
  let n := zlen (partitions p) in
  let '(first, index_start) := partitionid_index_at p start in
  let '(last, index_stop) := partitionid_index_at p stop in
  let* st :=
    (if 0 <? step then
       for_ first (Z.min n (last + 1)) (fun partitionid st =>
         let '(offset, _, _, _) := st in
         let* c := rd (partitions p) partitionid in
         let plen := length_ c in
         let piece a b := if step =? 1 then getitem_range_nowrap c a b else slice_piece c a b step in
         if (partitionid =? first) && (partitionid =? last) then
           let* q := piece index_start index_stop in Ok (push_piece q st offset)
         else if partitionid =? first then
           let* q := piece index_start plen in
           Ok (push_piece q st (if step =? 1 then offset else Z.rem (Z.rem (index_start - plen) step + step) step))
         else if partitionid =? last then
           let* q := (if step =? 1 then getitem_range_nowrap c 0 index_stop else slice_piece c offset index_stop step) in Ok (push_piece q st offset)
         else if negb (step =? 1) then
           let* q := slice_piece c offset plen step in
           Ok (push_piece q st (Z.rem (Z.rem (offset - plen) step + step) step))
         else Ok (push_piece c st offset)) (0, [], [], 0)
     else if step <? 0 then
       for_ 0 (first - Z.max 0 last + 1) (fun k st =>
         let partitionid := first - k in
         let '(offset, _, _, _) := st in
         let* c := rd (partitions p) partitionid in
         let plen := length_ c in
         let '(a, b, offset) :=
           if (partitionid =? first) && (partitionid =? last) then (index_start, index_stop, offset)
           else if partitionid =? first then (index_start, - plen - 1, Z.rem (Z.rem (-1 - index_start) (- step) + - step) (- step))
           else if partitionid =? last then (plen - 1 - offset, index_stop, offset)
           else (plen - 1 - offset, - plen - 1, Z.rem (Z.rem (-1 - (plen - 1 - offset)) (- step) + - step) (- step)) in
         let a := if a <? 0 then - plen - 1 else a in
         let b := if b <? 0 then - plen - 1 else b in
         let* q := slice_piece c a b step in
         Ok (push_piece q st offset)) (0, [], [], 0)
     else Err "slice step must not be zero") in
  let '(_, parts, stops, _) := st in
  match parts with
  | [] =>
      let* c := rd (partitions p) 0 in
      let* nothing := getitem_nothing c in
      mkPArray [nothing] (stops ++ [0])
  | _ => mkPArray parts stops
  end.

(** PartitionedArray::getitem_range: PartitionedArray.cpp:113-126 *)
Definition pgetitem_range (p : parray) (start stop step : Z) : res parray :=
  let* length := plength p in
  let regular_step := if step =? kSliceNone then 1 else step in
  let '(regular_start, regular_stop) :=
    regularize_rangeslice start stop (0 <? step) (negb (start =? kSliceNone)) (negb (stop =? kSliceNone)) length in
  pgetitem_range_nowrap p regular_start regular_stop regular_step.

(** ** repartition *)
Variable rc : Z -> Z.
Variable narrow : content -> bool.
Variable refeq : content -> content -> bool.
Variable mfuel : nat.

(** IrregularlyPartitionedArray.cpp:107-126 *)
Definition join_piece (dst piece : content) : res content :=
  let* dst := (if negb (mergeable false dst piece) then merge_as_union dst piece else merge rc narrow mfuel dst piece) in
  match dst with
  | Union tags index cs => simplify_uniontype rc narrow refeq mfuel true false tags index cs
  | _ => Ok dst
  end.

(** the while loop: IrregularlyPartitionedArray.cpp:86-127; [dst = None] is the null pointer *)
Fixpoint fill_partition (fuel : nat) (parts : list content) (partitionid index length : Z) (dst : option content) : res (content * Z * Z) :=
  match fuel with
  | O => UB
  | S fuel =>
      match dst with
      | Some d => if length_ d <? length then fill_step fuel parts partitionid index length dst else Ok (d, partitionid, index)
      | None => fill_step fuel parts partitionid index length dst
      end
  end
with fill_step (fuel : nat) (parts : list content) (partitionid index length : Z) (dst : option content) : res (content * Z * Z) :=
  match fuel with
  | O => UB
  | S fuel =>
      let* src := rd parts partitionid in
      let available := length_ src - index in
      let desired := match dst with None => length | Some d => length - length_ d end in
      let* r := (if available <=? desired then let* q := getitem_range_nowrap src index (length_ src) in Ok (q, partitionid + 1, 0)
                 else let* q := getitem_range_nowrap src index (index + desired) in Ok (q, partitionid, index + desired)) in
      let '(piece, partitionid, index) := r in
      let* dst := match dst with None => Ok piece | Some d => join_piece d piece end in
      fill_partition fuel parts partitionid index length (Some dst)
  end.

(** IrregularlyPartitionedArray::repartition: IrregularlyPartitionedArray.cpp:68-133.  stops.back() of an empty vector is undefined. *)
Definition repartition (fuel : nat) (p : parray) (stops : list Z) : res parray :=
  if (if list_eq_dec Z.eq_dec stops (pstops p) then true else false) then Ok p else
  let* mine := plength p in
  let* theirs := rd stops (zlen stops - 1) in
  if negb (theirs =? mine) then Err "cannot repartition array of length" else
  let* st := for_ 0 (zlen stops) (fun i st =>
    let '(partitionid, index, parts) := st in
    let* stop := rd stops i in
    let* length := (if i =? 0 then Ok stop else let* prev := rd stops (i - 1) in Ok (stop - prev)) in
    let* r := fill_partition fuel (partitions p) partitionid index length None in
    let '(dst, partitionid, index) := r in
    Ok (partitionid, index, parts ++ [dst])) (0, 0, []) in
  let '(_, _, parts) := st in
  mkPArray parts stops.
End Partition.
