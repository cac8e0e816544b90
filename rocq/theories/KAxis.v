(** Kernels behind the operations along an axis. *)
From Verif Require Import Base KCore.

(** awkward_ByteMaskedArray_getitem_nextcarry_outindex.cpp:8-26 *)
Definition awkward_ByteMaskedArray_getitem_nextcarry_outindex (tocarry outindex mask : list Z) (length : Z) (validwhen : bool) : res (list Z * list Z) :=
  let* st := for_ 0 length (fun i st =>
    let '(k, tocarry, outindex) := st in
    let* m := rd mask i in
    if Bool.eqb (negb (m =? 0)) validwhen then
      let* tocarry := wr tocarry k i in
      let* outindex := wr outindex i k in
      Ok (k + 1, tocarry, outindex)
    else
      let* outindex := wr outindex i (-1) in
      Ok (k, tocarry, outindex)) (0, tocarry, outindex) in
  let '(_, tocarry, outindex) := st in Ok (tocarry, outindex).

(** awkward_IndexedArray_getitem_nextcarry_outindex.cpp:8-30 *)
Definition awkward_IndexedArray_getitem_nextcarry_outindex (tocarry toindex fromindex : list Z) (lenindex lencontent : Z) : res (list Z * list Z) :=
  let* st := for_ 0 lenindex (fun i st =>
    let '(k, tocarry, toindex) := st in
    let* j := rd fromindex i in
    if lencontent <=? j then Err "index out of range"
    else if j <? 0 then
      let* toindex := wr toindex i (-1) in
      Ok (k, tocarry, toindex)
    else
      let* tocarry := wr tocarry k j in
      let* toindex := wr toindex i k in
      Ok (k + 1, tocarry, toindex)) (0, tocarry, toindex) in
  let '(_, tocarry, toindex) := st in Ok (tocarry, toindex).

(** awkward_localindex.cpp:8-15 *)
Definition awkward_localindex (toindex : list Z) (length : Z) : res (list Z) :=
  for_ 0 length (fun i toindex => wr toindex i i) toindex.

(** awkward_ListArray_localindex.cpp:8-20 *)
Definition awkward_ListArray_localindex (toindex offsets : list Z) (length : Z) : res (list Z) :=
  for_ 0 length (fun i toindex =>
    let* start := rd offsets i in
    let* stop := rd offsets (i + 1) in
    for_ start stop (fun j toindex => wr toindex j (j - start)) toindex) toindex.

(** awkward_RegularArray_localindex.cpp:8-18 *)
Definition awkward_RegularArray_localindex (toindex : list Z) (size length : Z) : res (list Z) :=
  for_ 0 length (fun i toindex =>
    for_ 0 size (fun j toindex => wr toindex (i*size + j) j) toindex) toindex.
