(** Kernels behind the option-type representations. *)
From Verif Require Import Base KCore.

(** awkward_IndexedArray_simplify.cpp:8-27 *)
Definition awkward_IndexedArray_simplify (toindex outerindex : list Z) (outerlength : Z) (innerindex : list Z) (innerlength : Z) : res (list Z) :=
  for_ 0 outerlength (fun i toindex =>
    let* j := rd outerindex i in
    if j <? 0 then wr toindex i (-1)
    else if innerlength <=? j then Err "index out of range"
    else let* x := rd innerindex j in wr toindex i x) toindex.

(** awkward_BitMaskedArray_to_IndexedOptionArray.cpp:8-135; the unrolled statements are a loop over the bits *)
Definition awkward_BitMaskedArray_to_IndexedOptionArray (toindex frombitmask : list Z) (bitmasklength : Z) (validwhen lsb_order : bool) : res (list Z) :=
  for_ 0 bitmasklength (fun i toindex =>
    let* byte := rd frombitmask i in
    let* st := for_ 0 8 (fun j st =>
      let '(byte, toindex) := st in
      if lsb_order then
        let* toindex := wr toindex (i*8 + j) (if Z.land byte 1 =? b2z validwhen then i*8 + j else -1) in
        Ok (Z.shiftr byte 1, toindex)
      else
        let* toindex := wr toindex (i*8 + j) (if Bool.eqb (negb (Z.land byte 128 =? 0)) validwhen then i*8 + j else -1) in
        Ok ((Z.shiftl byte 1) mod 256, toindex)) (byte, toindex) in
    Ok (snd st)) toindex.

(** awkward_ByteMaskedArray_toIndexedOptionArray.cpp:8-17 *)
Definition awkward_ByteMaskedArray_toIndexedOptionArray (toindex mask : list Z) (length : Z) (validwhen : bool) : res (list Z) :=
  for_ 0 length (fun i toindex =>
    let* m := rd mask i in
    wr toindex i (if Bool.eqb (negb (m =? 0)) validwhen then i else -1)) toindex.

(** awkward_carry_arange.cpp:8-15 *)
Definition awkward_carry_arange (toptr : list Z) (length : Z) : res (list Z) :=
  for_ 0 length (fun i toptr => wr toptr i i) toptr.

(** awkward_ByteMaskedArray_mask.cpp:8-17 *)
Definition awkward_ByteMaskedArray_mask (tomask frommask : list Z) (length : Z) (validwhen : bool) : res (list Z) :=
  for_ 0 length (fun i tomask =>
    let* m := rd frommask i in
    wr tomask i (b2z (negb (Bool.eqb (negb (m =? 0)) validwhen)))) tomask.

(** awkward_IndexedArray_mask.cpp:8-16 *)
Definition awkward_IndexedArray_mask (tomask fromindex : list Z) (length : Z) : res (list Z) :=
  for_ 0 length (fun i tomask =>
    let* x := rd fromindex i in
    wr tomask i (b2z (x <? 0))) tomask.

(** awkward_zero_mask.cpp:8-15 and awkward_one_mask.cpp:8-15 *)
Definition awkward_zero_mask (tomask : list Z) (length : Z) : res (list Z) :=
  for_ 0 length (fun i tomask => wr tomask i 0) tomask.
Definition awkward_one_mask (tomask : list Z) (length : Z) : res (list Z) :=
  for_ 0 length (fun i tomask => wr tomask i 1) tomask.

(** awkward_ByteMaskedArray_numnull.cpp:7-19 *)
Definition awkward_ByteMaskedArray_numnull (mask : list Z) (length : Z) (validwhen : bool) : res Z :=
  for_ 0 length (fun i numnull =>
    let* m := rd mask i in
    Ok (if negb (Bool.eqb (negb (m =? 0)) validwhen) then numnull + 1 else numnull)) 0.

(** awkward_ByteMaskedArray_getitem_nextcarry.cpp:8-21 *)
Definition awkward_ByteMaskedArray_getitem_nextcarry (tocarry mask : list Z) (length : Z) (validwhen : bool) : res (list Z) :=
  let* st := for_ 0 length (fun i st =>
    let '(k, tocarry) := st in
    let* m := rd mask i in
    if Bool.eqb (negb (m =? 0)) validwhen then let* tocarry := wr tocarry k i in Ok (k + 1, tocarry)
    else Ok (k, tocarry)) (0, tocarry) in
  Ok (snd st).

(** awkward_ByteMaskedArray_overlay_mask.cpp:8-20 *)
Definition awkward_ByteMaskedArray_overlay_mask (tomask theirmask mymask : list Z) (length : Z) (validwhen : bool) : res (list Z) :=
  for_ 0 length (fun i tomask =>
    let* t := rd theirmask i in
    let* m := rd mymask i in
    let theirs := negb (t =? 0) in
    let mine := negb (Bool.eqb (negb (m =? 0)) validwhen) in
    wr tomask i (b2z (theirs || mine))) tomask.

(** awkward_IndexedArray_numnull.cpp:8-19 *)
Definition awkward_IndexedArray_numnull (fromindex : list Z) (lenindex : Z) : res Z :=
  for_ 0 lenindex (fun i numnull =>
    let* x := rd fromindex i in
    Ok (if x <? 0 then numnull + 1 else numnull)) 0.

(** awkward_IndexedArray_flatten_nextcarry.cpp:8-25 *)
Definition awkward_IndexedArray_flatten_nextcarry (tocarry fromindex : list Z) (lenindex lencontent : Z) : res (list Z) :=
  let* st := for_ 0 lenindex (fun i st =>
    let '(k, tocarry) := st in
    let* j := rd fromindex i in
    if lencontent <=? j then Err "index out of range"
    else if 0 <=? j then let* tocarry := wr tocarry k j in Ok (k + 1, tocarry)
    else Ok (k, tocarry)) (0, tocarry) in
  Ok (snd st).

(** awkward_IndexedArray_getitem_nextcarry.cpp:8-25 *)
Definition awkward_IndexedArray_getitem_nextcarry (tocarry fromindex : list Z) (lenindex lencontent : Z) : res (list Z) :=
  let* st := for_ 0 lenindex (fun i st =>
    let '(k, tocarry) := st in
    let* j := rd fromindex i in
    if (j <? 0) || (lencontent <=? j) then Err "index out of range"
    else let* tocarry := wr tocarry k j in Ok (k + 1, tocarry)) (0, tocarry) in
  Ok (snd st).

(** awkward_IndexedArray_overlay_mask.cpp:8-18 *)
Definition awkward_IndexedArray_overlay_mask (toindex mask fromindex : list Z) (length : Z) : res (list Z) :=
  for_ 0 length (fun i toindex =>
    let* m := rd mask i in
    let* x := rd fromindex i in
    wr toindex i (if negb (m =? 0) then -1 else x)) toindex.
