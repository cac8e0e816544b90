(** Kernels behind getitem_at, getitem_range, carry and validityerror. *)
From Verif Require Import Base.

(** awkward_Index_iscontiguous.cpp:8-22.  The early return becomes a flag in the loop state. *)
Definition awkward_Index_iscontiguous (fromindex : list Z) (length : Z) : res bool :=
  let* st := for_ 0 length (fun i st =>
    let '(result, expecting) := (st : bool * Z) in
    if negb result then Ok st else
    let* x := rd fromindex i in
    if negb (x =? expecting) then Ok (false, expecting) else Ok (true, expecting + 1)) (true, 0) in
  Ok (fst st).

(** awkward_ListArray_getitem_carry.cpp:8-24 *)
Definition awkward_ListArray_getitem_carry (tostarts tostops fromstarts fromstops fromcarry : list Z) (lenstarts lencarry : Z)
  : res (list Z * list Z) :=
  for_ 0 lencarry (fun i st =>
    let '(tostarts, tostops) := st in
    let* c := rd fromcarry i in
    if lenstarts <=? c then Err "index out of range" else
    let* a := rd fromstarts c in
    let* tostarts := wr tostarts i a in
    let* b := rd fromstops c in
    let* tostops := wr tostops i b in
    Ok (tostarts, tostops)) (tostarts, tostops).

(** awkward_IndexedArray_getitem_carry.cpp:8-21 *)
Definition awkward_IndexedArray_getitem_carry (toindex fromindex fromcarry : list Z) (lenindex lencarry : Z) : res (list Z) :=
  for_ 0 lencarry (fun i toindex =>
    let* c := rd fromcarry i in
    if lenindex <=? c then Err "index out of range" else
    let* x := rd fromindex c in
    wr toindex i x) toindex.

(** awkward_ByteMaskedArray_getitem_carry.cpp:8-21 *)
Definition awkward_ByteMaskedArray_getitem_carry (tomask frommask : list Z) (lenmask : Z) (fromcarry : list Z) (lencarry : Z) : res (list Z) :=
  for_ 0 lencarry (fun i tomask =>
    let* c := rd fromcarry i in
    if lenmask <=? c then Err "index out of range" else
    let* x := rd frommask c in
    wr tomask i x) tomask.

(** awkward_RegularArray_getitem_carry.cpp:8-19 *)
Definition awkward_RegularArray_getitem_carry (tocarry fromcarry : list Z) (lencarry size : Z) : res (list Z) :=
  for_ 0 lencarry (fun i tocarry =>
    for_ 0 size (fun j tocarry =>
      let* c := rd fromcarry i in
      wr tocarry (i*size + j) (c*size + j)) tocarry) tocarry.

(** awkward_NumpyArray_getitem_next_null.cpp:8-18; one element per stride *)
Definition awkward_NumpyArray_getitem_next_null (toptr fromptr : list Z) (len : Z) (pos : list Z) : res (list Z) :=
  for_ 0 len (fun i toptr =>
    let* p := rd pos i in
    let* x := rd fromptr p in
    wr toptr i x) toptr.

(** awkward_Index_carry.cpp:8-22 (note: j > lenfromindex, not >=) *)
Definition awkward_index_carry (toindex fromindex carry : list Z) (lenfromindex length : Z) : res (list Z) :=
  for_ 0 length (fun i toindex =>
    let* j := rd carry i in
    if lenfromindex <? j then Err "index out of range" else
    let* x := rd fromindex j in
    wr toindex i x) toindex.

(** awkward_index_carry_nocheck.cpp:8-17 *)
Definition awkward_index_carry_nocheck (toindex fromindex carry : list Z) (length : Z) : res (list Z) :=
  for_ 0 length (fun i toindex =>
    let* j := rd carry i in
    let* x := rd fromindex j in
    wr toindex i x) toindex.

Definition b2z (b : bool) : Z := if b then 1 else 0.

(** awkward_BitMaskedArray_to_ByteMaskedArray.cpp:7-54.  The eight unrolled statements are a loop over
    the eight bits; [byte] is shifted in a uint8_t. *)
Definition awkward_BitMaskedArray_to_ByteMaskedArray
    (tobytemask frombitmask : list Z) (bitmasklength : Z) (validwhen lsb_order : bool) : res (list Z) :=
  for_ 0 bitmasklength (fun i tobytemask =>
    let* byte := rd frombitmask i in
    let* st := for_ 0 8 (fun j st =>
      let '(byte, tobytemask) := st in
      if lsb_order then
        let* tobytemask := wr tobytemask (i*8 + j) (b2z (negb (Z.land byte 1 =? b2z validwhen))) in
        Ok (Z.shiftr byte 1, tobytemask)
      else
        let* tobytemask := wr tobytemask (i*8 + j) (b2z (negb (Bool.eqb (negb (Z.land byte 128 =? 0)) validwhen))) in
        Ok ((Z.shiftl byte 1) mod 256, tobytemask)) (byte, tobytemask) in
    Ok (snd st)) tobytemask.

(** awkward_ListArray_validity.cpp:8-29 *)
Definition awkward_ListArray_validity (starts stops : list Z) (length lencontent : Z) : res unit :=
  for_ 0 length (fun i _ =>
    let* start := rd starts i in
    let* stop := rd stops i in
    if negb (start =? stop) then
      if stop <? start then Err "start[i] > stop[i]"
      else if start <? 0 then Err "start[i] < 0"
      else if lencontent <? stop then Err "stop[i] > len(content)"
      else Ok tt
    else Ok tt) tt.

(** awkward_IndexedArray_validity.cpp:8-25 *)
Definition awkward_IndexedArray_validity (index : list Z) (length lencontent : Z) (isoption : bool) : res unit :=
  for_ 0 length (fun i _ =>
    let* idx := rd index i in
    if negb isoption && (idx <? 0) then Err "index[i] < 0"
    else if lencontent <=? idx then Err "index[i] >= len(content)"
    else Ok tt) tt.

(** awkward_UnionArray_validity.cpp:8-32 *)
Definition awkward_UnionArray_validity (tags index : list Z) (length numcontents : Z) (lencontents : list Z) : res unit :=
  for_ 0 length (fun i _ =>
    let* tag := rd tags i in
    let* idx := rd index i in
    if tag <? 0 then Err "tags[i] < 0"
    else if idx <? 0 then Err "index[i] < 0"
    else if numcontents <=? tag then Err "tags[i] >= len(contents)"
    else
      let* lencontent := rd lencontents tag in
      if lencontent <=? idx then Err "index[i] >= len(content[tags[i]])" else Ok tt) tt.
