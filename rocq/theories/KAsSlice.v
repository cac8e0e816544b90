(** Kernels behind arrays used as slices: boolean masks and missing values. *)
From Verif Require Import Base KCore.

(** awkward_NumpyArray_getitem_boolean_numtrue.cpp:7-17: for (i = 0; i < length; i += stride); [n] bounds the number of steps
    (a stride of 0 never ends) *)
Fixpoint numtrue_from (n : nat) (i : Z) (fromptr : list Z) (length stride numtrue : Z) : res Z :=
  if negb (i <? length) then Ok numtrue else
  match n with
  | O => UB
  | S n => let* x := rd fromptr i in numtrue_from n (i + stride) fromptr length stride (numtrue + (if x =? 0 then 0 else 1))
  end.
Definition awkward_NumpyArray_getitem_boolean_numtrue (fromptr : list Z) (length stride : Z) : res Z :=
  numtrue_from (Z.to_nat length) 0 fromptr length stride 0.

(** awkward_NumpyArray_getitem_boolean_nonzero.cpp:8-21 *)
Fixpoint nonzero_from (n : nat) (i k : Z) (toptr fromptr : list Z) (length stride : Z) : res (list Z) :=
  if negb (i <? length) then Ok toptr else
  match n with
  | O => UB
  | S n =>
      let* x := rd fromptr i in
      if x =? 0 then nonzero_from n (i + stride) k toptr fromptr length stride
      else
        let* toptr := wr toptr k i in
        nonzero_from n (i + stride) (k + 1) toptr fromptr length stride
  end.
Definition awkward_NumpyArray_getitem_boolean_nonzero (toptr fromptr : list Z) (length stride : Z) : res (list Z) :=
  nonzero_from (Z.to_nat length) 0 0 toptr fromptr length stride.

(** awkward_ListOffsetArray_getitem_adjust_offsets.cpp:8-29; the inner loop, :20-24: while (j < nonzerolength && nonzero[j] < slicestop).
    [n] bounds its steps: [j] grows in each one. *)
Fixpoint adjust_inner (n : nat) (slicestart slicestop : Z) (nonzero : list Z) (nonzerolength : Z) (j count : Z) (tononzero : list Z) : res (Z * Z * list Z) :=
  if nonzerolength <=? j then Ok (j, count, tononzero) else
  let* x := rd nonzero j in
  if negb (x <? slicestop) then Ok (j, count, tononzero) else
  match n with
  | O => UB
  | S n =>
      let* tononzero := wr tononzero j (x - slicestart) in
      adjust_inner n slicestart slicestop nonzero nonzerolength (j + 1) (count + 1) tononzero
  end.
Definition awkward_ListOffsetArray_getitem_adjust_offsets (tooffsets tononzero fromoffsets : list Z) (length : Z) (nonzero : list Z) (nonzerolength : Z)
    : res (list Z * list Z) :=
  let* o0 := rd fromoffsets 0 in
  let* tooffsets := wr tooffsets 0 o0 in
  let* st := for_ 0 length (fun i st =>
    let '(j, tooffsets, tononzero) := st in
    let* slicestart := rd fromoffsets i in
    let* slicestop := rd fromoffsets (i + 1) in
    let* r := adjust_inner (Z.to_nat nonzerolength) slicestart slicestop nonzero nonzerolength j 0 tononzero in
    let '(j, count, tononzero) := r in
    let* o := rd tooffsets i in
    let* tooffsets := wr tooffsets (i + 1) (o + count) in
    Ok (j, tooffsets, tononzero)) (0, tooffsets, tononzero) in
  let '(_, tooffsets, tononzero) := st in
  Ok (tooffsets, tononzero).

(** awkward_ListOffsetArray_getitem_adjust_offsets_index.cpp:8-48; the inner loop, :30-45 *)
Fixpoint adjust_index_inner (n : nat) (slicestart slicestop numnull : Z) (index : list Z) (indexlength : Z) (nonzero : list Z) (nonzerolength : Z)
    (k nullcount count : Z) (tononzero : list Z) : res (Z * Z * list Z) :=
  if indexlength <=? k then Ok (k, count, tononzero) else
  let* j := rd index k in
  let* go :=
    if j <? 0 then Ok (nullcount <? numnull)
    else if j <? nonzerolength then let* x := rd nonzero j in Ok (x <? slicestop)
    else Ok false in
  if negb go then Ok (k, count, tononzero) else
  match n with
  | O => UB
  | S n =>
      if j <? 0 then adjust_index_inner n slicestart slicestop numnull index indexlength nonzero nonzerolength (k + 1) (nullcount + 1) (count + 1) tononzero
      else
        let* x := rd nonzero j in
        let* tononzero := wr tononzero j (x - slicestart) in
        adjust_index_inner n slicestart slicestop numnull index indexlength nonzero nonzerolength (k + 1) nullcount (count + 1) tononzero
  end.
Definition awkward_ListOffsetArray_getitem_adjust_offsets_index (tooffsets tononzero fromoffsets : list Z) (length : Z) (index : list Z) (indexlength : Z)
    (nonzero : list Z) (nonzerolength : Z) (originalmask : list Z) : res (list Z * list Z) :=
  let* o0 := rd fromoffsets 0 in
  let* tooffsets := wr tooffsets 0 o0 in
  let* st := for_ 0 length (fun i st =>
    let '(k, tooffsets, tononzero) := st in
    let* slicestart := rd fromoffsets i in
    let* slicestop := rd fromoffsets (i + 1) in
    let* numnull := for_ slicestart slicestop (fun j numnull => let* m := rd originalmask j in Ok (numnull + (if m =? 0 then 0 else 1))) 0 in
    let* r := adjust_index_inner (Z.to_nat indexlength) slicestart slicestop numnull index indexlength nonzero nonzerolength k 0 0 tononzero in
    let '(k, count, tononzero) := r in
    let* o := rd tooffsets i in
    let* tooffsets := wr tooffsets (i + 1) (o + count) in
    Ok (k, tooffsets, tononzero)) (0, tooffsets, tononzero) in
  let '(_, tooffsets, tononzero) := st in
  Ok (tooffsets, tononzero).

(** awkward_IndexedArray_getitem_adjust_outindex.cpp:8-33 *)
Definition awkward_IndexedArray_getitem_adjust_outindex (tomask toindex tononzero fromindex : list Z) (fromindexlength : Z) (nonzero : list Z) (nonzerolength : Z)
    : res (list Z * list Z * list Z) :=
  let* st := for_ 0 fromindexlength (fun i st =>
    let '(j, k, tomask, toindex, tononzero) := st in
    let* fromval := rd fromindex i in
    let* tomask := wr tomask i (if fromval <? 0 then 1 else 0) in
    if fromval <? 0 then
      let* toindex := wr toindex k (-1) in
      Ok (j, k + 1, tomask, toindex, tononzero)
    else if j <? nonzerolength then
      let* x := rd nonzero j in
      if fromval =? x then
        let* tononzero := wr tononzero j (fromval + (k - j)) in
        let* toindex := wr toindex k j in
        Ok (j + 1, k + 1, tomask, toindex, tononzero)
      else Ok (j, k, tomask, toindex, tononzero)
    else Ok (j, k, tomask, toindex, tononzero)) (0, 0, tomask, toindex, tononzero) in
  let '(_, _, tomask, toindex, tononzero) := st in
  Ok (tomask, toindex, tononzero).

(** awkward_IndexedArray_getitem_nextcarry_outindex_mask.cpp:8-30 *)
Definition awkward_IndexedArray_getitem_nextcarry_outindex_mask (tocarry toindex fromindex : list Z) (lenindex lencontent : Z) : res (list Z * list Z) :=
  let* st := for_ 0 lenindex (fun i st =>
    let '(k, tocarry, toindex) := st in
    let* j := rd fromindex i in
    if lencontent <=? j then Err "index out of range"
    else if j <? 0 then
      let* toindex := wr toindex i (-1) in
      Ok (k, tocarry, toindex)
    else
      let* tocarry := wr tocarry k j in
      let* toindex := wr toindex i k in
      Ok (k + 1, tocarry, toindex)) (0, tocarry, toindex) in
  let '(_, tocarry, toindex) := st in Ok (tocarry, toindex).

(** awkward_ListArray_getitem_jagged_numvalid.cpp:8-31 *)
Definition awkward_ListArray_getitem_jagged_numvalid (slicestarts slicestops : list Z) (length : Z) (missing : list Z) (missinglength : Z) : res Z :=
  for_ 0 length (fun i numvalid =>
    let* slicestart := rd slicestarts i in
    let* slicestop := rd slicestops i in
    if slicestart =? slicestop then Ok numvalid
    else if slicestop <? slicestart then Err "jagged slice's stops[i] < starts[i]"
    else if missinglength <? slicestop then Err "jagged slice's offsets extend beyond its content"
    else for_ slicestart slicestop (fun j numvalid => let* m := rd missing j in Ok (numvalid + (if 0 <=? m then 1 else 0))) numvalid) 0.

(** awkward_ListArray_getitem_jagged_shrink.cpp:8-45 *)
Definition awkward_ListArray_getitem_jagged_shrink (tocarry tosmalloffsets tolargeoffsets slicestarts slicestops : list Z) (length : Z) (missing : list Z)
    : res (list Z * list Z * list Z) :=
  let* first := if length =? 0 then Ok 0 else rd slicestarts 0 in
  let* tosmalloffsets := wr tosmalloffsets 0 first in
  let* tolargeoffsets := wr tolargeoffsets 0 first in
  let* st := for_ 0 length (fun i st =>
    let '(k, tocarry, tosmalloffsets, tolargeoffsets) := st in
    let* slicestart := rd slicestarts i in
    let* slicestop := rd slicestops i in
    let* small := rd tosmalloffsets i in
    let* r :=
      if slicestart =? slicestop then Ok (k, 0, tocarry)
      else for_ slicestart slicestop (fun j st =>
        let '(k, smallcount, tocarry) := st in
        let* m := rd missing j in
        if 0 <=? m then let* tocarry := wr tocarry k j in Ok (k + 1, smallcount + 1, tocarry)
        else Ok (k, smallcount, tocarry)) (k, 0, tocarry) in
    let '(k, smallcount, tocarry) := r in
    let* tosmalloffsets := wr tosmalloffsets (i + 1) (small + smallcount) in
    let* large := rd tolargeoffsets i in
    let* tolargeoffsets := wr tolargeoffsets (i + 1) (large + (slicestop - slicestart)) in
    Ok (k, tocarry, tosmalloffsets, tolargeoffsets)) (0, tocarry, tosmalloffsets, tolargeoffsets) in
  let '(_, tocarry, tosmalloffsets, tolargeoffsets) := st in
  Ok (tocarry, tosmalloffsets, tolargeoffsets).

(** awkward_Content_getitem_next_missing_jagged_getmaskstartstop.cpp:7-28 *)
Definition awkward_Content_getitem_next_missing_jagged_getmaskstartstop (index_in offsets_in mask_out starts_out stops_out : list Z) (length : Z)
    : res (list Z * list Z * list Z) :=
  let* st := for_ 0 length (fun i st =>
    let '(k, mask_out, starts_out, stops_out) := st in
    let* start := rd offsets_in k in
    let* starts_out := wr starts_out i start in
    let* x := rd index_in i in
    if x <? 0 then
      let* mask_out := wr mask_out i (-1) in
      let* stops_out := wr stops_out i start in
      Ok (k, mask_out, starts_out, stops_out)
    else
      let* mask_out := wr mask_out i i in
      let* stop := rd offsets_in (k + 1) in
      let* stops_out := wr stops_out i stop in
      Ok (k + 1, mask_out, starts_out, stops_out)) (0, mask_out, starts_out, stops_out) in
  let '(_, mask_out, starts_out, stops_out) := st in
  Ok (mask_out, starts_out, stops_out).

(** awkward_missing_repeat.cpp:8-21 *)
Definition awkward_missing_repeat (outindex index : list Z) (indexlength repetitions regularsize : Z) : res (list Z) :=
  for_ 0 repetitions (fun i outindex =>
    for_ 0 indexlength (fun j outindex =>
      let* base := rd index j in
      wr outindex (i * indexlength + j) (base + (if 0 <=? base then i * regularsize else 0))) outindex) outindex.
