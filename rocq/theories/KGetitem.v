(** Kernels behind slices with more than one item and behind jagged slices. *)
From Verif Require Import Base KCore.

(** wrapping a negative index and rejecting one outside of a list of [length] elements: the lines repeated in the
    kernels below, e.g. awkward_ListArray_getitem_next_at.cpp:16-22 *)
Definition regular_at (at_ length : Z) : res Z :=
  let regular := if at_ <? 0 then at_ + length else at_ in
  if (0 <=? regular) && (regular <? length) then Ok regular else Err "index out of range".

(** awkward_ListArray_getitem_next_at.cpp:8-26 *)
Definition awkward_ListArray_getitem_next_at (tocarry fromstarts fromstops : list Z) (lenstarts at_ : Z) : res (list Z) :=
  for_ 0 lenstarts (fun i tocarry =>
    let* stop := rd fromstops i in
    let* start := rd fromstarts i in
    let* k := regular_at at_ (stop - start) in
    wr tocarry i (start + k)) tocarry.

(** awkward_RegularArray_getitem_next_at.cpp:8-24 *)
Definition awkward_RegularArray_getitem_next_at (tocarry : list Z) (at_ length size : Z) : res (list Z) :=
  let* k := regular_at at_ size in
  for_ 0 length (fun i tocarry => wr tocarry i (i * size + k)) tocarry.

(** awkward_ListArray_getitem_next_array.cpp:8-39 *)
Definition awkward_ListArray_getitem_next_array (tocarry toadvanced fromstarts fromstops fromarray : list Z) (lenstarts lenarray lencontent : Z)
    : res (list Z * list Z) :=
  for_ 0 lenstarts (fun i st =>
    let* start := rd fromstarts i in
    let* stop := rd fromstops i in
    if stop <? start then Err "stops[i] < starts[i]"
    else if negb (start =? stop) && (lencontent <? stop) then Err "stops[i] > len(content)"
    else for_ 0 lenarray (fun j st =>
      let '(tocarry, toadvanced) := st in
      let* x := rd fromarray j in
      let* k := regular_at x (stop - start) in
      let* tocarry := wr tocarry (i * lenarray + j) (start + k) in
      let* toadvanced := wr toadvanced (i * lenarray + j) j in
      Ok (tocarry, toadvanced)) st) (tocarry, toadvanced).

(** awkward_ListArray_getitem_next_array_advanced.cpp:8-38 *)
Definition awkward_ListArray_getitem_next_array_advanced (tocarry toadvanced fromstarts fromstops fromarray fromadvanced : list Z) (lenstarts lencontent : Z)
    : res (list Z * list Z) :=
  for_ 0 lenstarts (fun i st =>
    let '(tocarry, toadvanced) := st in
    let* start := rd fromstarts i in
    let* stop := rd fromstops i in
    if stop <? start then Err "stops[i] < starts[i]"
    else if negb (start =? stop) && (lencontent <? stop) then Err "stops[i] > len(content)"
    else
      let* a := rd fromadvanced i in
      let* x := rd fromarray a in
      let* k := regular_at x (stop - start) in
      let* tocarry := wr tocarry i (start + k) in
      let* toadvanced := wr toadvanced i i in
      Ok (tocarry, toadvanced)) (tocarry, toadvanced).

(** awkward_RegularArray_getitem_next_array_regularize.cpp:8-23 *)
Definition awkward_RegularArray_getitem_next_array_regularize (toarray fromarray : list Z) (lenarray size : Z) : res (list Z) :=
  for_ 0 lenarray (fun j toarray =>
    let* x := rd fromarray j in
    let* k := regular_at x size in
    wr toarray j k) toarray.

(** awkward_RegularArray_getitem_next_array.cpp:8-22 *)
Definition awkward_RegularArray_getitem_next_array (tocarry toadvanced fromarray : list Z) (length lenarray size : Z) : res (list Z * list Z) :=
  for_ 0 length (fun i st =>
    for_ 0 lenarray (fun j st =>
      let '(tocarry, toadvanced) := st in
      let* x := rd fromarray j in
      let* tocarry := wr tocarry (i * lenarray + j) (i * size + x) in
      let* toadvanced := wr toadvanced (i * lenarray + j) j in
      Ok (tocarry, toadvanced)) st) (tocarry, toadvanced).

(** awkward_RegularArray_getitem_next_array_advanced.cpp:8-21 *)
Definition awkward_RegularArray_getitem_next_array_advanced (tocarry toadvanced fromadvanced fromarray : list Z) (length size : Z) : res (list Z * list Z) :=
  for_ 0 length (fun i st =>
    let '(tocarry, toadvanced) := st in
    let* a := rd fromadvanced i in
    let* x := rd fromarray a in
    let* tocarry := wr tocarry i (i * size + x) in
    let* toadvanced := wr toadvanced i i in
    Ok (tocarry, toadvanced)) (tocarry, toadvanced).

(** awkward_ListArray_getitem_next_range_counts.cpp:8-17 *)
Definition awkward_ListArray_getitem_next_range_counts (fromoffsets : list Z) (lenstarts : Z) : res Z :=
  for_ 0 lenstarts (fun i total =>
    let* b := rd fromoffsets (i + 1) in
    let* a := rd fromoffsets i in
    Ok (total + b - a)) 0.

(** awkward_ListArray_getitem_next_range_spreadadvanced.cpp:8-20 *)
Definition awkward_ListArray_getitem_next_range_spreadadvanced (toadvanced fromadvanced fromoffsets : list Z) (lenstarts : Z) : res (list Z) :=
  for_ 0 lenstarts (fun i toadvanced =>
    let* b := rd fromoffsets (i + 1) in
    let* a := rd fromoffsets i in
    for_ 0 (b - a) (fun j toadvanced =>
      let* x := rd fromadvanced i in
      wr toadvanced (a + j) x) toadvanced) toadvanced.

(** awkward_RegularArray_getitem_next_range_spreadadvanced.cpp:8-19 *)
Definition awkward_RegularArray_getitem_next_range_spreadadvanced (toadvanced fromadvanced : list Z) (length nextsize : Z) : res (list Z) :=
  for_ 0 length (fun i toadvanced =>
    for_ 0 nextsize (fun j toadvanced =>
      let* x := rd fromadvanced i in
      wr toadvanced (i * nextsize + j) x) toadvanced) toadvanced.

(** awkward_RegularArray_getitem_jagged_expand.cpp:8-21; returns (multistarts, multistops) *)
Definition awkward_RegularArray_getitem_jagged_expand (multistarts multistops singleoffsets : list Z) (regularsize regularlength : Z) : res (list Z * list Z) :=
  for_ 0 regularlength (fun i st =>
    for_ 0 regularsize (fun j st =>
      let '(multistarts, multistops) := st in
      let* a := rd singleoffsets j in
      let* multistarts := wr multistarts (i * regularsize + j) a in
      let* b := rd singleoffsets (j + 1) in
      let* multistops := wr multistops (i * regularsize + j) b in
      Ok (multistarts, multistops)) st) (multistarts, multistops).

(** awkward_ListArray_getitem_jagged_expand.cpp:8-33; returns (multistarts, multistops, tocarry) *)
Definition awkward_ListArray_getitem_jagged_expand (multistarts multistops singleoffsets tocarry fromstarts fromstops : list Z) (jaggedsize length : Z)
    : res (list Z * list Z * list Z) :=
  for_ 0 length (fun i st =>
    let* start := rd fromstarts i in
    let* stop := rd fromstops i in
    if stop <? start then Err "stops[i] < starts[i]"
    else if negb (stop - start =? jaggedsize) then Err "cannot fit jagged slice into nested list"
    else for_ 0 jaggedsize (fun j st =>
      let '(multistarts, multistops, tocarry) := st in
      let* a := rd singleoffsets j in
      let* multistarts := wr multistarts (i * jaggedsize + j) a in
      let* b := rd singleoffsets (j + 1) in
      let* multistops := wr multistops (i * jaggedsize + j) b in
      let* tocarry := wr tocarry (i * jaggedsize + j) (start + j) in
      Ok (multistarts, multistops, tocarry)) st) (multistarts, multistops, tocarry).

(** awkward_ListArray_getitem_jagged_carrylen.cpp:8-18 *)
Definition awkward_ListArray_getitem_jagged_carrylen (slicestarts slicestops : list Z) (sliceouterlen : Z) : res Z :=
  for_ 0 sliceouterlen (fun i carrylen =>
    let* b := rd slicestops i in
    let* a := rd slicestarts i in
    Ok (carrylen + (b - a))) 0.

(** awkward_ListArray_getitem_jagged_apply.cpp:8-55; returns (tooffsets, tocarry) *)
Definition awkward_ListArray_getitem_jagged_apply (tooffsets tocarry slicestarts slicestops : list Z) (sliceouterlen : Z)
    (sliceindex : list Z) (sliceinnerlen : Z) (fromstarts fromstops : list Z) (contentlen : Z) : res (list Z * list Z) :=
  let* st := for_ 0 sliceouterlen (fun i st =>
    let '(k, tooffsets, tocarry) := st in
    let* slicestart := rd slicestarts i in
    let* slicestop := rd slicestops i in
    let* tooffsets := wr tooffsets i k in
    let* kc :=
      (if negb (slicestart =? slicestop) then
         if slicestop <? slicestart then Err "jagged slice's stops[i] < starts[i]"
         else if sliceinnerlen <? slicestop then Err "jagged slice's offsets extend beyond its content"
         else
           let* start := rd fromstarts i in
           let* stop := rd fromstops i in
           if stop <? start then Err "stops[i] < starts[i]"
           else if negb (start =? stop) && (contentlen <? stop) then Err "stops[i] > len(content)"
           else for_ slicestart slicestop (fun j st =>
             let '(k, tocarry) := st in
             let* x := rd sliceindex j in
             let* index := regular_at x (stop - start) in
             let* tocarry := wr tocarry k (start + index) in
             Ok (k + 1, tocarry)) (k, tocarry)
       else Ok (k, tocarry)) in
    let '(k, tocarry) := kc in
    let* tooffsets := wr tooffsets (i + 1) k in
    Ok (k, tooffsets, tocarry)) (0, tooffsets, tocarry) in
  let '(_, tooffsets, tocarry) := st in Ok (tooffsets, tocarry).

(** awkward_ListArray_getitem_jagged_descend.cpp:8-32 *)
Definition awkward_ListArray_getitem_jagged_descend (tooffsets slicestarts slicestops : list Z) (sliceouterlen : Z) (fromstarts fromstops : list Z) : res (list Z) :=
  let* first := (if sliceouterlen =? 0 then Ok 0 else rd slicestarts 0) in
  let* tooffsets := wr tooffsets 0 first in
  for_ 0 sliceouterlen (fun i tooffsets =>
    let* sb := rd slicestops i in
    let* sa := rd slicestarts i in
    let* b := rd fromstops i in
    let* a := rd fromstarts i in
    if negb (sb - sa =? b - a) then Err "jagged slice inner length differs from array inner length"
    else
      let* t := rd tooffsets i in
      wr tooffsets (i + 1) (t + (b - a))) tooffsets.

(** awkward_MaskedArray_getitem_next_jagged_project.cpp:8-24; returns (starts_out, stops_out) *)
Definition awkward_MaskedArray_getitem_next_jagged_project (index starts_in stops_in starts_out stops_out : list Z) (length : Z) : res (list Z * list Z) :=
  let* st := for_ 0 length (fun i st =>
    let '(k, starts_out, stops_out) := st in
    let* x := rd index i in
    if 0 <=? x then
      let* a := rd starts_in i in
      let* starts_out := wr starts_out k a in
      let* b := rd stops_in i in
      let* stops_out := wr stops_out k b in
      Ok (k + 1, starts_out, stops_out)
    else Ok (k, starts_out, stops_out)) (0, starts_out, stops_out) in
  let '(_, starts_out, stops_out) := st in Ok (starts_out, stops_out).
