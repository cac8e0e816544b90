(** Kernels behind the conversions between list representations. *)
From Verif Require Import Base.

(** awkward_ListArray_compact_offsets.cpp:8-23 *)
Definition awkward_ListArray_compact_offsets (tooffsets fromstarts fromstops : list Z) (length : Z) : res (list Z) :=
  let* tooffsets := wr tooffsets 0 0 in
  for_ 0 length (fun i tooffsets =>
    let* start := rd fromstarts i in
    let* stop := rd fromstops i in
    if stop <? start then Err "stops[i] < starts[i]" else
    let* t := rd tooffsets i in
    wr tooffsets (i + 1) (t + (stop - start))) tooffsets.

(** awkward_ListOffsetArray_compact_offsets.cpp:8-18 *)
Definition awkward_ListOffsetArray_compact_offsets (tooffsets fromoffsets : list Z) (length : Z) : res (list Z) :=
  let* diff := rd fromoffsets 0 in
  let* tooffsets := wr tooffsets 0 0 in
  for_ 0 length (fun i tooffsets =>
    let* x := rd fromoffsets (i + 1) in
    wr tooffsets (i + 1) (x - diff)) tooffsets.

(** awkward_RegularArray_compact_offsets.cpp:8-17 *)
Definition awkward_RegularArray_compact_offsets (tooffsets : list Z) (length size : Z) : res (list Z) :=
  let* tooffsets := wr tooffsets 0 0 in
  for_ 0 length (fun i tooffsets => wr tooffsets (i + 1) ((i + 1)*size)) tooffsets.

(** awkward_ListArray_broadcast_tooffsets.cpp:8-35 *)
Definition awkward_ListArray_broadcast_tooffsets (tocarry fromoffsets : list Z) (offsetslength : Z) (fromstarts fromstops : list Z) (lencontent : Z)
  : res (list Z) :=
  let* st := for_ 0 (offsetslength - 1) (fun i st =>
    let* start := rd fromstarts i in
    let* stop := rd fromstops i in
    if negb (start =? stop) && (lencontent <? stop) then Err "stops[i] > len(content)" else
    let* o1 := rd fromoffsets (i + 1) in
    let* o0 := rd fromoffsets i in
    let count := o1 - o0 in
    if count <? 0 then Err "broadcast's offsets must be monotonically increasing"
    else if negb (stop - start =? count) then Err "cannot broadcast nested list"
    else for_ start stop (fun j st =>
           let '(k, tocarry) := st in
           let* tocarry := wr tocarry k j in
           Ok (k + 1, tocarry)) st) (0, tocarry) in
  Ok (snd st).

(** awkward_RegularArray_broadcast_tooffsets.cpp:8-22 *)
Definition awkward_RegularArray_broadcast_tooffsets (fromoffsets : list Z) (offsetslength size : Z) : res unit :=
  for_ 0 (offsetslength - 1) (fun i _ =>
    let* o1 := rd fromoffsets (i + 1) in
    let* o0 := rd fromoffsets i in
    let count := o1 - o0 in
    if count <? 0 then Err "broadcast's offsets must be monotonically increasing"
    else if negb (size =? count) then Err "cannot broadcast nested list"
    else Ok tt) tt.

(** awkward_RegularArray_broadcast_tooffsets_size1.cpp:8-24 *)
Definition awkward_RegularArray_broadcast_tooffsets_size1 (tocarry fromoffsets : list Z) (offsetslength : Z) : res (list Z) :=
  let* st := for_ 0 (offsetslength - 1) (fun i st =>
    let* o1 := rd fromoffsets (i + 1) in
    let* o0 := rd fromoffsets i in
    let count := o1 - o0 in
    if count <? 0 then Err "broadcast's offsets must be monotonically increasing"
    else for_ 0 count (fun _ st =>
           let '(k, tocarry) := st in
           let* tocarry := wr tocarry k i in
           Ok (k + 1, tocarry)) st) (0, tocarry) in
  Ok (snd st).

(** awkward_ListOffsetArray_toRegularArray.cpp:8-29 *)
Definition awkward_ListOffsetArray_toRegularArray (fromoffsets : list Z) (offsetslength : Z) : res Z :=
  let* size := for_ 0 (offsetslength - 1) (fun i size =>
    let* o1 := rd fromoffsets (i + 1) in
    let* o0 := rd fromoffsets i in
    let count := o1 - o0 in
    if count <? 0 then Err "offsets must be monotonically increasing"
    else if size =? -1 then Ok count
    else if negb (size =? count) then Err "cannot convert to RegularArray because subarray lengths are not regular"
    else Ok size) (-1) in
  Ok (if size =? -1 then 0 else size).
