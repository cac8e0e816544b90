(** Kernels behind padding (rpad, rpad_and_clip). *)
From Verif Require Import Base.

(** awkward_IndexedOptionArray_rpad_and_clip_mask_axis1.cpp:8-23 *)
Definition awkward_IndexedOptionArray_rpad_and_clip_mask_axis1 (toindex frommask : list Z) (length : Z) : res (list Z) :=
  let* st := for_ 0 length (fun i st =>
    let '(count, toindex) := st in
    let* m := rd frommask i in
    if negb (m =? 0) then
      let* toindex := wr toindex i (-1) in
      Ok (count, toindex)
    else
      let* toindex := wr toindex i count in
      Ok (count + 1, toindex)) (0, toindex) in
  Ok (snd st).

(** awkward_ListArray_min_range.cpp:8-20 *)
Definition awkward_ListArray_min_range (fromstarts fromstops : list Z) (lenstarts : Z) : res Z :=
  let* stop := rd fromstops 0 in
  let* start := rd fromstarts 0 in
  for_ 1 lenstarts (fun i shorter =>
    let* stop := rd fromstops i in
    let* start := rd fromstarts i in
    let rangeval := stop - start in
    Ok (if shorter <? rangeval then shorter else rangeval)) (stop - start).

(** awkward_ListArray_rpad_and_clip_length_axis1.cpp:8-21 *)
Definition awkward_ListArray_rpad_and_clip_length_axis1 (fromstarts fromstops : list Z) (target lenstarts : Z) : res Z :=
  for_ 0 lenstarts (fun i length =>
    let* stop := rd fromstops i in
    let* start := rd fromstarts i in
    let rangeval := stop - start in
    Ok (length + (if rangeval <? target then target else rangeval))) 0.

(** awkward_ListArray_rpad_axis1.cpp:8-30; the state is (offset, toindex, tostarts, tostops) *)
Definition awkward_ListArray_rpad_axis1 (toindex fromstarts fromstops tostarts tostops : list Z) (target length : Z) : res (list Z * list Z * list Z) :=
  let* st := for_ 0 length (fun i st =>
    let '(offset, toindex, tostarts, tostops) := st in
    let* tostarts := wr tostarts i offset in
    let* stop := rd fromstops i in
    let* start := rd fromstarts i in
    let rangeval := stop - start in
    let* toindex := for_ 0 rangeval (fun j toindex => wr toindex (offset + j) (start + j)) toindex in
    let* toindex := for_ rangeval target (fun j toindex => wr toindex (offset + j) (-1)) toindex in
    let* tostart := rd tostarts i in
    let offset := if rangeval <? target then tostart + target else tostart + rangeval in
    let* tostops := wr tostops i offset in
    Ok (offset, toindex, tostarts, tostops)) (0, toindex, tostarts, tostops) in
  let '(_, toindex, tostarts, tostops) := st in Ok (toindex, tostarts, tostops).

(** awkward_ListOffsetArray_rpad_and_clip_axis1.cpp:8-24 *)
Definition awkward_ListOffsetArray_rpad_and_clip_axis1 (toindex fromoffsets : list Z) (length target : Z) : res (list Z) :=
  for_ 0 length (fun i toindex =>
    let* b := rd fromoffsets (i + 1) in
    let* a := rd fromoffsets i in
    let rangeval := b - a in
    let shorter := if target <? rangeval then target else rangeval in
    let* toindex := for_ 0 shorter (fun j toindex => wr toindex (i * target + j) (a + j)) toindex in
    for_ shorter target (fun j toindex => wr toindex (i * target + j) (-1)) toindex) toindex.

(** awkward_ListOffsetArray_rpad_axis1.cpp:8-27 *)
Definition awkward_ListOffsetArray_rpad_axis1 (toindex fromoffsets : list Z) (fromlength target : Z) : res (list Z) :=
  let* st := for_ 0 fromlength (fun i st =>
    let* b := rd fromoffsets (i + 1) in
    let* a := rd fromoffsets i in
    let rangeval := b - a in
    let* st := for_ 0 rangeval (fun j st => let '(count, toindex) := st in let* toindex := wr toindex count (a + j) in Ok (count + 1, toindex)) st in
    for_ rangeval target (fun j st => let '(count, toindex) := st in let* toindex := wr toindex count (-1) in Ok (count + 1, toindex)) st) (0, toindex) in
  Ok (snd st).

(** awkward_ListOffsetArray_rpad_length_axis1.cpp:8-26; returns (tolength, tooffsets) *)
Definition awkward_ListOffsetArray_rpad_length_axis1 (tooffsets fromoffsets : list Z) (fromlength target : Z) : res (Z * list Z) :=
  let* tooffsets := wr tooffsets 0 0 in
  for_ 0 fromlength (fun i st =>
    let '(length, tooffsets) := st in
    let* b := rd fromoffsets (i + 1) in
    let* a := rd fromoffsets i in
    let rangeval := b - a in
    let longer := if target <? rangeval then rangeval else target in
    let* o := rd tooffsets i in
    let* tooffsets := wr tooffsets (i + 1) (o + longer) in
    Ok (length + longer, tooffsets)) (0, tooffsets).

(** awkward_RegularArray_rpad_and_clip_axis1.cpp:8-23 *)
Definition awkward_RegularArray_rpad_and_clip_axis1 (toindex : list Z) (target size length : Z) : res (list Z) :=
  let shorter := if target <? size then target else size in
  for_ 0 length (fun i toindex =>
    let* toindex := for_ 0 shorter (fun j toindex => wr toindex (i * target + j) (i * size + j)) toindex in
    for_ shorter target (fun j toindex => wr toindex (i * target + j) (-1)) toindex) toindex.

(** awkward_index_rpad_and_clip_axis0.cpp:8-20 *)
Definition awkward_index_rpad_and_clip_axis0 (toindex : list Z) (target length : Z) : res (list Z) :=
  let shorter := if target <? length then target else length in
  let* toindex := for_ 0 shorter (fun i toindex => wr toindex i i) toindex in
  for_ shorter target (fun i toindex => wr toindex i (-1)) toindex.

(** awkward_index_rpad_and_clip_axis1.cpp:8-20 *)
Definition awkward_index_rpad_and_clip_axis1 (tostarts tostops : list Z) (target length : Z) : res (list Z * list Z) :=
  let* st := for_ 0 length (fun i st =>
    let '(offset, tostarts, tostops) := st in
    let* tostarts := wr tostarts i offset in
    let* tostops := wr tostops i (offset + target) in
    Ok (offset + target, tostarts, tostops)) (0, tostarts, tostops) in
  let '(_, tostarts, tostops) := st in Ok (tostarts, tostops).
