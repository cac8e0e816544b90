(** Conversions between list representations. *)
From Verif Require Import Base Content KCore Core KConvert.

(** compact_offsets64: ListArray.cpp:299-310, ListOffsetArray.cpp:292-309 (int64 offsets) and 313-323
    (the other widths), RegularArray.cpp:278-288.  [is64]: whether the offsets are int64 already. *)
Definition compact_offsets64 (is64 start_at_zero : bool) (c : content) : res (list Z) :=
  match c with
  | ListA starts stops _ =>
      awkward_ListArray_compact_offsets (alloc (zlen starts + 1)) starts stops (zlen starts)
  | ListOffset offsets _ =>
      let* o0 := rd offsets 0 in
      if is64 && (negb start_at_zero || (o0 =? 0)) then Ok offsets
      else awkward_ListOffsetArray_compact_offsets (alloc (zlen offsets)) offsets (zlen offsets - 1)
  | Regular size _ _ => awkward_RegularArray_compact_offsets (alloc (length_ c + 1)) (length_ c) size
  | _ => UB
  end.

(** the check at the top of every broadcast_tooffsets64 *)
Definition starts_at_0 (offsets : list Z) (k : unit -> res content) : res content :=
  if zlen offsets =? 0 then Err "broadcast_tooffsets64 can only be used with offsets that start at 0" else
  let* o0 := rd offsets 0 in
  if negb (o0 =? 0) then Err "broadcast_tooffsets64 can only be used with offsets that start at 0" else k tt.

(** broadcast_tooffsets64: ListArray.cpp:314-350, ListOffsetArray.cpp:327-366, RegularArray.cpp:291-339 *)
Definition broadcast_tooffsets64 (c : content) (offsets : list Z) : res content :=
  match c with
  | ListA starts stops c' => starts_at_0 offsets (fun _ =>
      if zlen starts <? zlen offsets - 1 then Err "cannot broadcast ListArray" else
      let* carrylen := rd offsets (zlen offsets - 1) in
      let* nextcarry := awkward_ListArray_broadcast_tooffsets (alloc carrylen) offsets (zlen offsets) starts stops (length_ c') in
      let* nextcontent := carry c' nextcarry true in
      mkListOffset offsets nextcontent)
  | ListOffset offsets' c' => starts_at_0 offsets (fun _ =>
      if zlen offsets' - 1 <? zlen offsets - 1 then Err "cannot broadcast ListOffsetArray" else
      let* starts := make_starts offsets' in
      let* stops := make_stops offsets' in
      let* carrylen := rd offsets (zlen offsets - 1) in
      let* nextcarry := awkward_ListArray_broadcast_tooffsets (alloc carrylen) offsets (zlen offsets) starts stops (length_ c') in
      let* nextcontent := carry c' nextcarry true in
      mkListOffset offsets nextcontent)
  | Regular size _ c' => starts_at_0 offsets (fun _ =>
      if negb (zlen offsets - 1 =? length_ c) then Err "cannot broadcast RegularArray" else
      if size =? 1 then
        let* carrylen := rd offsets (zlen offsets - 1) in
        let* nextcarry := awkward_RegularArray_broadcast_tooffsets_size1 (alloc carrylen) offsets (zlen offsets) in
        let* nextcontent := carry c' nextcarry true in
        mkListOffset offsets nextcontent
      else
        let* _ := awkward_RegularArray_broadcast_tooffsets offsets (zlen offsets) size in
        mkListOffset offsets c')
  | _ => UB
  end.

(** toListOffsetArray64: ListArray.cpp:364-367, ListOffsetArray.cpp:392-402, RegularArray.cpp:347-356 *)
Definition toListOffsetArray64 (is64 start_at_zero : bool) (c : content) : res content :=
  match c with
  | ListOffset offsets _ =>
      let* o0 := rd offsets 0 in
      if is64 && (negb start_at_zero || (o0 =? 0)) then Ok c
      else let* offsets' := compact_offsets64 is64 start_at_zero c in broadcast_tooffsets64 c offsets'
  | _ => let* offsets := compact_offsets64 is64 start_at_zero c in broadcast_tooffsets64 c offsets
  end.

(** toRegularArray: ListArray.cpp:354-360, ListOffsetArray.cpp:370-388, RegularArray.cpp:342-344.
    offsets_.getitem_at(0) and getitem_at(length - 1) are in range because offsets are never empty. *)
Definition ListOffset_toRegularArray (offsets : list Z) (c : content) : res content :=
  let* start := rd offsets 0 in
  let* stop := rd offsets (zlen offsets - 1) in
  let* content := getitem_range_nowrap c start stop in
  let* size := awkward_ListOffsetArray_toRegularArray offsets (zlen offsets) in
  mkRegular size (zlen offsets - 1) content.
Definition toRegularArray (is64 : bool) (c : content) : res content :=
  match c with
  | ListA _ _ _ =>
      let* offsets := compact_offsets64 is64 true c in
      let* lo := broadcast_tooffsets64 c offsets in
      match lo with
      | ListOffset offsets' c' => ListOffset_toRegularArray offsets' c'
      | _ => UB
      end
  | ListOffset offsets c' => ListOffset_toRegularArray offsets c'
  | Regular _ _ _ => Ok c
  | _ => UB
  end.
