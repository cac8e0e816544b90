(** Padding: rpad and rpad_and_clip.  [clip] tells them apart.  Widths of the offsets are not modelled: the 32-bit classes keep
    the new offsets in 32 bits. *)
From Verif Require Import Base Content KCore Core KConvert Convert KOption Option KAxis Axis Combinations KMerge Merge KPad.

(** an allocation Index64(n): a negative size is not defined *)
Definition allocz (n : Z) : res (list Z) := if n <? 0 then UB else Ok (alloc n).

(** Content::rpad_axis0, Content.cpp:1275-1292 *)
Definition rpad_axis0 (c : content) (target : Z) (clip : bool) : res content :=
  if negb clip && (target <? length_ c) then Ok c
  else
    let* index := allocz target in
    let* index := awkward_index_rpad_and_clip_axis0 index target (length_ c) in
    simplify_optiontype (IndexedOption index c).

(** ListArray.cpp:1321-1368 *)
Definition ListArray_rpad (starts stops : list Z) (c' : content) (target : Z) : res content :=
  let* min := awkward_ListArray_min_range starts stops (zlen starts) in
  if target <? min then Ok (ListA starts stops c')
  else
    let* tolength := awkward_ListArray_rpad_and_clip_length_axis1 starts stops target (zlen starts) in
    let* index := allocz tolength in
    let* st := awkward_ListArray_rpad_axis1 index starts stops (alloc (zlen starts)) (alloc (zlen starts)) target (zlen starts) in
    let '(index, tostarts, tostops) := st in
    let* next := simplify_optiontype (IndexedOption index c') in
    mkListA tostarts tostops next.
(** ListOffsetArray.cpp:1262-1288 *)
Definition ListOffsetArray_rpad (offsets : list Z) (c' : content) (target : Z) : res content :=
  let* st := awkward_ListOffsetArray_rpad_length_axis1 (alloc (zlen offsets)) offsets (zlen offsets - 1) target in
  let '(tolength, tooffsets) := st in
  let* outindex := allocz tolength in
  let* outindex := awkward_ListOffsetArray_rpad_axis1 outindex offsets (zlen offsets - 1) target in
  let* next := simplify_optiontype (IndexedOption outindex c') in
  mkListOffset tooffsets next.
(** ListOffsetArray.cpp:1307-1337; the starts and stops computed first are not used *)
Definition ListOffsetArray_rpad_and_clip (offsets : list Z) (c' : content) (target : Z) : res content :=
  let n := zlen offsets - 1 in
  let* _ := awkward_index_rpad_and_clip_axis1 (alloc n) (alloc n) target n in
  let* outindex := allocz (target * n) in
  let* outindex := awkward_ListOffsetArray_rpad_and_clip_axis1 outindex offsets n target in
  let* next := simplify_optiontype (IndexedOption outindex c') in
  mkRegular target n next.
(** RegularArray.cpp:1023-1041 *)
Definition RegularArray_rpad_and_clip (size : Z) (len : Z) (c' : content) (target : Z) : res content :=
  let* index := allocz (len * target) in
  let* index := awkward_RegularArray_rpad_and_clip_axis1 index target size len in
  let* next := simplify_optiontype (IndexedOption index c') in
  mkRegular target len next.

(** at an option-type node one level above the lists, e.g. IndexedArray.cpp:2099-2113 *)
Definition option_rpad (rec : content -> res content) (c : content) : res content :=
  let* mask := bytemask c in
  let* index := awkward_IndexedOptionArray_rpad_and_clip_mask_axis1 (alloc (zlen mask)) mask (zlen mask) in
  let* p := project c in
  let* next := rec p in
  simplify_optiontype (IndexedOption index next).

Section Pad.
Variable is64 : content -> bool.
Variable rc : Z -> Z.
Variable narrow : content -> bool.
Variable refeq : content -> content -> bool.
Variable mfuel : nat.

(** rpad: BitMaskedArray.cpp:943-945, ByteMaskedArray.cpp:1030-1060, EmptyArray.cpp:533-542, IndexedArray.cpp:2090-2126,
    ListArray.cpp:1315-1378, ListOffsetArray.cpp:1254-1295, NumpyArray.cpp:3135-3154, RecordArray.cpp:1413-1437,
    RegularArray.cpp:991-1012, UnionArray.cpp:1966-1983, UnmaskedArray.cpp:864-878.
    rpad_and_clip: BitMaskedArray.cpp:948-952, ByteMaskedArray.cpp:1063-1095, EmptyArray.cpp:545-556, IndexedArray.cpp:2130-2167,
    ListArray.cpp:1382-1386, ListOffsetArray.cpp:1299-1344, NumpyArray.cpp:3157-3173, RecordArray.cpp:1440-1467,
    RegularArray.cpp:1015-1051, UnionArray.cpp:1987-2007, UnmaskedArray.cpp:881-897. *)
Fixpoint rpad (clip : bool) (fuel : nat) (c : content) (target axis depth : Z) : res content :=
  match fuel with
  | O => UB
  | S fuel =>
      let* posaxis := axis_wrap_if_negative c axis in
      let masked (c : content) (mask : list Z) (vw : bool) (c' : content) : res content :=
        if posaxis =? depth then rpad_axis0 c target clip
        else if posaxis =? depth + 1 then option_rpad (fun p => rpad clip fuel p target posaxis depth) c
        else
          let* next := rpad clip fuel c' target posaxis depth in
          mkByteMasked mask vw next in
      let listoffset (offsets : list Z) (c' : content) : res content :=
        if posaxis =? depth then rpad_axis0 (ListOffset offsets c') target clip
        else if posaxis =? depth + 1 then
          if clip then ListOffsetArray_rpad_and_clip offsets c' target else ListOffsetArray_rpad offsets c' target
        else
          let* next := rpad clip fuel c' target posaxis (depth + 1) in
          mkListOffset offsets next in
      match c with
      | Empty =>
          if negb (posaxis =? depth) then Err "axis exceeds the depth of this array"
          else rpad_axis0 c target true
      | Numpy _ _ =>
          if negb (posaxis =? depth) then Err "axis exceeds the depth of this array"
          else if negb clip && (target <? length_ c) then Ok c
          else rpad_axis0 c target true
      | ListA starts stops c' =>
          if clip then
            let* lo := toListOffsetArray64 (is64 c) true c in
            match lo with
            | ListOffset offsets c'' => listoffset offsets c''
            | _ => UB
            end
          else if posaxis =? depth then rpad_axis0 c target false
          else if posaxis =? depth + 1 then ListArray_rpad starts stops c' target
          else
            let* next := rpad clip fuel c' target posaxis (depth + 1) in
            mkListA starts stops next
      | ListOffset offsets c' => listoffset offsets c'
      | Regular size zl c' =>
          if posaxis =? depth then rpad_axis0 c target clip
          else if posaxis =? depth + 1 then
            if negb clip && (target <? size) then Ok c
            else RegularArray_rpad_and_clip size (length_ c) c' target
          else
            let* next := rpad clip fuel c' target posaxis (depth + 1) in
            mkRegular size (length_ c) next
      | Indexed index c' =>
          if posaxis =? depth then rpad_axis0 c target clip
          else if posaxis =? depth + 1 then
            let* p := project c in
            rpad clip fuel p target posaxis depth
          else
            let* next := rpad clip fuel c' target posaxis depth in
            Ok (Indexed index next)
      | IndexedOption index c' =>
          if posaxis =? depth then rpad_axis0 c target clip
          else if posaxis =? depth + 1 then option_rpad (fun p => rpad clip fuel p target posaxis depth) c
          else
            let* next := rpad clip fuel c' target posaxis depth in
            Ok (IndexedOption index next)
      | ByteMasked mask vw c' => masked c mask vw c'
      | BitMasked _ _ _ _ _ =>
          let* bm := toByteMaskedArray c in
          match bm with
          | ByteMasked mask vw c' => masked bm mask vw c'
          | _ => UB
          end
      | Unmasked c' =>
          if posaxis =? depth then rpad_axis0 c target false
          else if posaxis =? depth + 1 then rpad clip fuel c' target posaxis depth
          else
            let* next := rpad clip fuel c' target posaxis depth in
            Ok (Unmasked next)
      | Record keys len cs =>
          if posaxis =? depth then rpad_axis0 c target clip
          else
            let* contents := mapres (fun x => rpad clip fuel x target posaxis depth) cs in
            match contents with
            | [] => mkRecord keys len contents
            | _ => mkRecord keys (minlength contents) contents
            end
      | Union tags index cs =>
          if posaxis =? depth then rpad_axis0 c target clip
          else
            let* contents := mapres (fun x => rpad clip fuel x target posaxis depth) cs in
            let* _ := mkUnion tags index contents in
            simplify_uniontype rc narrow refeq mfuel true false tags index contents
      end
  end.
End Pad.
