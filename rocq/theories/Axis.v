(** Operations that take an axis: finding the axis, and localindex.

    The recursion of these methods goes through carried or projected contents, so the functions take a
    recursion bound [fuel]; running out of it is [UB], and the theorems give a bound that is always enough.
    [is64 c] says whether the list node [c] has 64-bit offsets (the classes for the other widths
    take another path through compact_offsets64). *)
From Verif Require Import Base Content KCore Core KConvert Convert KOption Option KAxis.

(** purelist_depth: EmptyArray.cpp:385-387, NumpyArray.cpp:1496-1498, ListArray.cpp:841-847, ListOffsetArray.cpp:839-845,
    RegularArray.cpp:731-737, IndexedArray.cpp:1477-1479, ByteMaskedArray.cpp:789-791, BitMaskedArray.cpp:753-755,
    UnmaskedArray.cpp:658-660, RecordArray.cpp:963-965, UnionArray.cpp:1336-1349.  Strings are not modelled. *)
Fixpoint purelist_depth (c : content) : Z :=
  match c with
  | Empty | Numpy _ _ => 1
  | ListA _ _ c' | ListOffset _ c' | Regular _ _ c' => purelist_depth c' + 1
  | Indexed _ c' | IndexedOption _ c' | ByteMasked _ _ c' | BitMasked _ _ _ _ c' | Unmasked c' => purelist_depth c'
  | Record _ _ _ => 1
  | Union _ _ cs =>
      match map purelist_depth cs with
      | [] => -1
      | out :: rest => if forallb (fun d => out =? d) rest then out else -1
      end
  end.

(** minmax_depth: EmptyArray.cpp:390-392, NumpyArray.cpp:1501-1504, ListArray.cpp:851-859, ListOffsetArray.cpp:849-857,
    RegularArray.cpp:740-748, IndexedArray.cpp:1483-1485, ByteMaskedArray.cpp:794-796, BitMaskedArray.cpp:758-760,
    UnmaskedArray.cpp:663-665, RecordArray.cpp:968-984, UnionArray.cpp:1353-1369 *)
Definition kMaxInt64 : Z := 9223372036854775806. (* util.h: kMaxInt64 *)
Fixpoint minmax_depth (c : content) : Z * Z :=
  match c with
  | Empty | Numpy _ _ => (1, 1)
  | ListA _ _ c' | ListOffset _ c' | Regular _ _ c' => let '(a, b) := minmax_depth c' in (a + 1, b + 1)
  | Indexed _ c' | IndexedOption _ c' | ByteMasked _ _ c' | BitMasked _ _ _ _ c' | Unmasked c' => minmax_depth c'
  | Record _ _ cs | Union _ _ cs =>
      match map minmax_depth cs with
      | [] => (0, 0)
      | mms => fold_left (fun acc mm => (if fst mm <? fst acc then fst mm else fst acc,
                                         if snd acc <? snd mm then snd mm else snd acc)) mms (kMaxInt64, 0)
      end
  end.

(** Content::axis_wrap_if_negative: Content.cpp:1686-1711 *)
Definition axis_wrap_if_negative (c : content) (axis : Z) : res Z :=
  if 0 <=? axis then Ok axis
  else
    let '(mindepth, maxdepth) := minmax_depth c in
    let depth := purelist_depth c in
    if (mindepth =? depth) && (maxdepth =? depth) then
      let posaxis := depth + axis in
      if posaxis <? 0 then Err "axis exceeds the depth of this array" else Ok posaxis
    else if mindepth + axis =? 0 then Err "axis exceeds the min depth of this array"
    else Ok axis.

(** nextcarry_outindex: ByteMaskedArray.cpp:1471-1492, IndexedArray.cpp:2829-2850; returns (nextcarry, outindex) *)
Definition ByteMasked_nextcarry_outindex (mask : list Z) (vw : bool) : res (list Z * list Z) :=
  let* numnull := awkward_ByteMaskedArray_numnull mask (zlen mask) vw in
  awkward_ByteMaskedArray_getitem_nextcarry_outindex (alloc (zlen mask - numnull)) (alloc (zlen mask)) mask (zlen mask) vw.
Definition IndexedOption_nextcarry_outindex (index : list Z) (c' : content) : res (list Z * list Z) :=
  let* numnull := awkward_IndexedArray_numnull index (zlen index) in
  awkward_IndexedArray_getitem_nextcarry_outindex (alloc (zlen index - numnull)) (alloc (zlen index)) index (zlen index) (length_ c').

(** What every operation along an axis does at an option-type node: carry the elements that are present
    (content_.get()->carry(nextcarry, lazy); [lazy] is false except in combinations), go on with them, and put the missing ones back
    (IndexedOptionArray64(outindex, out).simplify_optiontype()).  ByteMaskedArray.cpp:1224-1235, IndexedArray.cpp:2299-2309,
    and the same lines in the other methods. *)
Definition option_path (lazy : bool) (rec : content -> res content) (pair : res (list Z * list Z)) (c' : content) : res content :=
  let* p := pair in
  let '(nextcarry, outindex) := p in
  let* next := carry c' nextcarry lazy in
  let* out := rec next in
  simplify_optiontype (IndexedOption outindex out).
(** BitMaskedArray::f(...) = toByteMaskedArray().f(...), e.g. BitMaskedArray.cpp:974-976 *)
Definition option_path_of (lazy : bool) (rec : content -> res content) (c : content) : res content :=
  match c with
  | ByteMasked mask vw c' => option_path lazy rec (ByteMasked_nextcarry_outindex mask vw) c'
  | BitMasked _ _ _ _ _ =>
      let* bm := toByteMaskedArray c in
      match bm with
      | ByteMasked mask vw c' => option_path lazy rec (ByteMasked_nextcarry_outindex mask vw) c'
      | _ => UB
      end
  | IndexedOption index c' => option_path lazy rec (IndexedOption_nextcarry_outindex index c') c'
  | _ => UB
  end.

(** Content::localindex_axis0: Content.cpp:1295-1303 *)
Definition localindex_axis0 (c : content) : res content :=
  let* localindex := awkward_localindex (alloc (length_ c)) (length_ c) in
  Ok (Numpy DInt localindex).

Section Width.
Variable is64 : content -> bool.

(** localindex: BitMaskedArray.cpp:974-976, ByteMaskedArray.cpp:1218-1237, EmptyArray.cpp:582-584, IndexedArray.cpp:2292-2315,
    ListArray.cpp:1410-1440, ListOffsetArray.cpp:1555-1583, NumpyArray.cpp:3361-3373, RecordArray.cpp:1499-1515,
    RegularArray.cpp:1128-1156, UnionArray.cpp:2040-2056, UnmaskedArray.cpp:923-934 *)
Fixpoint localindex (fuel : nat) (c : content) (axis depth : Z) : res content :=
  match fuel with
  | O => UB
  | S fuel =>
      match c with
      | Empty => Ok (Numpy DInt [])
      | _ =>
      let* posaxis := axis_wrap_if_negative c axis in
      if posaxis =? depth then localindex_axis0 c
      else
        match c with
        | Empty => Ok (Numpy DInt [])
        | Numpy _ _ => Err "'axis' out of range for localindex"
        | ListA starts stops c' =>
            if posaxis =? depth + 1 then
              let* offsets := compact_offsets64 (is64 c) true c in
              let* innerlength := rd offsets (zlen offsets - 1) in
              let* localindex := awkward_ListArray_localindex (alloc innerlength) offsets (zlen offsets - 1) in
              mkListOffset offsets (Numpy DInt localindex)
            else
              let* next := localindex fuel c' posaxis (depth + 1) in
              mkListA starts stops next
        | ListOffset offsets c' =>
            if posaxis =? depth + 1 then
              let* offsets := compact_offsets64 (is64 c) true c in
              let* innerlength := rd offsets (zlen offsets - 1) in
              let* localindex := awkward_ListArray_localindex (alloc innerlength) offsets (zlen offsets - 1) in
              mkListOffset offsets (Numpy DInt localindex)
            else
              let* next := localindex fuel c' posaxis (depth + 1) in
              mkListOffset offsets next
        | Regular size zl c' =>
            if posaxis =? depth + 1 then
              let* localindex := awkward_RegularArray_localindex (alloc (length_ c * size)) size (length_ c) in
              mkRegular size (length_ c) (Numpy DInt localindex)
            else
              let* next := localindex fuel c' posaxis (depth + 1) in
              mkRegular size (length_ c) next
        | Indexed _ _ =>
            let* p := project c in
            localindex fuel p posaxis depth
        | IndexedOption _ _ | ByteMasked _ _ _ | BitMasked _ _ _ _ _ =>
            option_path_of false (fun next => localindex fuel next posaxis depth) c
        | Unmasked c' =>
            let* next := localindex fuel c' posaxis depth in
            Ok (Unmasked next)
        | Record keys len cs =>
            let* contents := mapres (fun x => localindex fuel x posaxis depth) cs in
            mkRecord keys len contents
        | Union tags index cs =>
            let* contents := mapres (fun x => localindex fuel x posaxis depth) cs in
            mkUnion tags index contents
        end
      end
  end.
End Width.
