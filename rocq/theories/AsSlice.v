(** Arrays used as slices: Content::asslice, and slices with missing values (SliceMissing64), which Getitem.v leaves out. *)
From Verif Require Import Base Content KCore Core KConvert Convert KOption Option KAxis Axis KRange KCombinations Combinations KGetitem Getitem KAsSlice.
From Coq Require Import String Ascii.
From Coq Require Import List.
Import ListNotations.
Local Open Scope string_scope.
Local Open Scope list_scope.
Local Open Scope Z_scope.

(** SliceArray64 (one-dimensional), SliceJagged64, SliceMissing64, SliceVarNewAxis: Slice.h:223-339, 514-590, 432-509, 733-755 *)
Inductive arrayslice : Type :=
| AArray (index : list Z) (frombool : bool)
| AJagged (offsets : list Z) (content : arrayslice)
| AMissing (index originalmask : list Z) (content : arrayslice)
| AVarNewAxis (content : arrayslice).

Section Width.
Variable is64 : content -> bool.

(** ListOffsetArrayOf<int64_t>::asslice after the content has become a slice: ListOffsetArray.cpp:1177-1236 *)
Definition jagged_of (offsets : list Z) (slicecontent : arrayslice) : res arrayslice :=
  match slicecontent with
  | AArray nonzero true =>
      let* r := awkward_ListOffsetArray_getitem_adjust_offsets (alloc (zlen offsets)) (alloc (zlen nonzero)) offsets (zlen offsets - 1) nonzero (zlen nonzero) in
      let '(adjustedoffsets, adjustednonzero) := r in
      Ok (AJagged adjustedoffsets (AArray adjustednonzero true))
  | AMissing index originalmask (AArray nonzero true) =>
      let* r := awkward_ListOffsetArray_getitem_adjust_offsets_index (alloc (zlen offsets)) (alloc (zlen nonzero)) offsets (zlen offsets - 1)
                  index (zlen index) nonzero (zlen nonzero) originalmask in
      let '(adjustedoffsets, adjustednonzero) := r in
      Ok (AJagged adjustedoffsets (AMissing index originalmask (AArray adjustednonzero true)))
  | _ => Ok (AJagged offsets slicecontent)
  end.

(** IndexedArrayOf<T, true>::asslice after the content has become a slice: IndexedArray.cpp:2011-2041 *)
Definition missing_of (outindex : list Z) (numnull : Z) (slicecontent : arrayslice) : res arrayslice :=
  match slicecontent with
  | AArray nonzero true =>
      let* r := awkward_IndexedArray_getitem_adjust_outindex (alloc (zlen outindex)) (alloc (zlen nonzero + numnull)) (alloc (zlen nonzero))
                  outindex (zlen outindex) nonzero (zlen nonzero) in
      let '(originalmask, adjustedindex, adjustednonzero) := r in
      Ok (AMissing adjustedindex originalmask (AArray adjustednonzero true))
  | _ => Ok (AMissing outindex [] slicecontent)
  end.

(** asslice: EmptyArray.cpp:519-524; NumpyArray.cpp:3004-3127, one-dimensional and contiguous (for other strides see the kernels);
    ListOffsetArray.cpp:1159-1243; ListArray.cpp:1299-1301; RegularArray.cpp:969-981; IndexedArray.cpp:1987-2046; ByteMaskedArray.cpp:1020-1022;
    BitMaskedArray.cpp:933-935; UnmaskedArray.cpp:854-856; RecordArray.cpp:1394-1398.
    UnionArray.cpp:1913-1952: unions that simplify to an array of one type are not modelled, the others raise. *)
Fixpoint asslice (fuel : nat) (c : content) : res arrayslice :=
  match fuel with
  | O => UB
  | S fuel =>
  let option_slice index c' :=
    let* numnull := awkward_IndexedArray_numnull index (zlen index) in
    let* p := awkward_IndexedArray_getitem_nextcarry_outindex_mask (alloc (zlen index - numnull)) (alloc (zlen index)) index (zlen index) (length_ c') in
    let '(nextcarry, outindex) := p in
    let* next := carry c' nextcarry false in
    let* slicecontent := asslice fuel next in
    missing_of outindex numnull slicecontent in
  let offset_slice offsets c' :=
    let* start := rd offsets 0 in
    let* stop := rd offsets (zlen offsets - 1) in
    let* next := getitem_range_nowrap c' start stop in
    let* offsets' := if start =? 0 then Ok offsets else awkward_ListOffsetArray_compact_offsets (alloc (zlen offsets)) offsets (zlen offsets - 1) in
    let* slicecontent := asslice fuel next in
    jagged_of offsets' slicecontent in
  match c with
  | Empty => Ok (AArray [] false)
  | Numpy DInt data => Ok (AArray data false)
  | Numpy DBool data =>
      let* numtrue := awkward_NumpyArray_getitem_boolean_numtrue data (zlen data) 1 in
      let* index := awkward_NumpyArray_getitem_boolean_nonzero (alloc numtrue) data (zlen data) 1 in
      Ok (AArray index true)
  | Numpy DReal _ => Err "only arrays of integers or booleans may be used as a slice"
  | ListOffset offsets c' =>
      if is64 c then offset_slice offsets c'
      else
        let* lo := toListOffsetArray64 false true c in
        match lo with ListOffset offsets c' => offset_slice offsets c' | _ => UB end
  | ListA _ _ _ =>
      let* lo := toListOffsetArray64 (is64 c) true c in
      match lo with ListOffset offsets c' => offset_slice offsets c' | _ => UB end
  | Regular size _ c' =>
      if size =? 1 then let* a := asslice fuel c' in Ok (AVarNewAxis a)
      else Err "slice items can have all fixed-size dimensions or they can have all var-sized dimensions"
  | IndexedOption index c' => option_slice index c'
  | ByteMasked _ _ _ | BitMasked _ _ _ _ _ =>
      let* io := toIndexedOptionArray64 c in
      match io with IndexedOption index c' => option_slice index c' | _ => UB end
  | Indexed _ _ => let* next := project c in asslice fuel next
  | Unmasked c' => asslice fuel c'
  | Record _ _ _ => Err "cannot use records as a slice"
  | Union _ _ _ => Err "cannot use a union of different types as a slice"
  end
  end.

(** ** Slicing *)
(** getitem_next_jagged with an empty tail: as in Getitem.v (ListArray.cpp:1820-1876, 1968-2009; ListOffsetArray.cpp:785-799; RegularArray.cpp:1566-1599;
    IndexedArray.cpp:2713-2806; ByteMaskedArray.cpp:1379-1452; BitMaskedArray.cpp:1042-1073; UnmaskedArray.cpp:1005-1038; RecordArray.cpp:1723-1764),
    and for SliceMissing64 (ListArray.cpp:1880-1965). *)
Fixpoint slice_jagged (fuel : nat) (c : content) (slicestarts slicestops : list Z) (sc : arrayslice) {struct fuel} : res content :=
  match fuel with
  | O => UB
  | S fuel =>
  let lists w starts stops c' :=
    if negb (zlen slicestarts =? zlen starts) then Err "cannot fit jagged slice" else
    match sc with
    | AArray sliceindex _ =>
        if zlen stops <? zlen starts then Err "len(stops) < len(starts)" else
        let* carrylen := awkward_ListArray_getitem_jagged_carrylen slicestarts slicestops (zlen slicestarts) in
        let* oc := awkward_ListArray_getitem_jagged_apply (alloc (zlen slicestarts + 1)) (alloc carrylen) slicestarts slicestops (zlen slicestarts)
                     sliceindex (zlen sliceindex) starts stops (length_ c') in
        let '(outoffsets, nextcarry) := oc in
        let* nextcontent := carry c' nextcarry true in
        mkListOffset outoffsets nextcontent
    | AJagged offsets sc' =>
        let* outoffsets := awkward_ListArray_getitem_jagged_descend (alloc (zlen slicestarts + 1)) slicestarts slicestops (zlen slicestarts) starts stops in
        let* compact := toListOffsetArray64 w true (ListA starts stops c') in
        match compact with
        | ListOffset _ next_content =>
            let* sstarts := make_starts offsets in
            let* sstops := make_stops offsets in
            let* outcontent := slice_jagged fuel next_content sstarts sstops sc' in
            mkListOffset outoffsets outcontent
        | _ => UB
        end
    | AMissing missing _ sc' =>
        let* numvalid := awkward_ListArray_getitem_jagged_numvalid slicestarts slicestops (zlen slicestarts) missing (zlen missing) in
        let* r := awkward_ListArray_getitem_jagged_shrink (alloc numvalid) (alloc (zlen slicestarts + 1)) (alloc (zlen slicestarts + 1))
                    slicestarts slicestops (zlen slicestarts) missing in
        let '(nextcarry, smalloffsets, largeoffsets) := r in
        let* smallstarts := make_starts smalloffsets in
        let* smallstops := make_stops smalloffsets in
        let* out :=
          match sc' with
          | AJagged _ _ =>
              let* nextcontent := carry c' nextcarry true in
              let* next := mkListOffset smalloffsets nextcontent in
              slice_jagged fuel next smallstarts smallstops sc'
          | _ => slice_jagged fuel (ListA starts stops c') smallstarts smallstops sc'
          end in
        match out with
        | ListOffset _ content =>
            let* total := rd largeoffsets (zlen largeoffsets - 1) in
            let* missing_trim := iview 0 total missing in
            let* inner := simplify_optiontype (IndexedOption missing_trim content) in
            mkListOffset largeoffsets inner
        | _ => Err "expected ListOffsetArray64 from ListArray::getitem_next_jagged"
        end
    | AVarNewAxis _ => Err "unexpected slice type for getitem_next_jagged"
    end in
  let masked pair c' len :=
    if negb (zlen slicestarts =? len) then Err "cannot fit jagged slice" else
    let* p := (pair : res (list Z * list Z)) in
    let '(nextcarry, outindex) := p in
    let* red := awkward_MaskedArray_getitem_next_jagged_project outindex slicestarts slicestops (alloc (zlen nextcarry)) (alloc (zlen nextcarry)) len in
    let '(reducedstarts, reducedstops) := red in
    let* next := carry c' nextcarry true in
    let* out := slice_jagged fuel next reducedstarts reducedstops sc in
    simplify_optiontype (IndexedOption outindex out) in
  match c with
  | Empty => Err "too many jagged slice dimensions for array"
  | Numpy _ _ => Err "too many jagged slice dimensions for array"
  | ListA starts stops c' => lists (is64 c) starts stops c'
  | ListOffset offsets c' =>
      let* starts := make_starts offsets in
      let* stops := make_stops offsets in
      lists (is64 c) starts stops c'
  | Regular _ _ _ =>
      let* self := toListOffsetArray64 (is64 c) true c in
      slice_jagged fuel self slicestarts slicestops sc
  | Indexed index c' =>
      if negb (zlen slicestarts =? zlen index) then Err "cannot fit jagged slice" else
      let* nextcarry := awkward_IndexedArray_getitem_nextcarry (alloc (zlen index)) index (zlen index) (length_ c') in
      let* next := carry c' nextcarry false in
      slice_jagged fuel next slicestarts slicestops sc
  | IndexedOption index c' => masked (IndexedOption_nextcarry_outindex index c') c' (zlen index)
  | ByteMasked mask vw c' => masked (ByteMasked_nextcarry_outindex mask vw) c' (zlen mask)
  | BitMasked _ _ _ _ _ =>
      let* bm := toByteMaskedArray c in
      slice_jagged fuel bm slicestarts slicestops sc
  | Unmasked c' =>
      let* out := slice_jagged fuel c' slicestarts slicestops sc in
      simplify_optiontype (Unmasked out)
  | Record keys len cs =>
      match cs with
      | [] => Ok c
      | _ =>
          let* contents := mapres (fun x =>
            let* trimmed := getitem_range_nowrap x 0 len in
            slice_jagged fuel trimmed slicestarts slicestops sc) cs in
          Ok (Record keys (minlength contents) contents)
      end
  | Union _ _ _ => UB
  end
  end.

(** getitem_next of the RegularArray [next] of one row that Content::getitem makes, with an empty tail.
    SliceArray64: RegularArray.cpp:1450-1520; SliceJagged64: RegularArray.cpp:1523-1563; SliceMissing64: Content.cpp:1544-1683. *)
Fixpoint slice_next (fuel : nat) (c : content) (a : arrayslice) {struct a} : res content :=
  let* next := mkRegular (length_ c) 1 c in
  match a with
  | AArray index _ => getitem_next is64 fuel next [SArray [zlen index] index] None
  | AJagged offsets sc =>
      let n := zlen offsets - 1 in
      if negb (n =? length_ c) then Err "cannot fit jagged slice into RegularArray" else
      let* m := awkward_RegularArray_getitem_jagged_expand (alloc (n * 1)) (alloc (n * 1)) offsets n 1 in
      let '(multistarts, multistops) := m in
      let* down := slice_jagged fuel c multistarts multistops sc in
      mkRegular n 1 down
  | AMissing index _ (AJagged offsets sc) =>
      let* row := getitem_at_nowrap next 0 in
      match row with
      | IArray content =>
          if length_ content <? zlen index then Err "cannot fit masked jagged slice" else
          let* r := awkward_Content_getitem_next_missing_jagged_getmaskstartstop index offsets (alloc (zlen index)) (alloc (zlen index)) (alloc (zlen index)) (zlen index) in
          let '(outputmask, starts, stops) := r in
          let* tmp := slice_jagged fuel content starts stops sc in
          let* out := simplify_optiontype (IndexedOption outputmask tmp) in
          mkRegular (zlen index) 1 out
      | _ => UB
      end
  | AMissing index _ sc =>
      let* picked := slice_next fuel c sc in
      match picked with
      | Regular size _ content =>
          let* outindex := awkward_missing_repeat (alloc (zlen index * 1)) index (zlen index) 1 size in
          let* out := simplify_optiontype (IndexedOption outindex content) in
          mkRegular (zlen index) 1 out
      | _ => Err "FIXME: unhandled case of SliceMissing"
      end
  | AVarNewAxis _ => Err "not modelled: SliceVarNewAxis"
  end.

(** array[slice]: Content::asslice of the slice, then Content::getitem: Content.cpp:1370-1389 *)
Definition getitem_array (fuel : nat) (c slice : content) : res item :=
  let* a := asslice fuel slice in
  let* out := slice_next fuel c a in
  if length_ out =? 0 then let* r := getitem_nothing out in Ok (IArray r)
  else getitem_at_nowrap out 0.
End Width.
