(** Flattening: offsets_and_flattened.  ak.flatten uses the second part of the result (src/python/content.cpp:1426-1430). *)
From Verif Require Import Base Content KCore Core KConvert Convert KOption Option KAxis Axis Combinations.

(** awkward_ListOffsetArray_flatten_offsets.cpp:8-19 *)
Definition awkward_ListOffsetArray_flatten_offsets (tooffsets outeroffsets : list Z) (outeroffsetslen : Z) (inneroffsets : list Z) : res (list Z) :=
  for_ 0 outeroffsetslen (fun i tooffsets =>
    let* o := rd outeroffsets i in
    let* x := rd inneroffsets o in
    wr tooffsets i x) tooffsets.

(** awkward_IndexedArray_flatten_none2empty.cpp:8-33; the state is (k, outoffsets) *)
Definition awkward_IndexedArray_flatten_none2empty (outoffsets outindex : list Z) (outindexlength : Z) (offsets : list Z) (offsetslength : Z) : res (list Z) :=
  let* o0 := rd offsets 0 in
  let* outoffsets := wr outoffsets 0 o0 in
  let* st := for_ 0 outindexlength (fun i st =>
    let '(k, outoffsets) := st in
    let* idx := rd outindex i in
    if idx <? 0 then
      let* prev := rd outoffsets (k - 1) in
      let* outoffsets := wr outoffsets k prev in
      Ok (k + 1, outoffsets)
    else if offsetslength <=? idx + 1 then Err "flattening offset out of range"
    else
      let* b := rd offsets (idx + 1) in
      let* a := rd offsets idx in
      let* prev := rd outoffsets (k - 1) in
      let* outoffsets := wr outoffsets k (prev + (b - a)) in
      Ok (k + 1, outoffsets)) (1, outoffsets) in
  Ok (snd st).

(** awkward_UnionArray_flatten_length.cpp:8-23 *)
Definition awkward_UnionArray_flatten_length (fromtags fromindex : list Z) (length : Z) (offsetsraws : list (list Z)) : res Z :=
  for_ 0 length (fun i total_length =>
    let* tag := rd fromtags i in
    let* idx := rd fromindex i in
    let* raw := rd offsetsraws tag in
    let* start := rd raw idx in
    let* stop := rd raw (idx + 1) in
    Ok (total_length + (stop - start))) 0.

(** awkward_UnionArray_flatten_combine.cpp:8-35; the state is (k, totags, toindex, tooffsets) *)
Definition awkward_UnionArray_flatten_combine (totags toindex tooffsets fromtags fromindex : list Z) (length : Z) (offsetsraws : list (list Z))
  : res (list Z * list Z * list Z) :=
  let* tooffsets := wr tooffsets 0 0 in
  let* st := for_ 0 length (fun i st =>
    let '(k, totags, toindex, tooffsets) := st in
    let* tag := rd fromtags i in
    let* idx := rd fromindex i in
    let* raw := rd offsetsraws tag in
    let* start := rd raw idx in
    let* stop := rd raw (idx + 1) in
    let* prev := rd tooffsets i in
    let* tooffsets := wr tooffsets (i + 1) (prev + (stop - start)) in
    let* st' := for_ start stop (fun j st' =>
      let '(k, totags, toindex) := st' in
      let* totags := wr totags k tag in
      let* toindex := wr toindex k j in
      Ok (k + 1, totags, toindex)) (k, totags, toindex) in
    let '(k, totags, toindex) := st' in
    Ok (k, totags, toindex, tooffsets)) (0, totags, toindex, tooffsets) in
  let '(_, totags, toindex, tooffsets) := st in Ok (totags, toindex, tooffsets).

(** what the option-type nodes do: ByteMaskedArray.cpp:893-924, IndexedArray.cpp:1602-1633.  numnull is the number of entries of
    outindex that are not in nextcarry. *)
Definition flatten_option (rec : content -> res (list Z * content)) (pair : res (list Z * list Z)) (c' : content) : res (list Z * content) :=
  let* p := pair in
  let '(nextcarry, outindex) := p in
  let* next := carry c' nextcarry false in
  let* r := rec next in
  let '(offsets, flattened) := r in
  if zlen offsets =? 0 then Ok (offsets, IndexedOption outindex flattened)
  else
    let* outoffsets := awkward_IndexedArray_flatten_none2empty (alloc (zlen offsets + (zlen outindex - zlen nextcarry))) outindex (zlen outindex) offsets (zlen offsets) in
    Ok (outoffsets, flattened).

Section Width.
Variable is64 : content -> bool.

(** offsets_and_flattened: BitMaskedArray.cpp:835-837, ByteMaskedArray.cpp:886-926, EmptyArray.cpp:458-471, IndexedArray.cpp:1594-1638,
    ListArray.cpp:973-975, ListOffsetArray.cpp:980-1034, NumpyArray.cpp:1652-1665 (one-dimensional), RecordArray.cpp:1098-1129,
    RegularArray.cpp:842-844, UnionArray.cpp:1528-1592, UnmaskedArray.cpp:740-762.
    Simplification: RecordArray's content->getitem_range(0, length()) is written as the unwrapped range from 0 to the smaller of the two
    lengths; they differ only if length() is Slice::none(), 2^63 - 1. *)
Fixpoint offsets_and_flattened (fuel : nat) (c : content) (axis depth : Z) : res (list Z * content) :=
  match fuel with
  | O => UB
  | S fuel =>
      let listoffset (w : bool) (offsets : list Z) (c' : content) : res (list Z * content) :=
        let* posaxis := axis_wrap_if_negative (ListOffset offsets c') axis in
        if posaxis =? depth then Err "axis=0 not allowed for flatten"
        else if posaxis =? depth + 1 then
          let* lo := toListOffsetArray64 w true (ListOffset offsets c') in
          match lo with
          | ListOffset offsets c'' =>
              let* stop := rd offsets (zlen offsets - 1) in
              let* content := getitem_range_nowrap c'' 0 stop in
              Ok (offsets, content)
          | _ => UB
          end
        else
          let* p := offsets_and_flattened fuel c' posaxis (depth + 1) in
          let '(inneroffsets, flattened) := p in
          if zlen inneroffsets =? 0 then
            let* out := mkListOffset offsets flattened in Ok ([], out)
          else if zlen offsets =? 1 then
            let* tooffsets := iview 0 1 inneroffsets in
            let* out := mkListOffset tooffsets flattened in Ok ([], out)
          else
            let* tooffsets := awkward_ListOffsetArray_flatten_offsets (alloc (zlen offsets)) offsets (zlen offsets) inneroffsets in
            let* out := mkListOffset tooffsets flattened in Ok ([], out) in
      match c with
      | ListOffset offsets c' => listoffset (is64 c) offsets c'
      | ListA _ _ _ | Regular _ _ _ =>
          let* lo := toListOffsetArray64 (is64 c) true c in
          match lo with
          | ListOffset offsets c'' => listoffset true offsets c''
          | _ => UB
          end
      | _ =>
        let* posaxis := axis_wrap_if_negative c axis in
        if posaxis =? depth then Err "axis=0 not allowed for flatten"
        else
          match c with
          | Empty => Ok ([0], Empty)
          | Numpy _ _ => Err "axis out of range for flatten"
          | Indexed _ _ =>
              let* p := project c in
              offsets_and_flattened fuel p posaxis depth
          | IndexedOption index c' =>
              flatten_option (fun next => offsets_and_flattened fuel next posaxis depth) (IndexedOption_nextcarry_outindex index c') c'
          | ByteMasked mask vw c' =>
              flatten_option (fun next => offsets_and_flattened fuel next posaxis depth) (ByteMasked_nextcarry_outindex mask vw) c'
          | BitMasked _ _ _ _ _ =>
              let* bm := toByteMaskedArray c in
              match bm with
              | ByteMasked mask vw c' =>
                  flatten_option (fun next => offsets_and_flattened fuel next posaxis depth) (ByteMasked_nextcarry_outindex mask vw) c'
              | _ => UB
              end
          | Unmasked c' =>
              let* p := offsets_and_flattened fuel c' posaxis depth in
              let '(offsets, flattened) := p in
              if zlen offsets =? 0 then Ok (offsets, Unmasked flattened) else Ok (offsets, flattened)
          | Record keys len cs =>
              if posaxis =? depth + 1 then Err "arrays of records cannot be flattened (but their contents can be; try a different 'axis')"
              else
                let* contents := mapres (fun x =>
                  let* trimmed := getitem_range_nowrap x 0 (Z.min len (length_ x)) in
                  let* p := offsets_and_flattened fuel trimmed posaxis depth in
                  let '(offsets, flattened) := p in
                  if negb (zlen offsets =? 0)
                  then Err "RecordArray content with axis > depth + 1 returned a non-empty offsets from offsets_and_flattened"
                  else Ok flattened) cs in
                let* out := mkRecord keys (match contents with [] => 0 | _ => minlength contents end) contents in
                Ok ([], out)
          | Union tags index cs =>
              let* pairs := mapres (fun x => offsets_and_flattened fuel x posaxis depth) cs in
              let contents := map snd pairs in
              let offsetsraws := map fst pairs in
              let has_offsets := fold_left (fun _ o => negb (zlen o =? 0)) offsetsraws false in
              if has_offsets then
                let* total_length := awkward_UnionArray_flatten_length tags index (zlen tags) offsetsraws in
                let* st := awkward_UnionArray_flatten_combine (alloc total_length) (alloc total_length) (alloc (zlen tags + 1)) tags index (zlen tags) offsetsraws in
                let '(totags, toindex, tooffsets) := st in
                let* out := mkUnion totags toindex contents in
                Ok (tooffsets, out)
              else
                let* out := mkUnion tags index contents in
                Ok ([], out)
          | ListA _ _ _ | ListOffset _ _ | Regular _ _ _ => UB
          end
      end
  end.
End Width.

(** flatten: src/python/content.cpp:1426-1430 *)
Definition flatten (is64 : content -> bool) (fuel : nat) (c : content) (axis : Z) : res content :=
  let* p := offsets_and_flattened is64 fuel c axis 0 in
  Ok (snd p).
