(** Uniqueness: Content::is_unique, Content::unique and Content::is_subrange_equal of every class.
    Not modelled: strings (NumpyArray::as_unique_strings), arrays with more than one dimension (refused, NumpyArray.cpp:5226-5231),
    VirtualArray (refused, VirtualArray.cpp:1212-1226) and the element types that are refused (float16, float128, complex). *)
From Verif Require Import Base Content KCore Core KConvert Convert KOption Option KAxis Axis KMerge Merge KReduce Reduce KSort Sort.
Local Open Scope string_scope.
Local Open Scope list_scope.
Local Open Scope Z_scope.

(** ** Kernels *)
(** awkward_unique.cpp:7-22; the buffer and *tolength *)
Definition awkward_unique (o : order) (toptr : list Z) (length : Z) : res (list Z * Z) :=
  let* st := for_ 1 length (fun i st =>
    let '(j, toptr) := st in
    let* a := rd toptr j in
    let* b := rd toptr i in
    if negb (oeq o a b) then
      let* toptr := wr toptr (j + 1) b in
      Ok (j + 1, toptr)
    else Ok (j, toptr)) (0, toptr) in
  let '(j, toptr) := st in
  Ok (toptr, j + 1).

(** for (j = 0; j < leftlen; j++) { if (...) { differ = true; break; } }: awkward_NumpyArray_subrange_equal.cpp:25-30.
    [n] elements are left. *)
Fixpoint ranges_differ (o : order) (tmpptr : list Z) (s1 s2 : Z) (n : nat) : res bool :=
  match n with
  | O => Ok false
  | S n =>
      let* a := rd tmpptr s1 in
      let* b := rd tmpptr s2 in
      if negb (oeq o a b) then Ok true else ranges_differ o tmpptr (s1 + 1) (s2 + 1) n
  end.
(** awkward_NumpyArray_subrange_equal.cpp:7-38: *toequal *)
Definition awkward_NumpyArray_subrange_equal (o : order) (tmpptr fromstarts fromstops : list Z) (length : Z) : res bool :=
  let* differ := for_ 0 (length - 1) (fun i differ =>
    let* stop := rd fromstops i in
    let* start := rd fromstarts i in
    let leftlen := stop - start in
    for_ (i + 1) (length - 1) (fun ii differ =>
      let* stop' := rd fromstops ii in
      let* start' := rd fromstarts ii in
      let rightlen := stop' - start' in
      if leftlen =? rightlen then ranges_differ o tmpptr start start' (Z.to_nat leftlen) else Ok differ) differ) true in
  Ok (negb differ).

(** awkward_IndexedArray_ranges_next_64.cpp:7-30: tostarts, tostops and *tolength *)
Definition awkward_IndexedArray_ranges_next_64 (index fromstarts fromstops : list Z) (length : Z) (tostarts tostops : list Z) : res (list Z * list Z * Z) :=
  for_ 0 length (fun i st =>
    let '(tostarts, tostops, k) := st in
    let* stop := rd fromstops i in
    let* start := rd fromstarts i in
    let* tostarts := wr tostarts i k in
    let* k := for_ 0 (stop - start) (fun j k =>
      let* x := rd index (start + j) in
      Ok (if negb (x <? 0) then k + 1 else k)) k in
    let* tostops := wr tostops i k in
    Ok (tostarts, tostops, k)) (tostarts, tostops, 0).
(** awkward_IndexedArray_ranges_carry_next_64.cpp:7-27 *)
Definition awkward_IndexedArray_ranges_carry_next_64 (index fromstarts fromstops : list Z) (length : Z) (tocarry : list Z) : res (list Z) :=
  let* st := for_ 0 length (fun i st =>
    let* stop := rd fromstops i in
    let* start := rd fromstarts i in
    for_ 0 (stop - start) (fun j st =>
      let '(k, tocarry) := st in
      let* x := rd index (start + j) in
      if negb (x <? 0) then
        let* tocarry := wr tocarry k x in
        Ok (k + 1, tocarry)
      else Ok (k, tocarry)) st) (0, tocarry) in
  let '(_, tocarry) := st in Ok tocarry.

(** ** NumpyArray *)
(** NumpyArray::array_unique: NumpyArray.cpp:5545-5597; the buffer and outlength, which is 0 before the call *)
Definition array_unique (o : order) (data parents : list Z) : res (list Z * Z) :=
  let length := zlen data in
  let ptr := alloc length in
  if length =? 0 then Ok (ptr, 0) else
  let* offsets_length := awkward_sorting_ranges_length parents (zlen parents) in
  let* offsets := awkward_sorting_ranges (alloc offsets_length) offsets_length parents (zlen parents) in
  let* ptr := awkward_sort o true ptr data length offsets offsets_length (zlen parents) in
  awkward_unique o ptr length.
(** NumpyArray::unique_data: NumpyArray.cpp:5880-6017.  [buf] is the memory of the array, in elements, [offset] where its data start,
    and [length] its length.  The stride is not looked at. *)
Definition unique_data (o : order) (buf : list Z) (offset length : Z) : res (list Z) :=
  let* parents := awkward_content_reduce_zeroparents_64 (alloc length) length in
  let* data := view offset (offset + length) buf in
  let* p := array_unique o data parents in
  let '(ptr, outlength) := p in
  Ok (slice 0 outlength ptr).
(** NumpyArray::subranges_equal: NumpyArray.cpp:5239-5285 *)
Definition subranges_equal (o : order) (data starts stops : list Z) : res bool :=
  let* ptr := awkward_NumpyArray_fill (alloc (zlen data)) 0 data (zlen data) (fun x => x) in
  let* ptr := awkward_quick_sort o true ptr (alloc kMaxLevels) (alloc kMaxLevels) starts stops (zlen starts) kMaxLevels in
  let* is_equal := awkward_NumpyArray_subrange_equal o ptr starts stops (zlen starts) in
  Ok (negb is_equal).

(** ** Every class *)
Section Unique.
Variable real : order.
Variable is64 : content -> bool.
(** where the index of an indexed array starts in its buffer (Index.h: offset()) *)
Variable index_offset : content -> Z.

(** is_unique: BitMaskedArray.cpp:1142-1145, ByteMaskedArray.cpp:1494-1499, EmptyArray.cpp:796-799, IndexedArray.cpp:2852-2860,
    ListArray.cpp:2087-2091, ListOffsetArray.cpp:2415-2432, NumpyArray.cpp:5220-5232, RecordArray.cpp:1883-1910,
    RegularArray.cpp:1673-1676, UnionArray.cpp:2316-2322, UnmaskedArray.cpp:1163-1169
    is_subrange_equal: BitMaskedArray.cpp:1152-1155, ByteMaskedArray.cpp:1508-1513, EmptyArray.cpp:806-809, IndexedArray.cpp:2870-2912,
    ListArray.cpp:2099-2103, ListOffsetArray.cpp:2404-2413, NumpyArray.cpp:5287-5396, RecordArray.cpp:1919-1924,
    RegularArray.cpp:1683-1686, UnionArray.cpp:2332-2338, UnmaskedArray.cpp:1178-1183.
    NumpyArray::is_subrange_equal reads ptr_ without the byte offset; arrays have none here. *)
Fixpoint is_unique (fuel : nat) (c : content) : res bool :=
  match fuel with
  | O => UB
  | S fuel =>
      match c with
      | Empty => Ok true
      | Numpy dt data =>
          let* out := unique_data (order_of real dt) data 0 (zlen data) in
          Ok (zlen out =? zlen data)
      | ListA _ _ _ | Regular _ _ _ =>
          let* lo := toListOffsetArray64 true true c in
          match lo with
          | ListOffset offsets c' =>
              let* starts := make_starts offsets in
              let* stops := make_stops offsets in
              is_subrange_equal fuel c' starts stops
          | _ => UB
          end
      | ListOffset offsets c' =>
          let* lo := if is64 c then Ok c else toListOffsetArray64 false true c in
          match lo with
          | ListOffset offsets c' =>
              let* starts := make_starts offsets in
              let* stops := make_stops offsets in
              is_subrange_equal fuel c' starts stops
          | _ => UB
          end
      | Indexed index _ | IndexedOption index _ => is_subrange_equal fuel c [index_offset c] [zlen index]
      | ByteMasked _ _ _ | BitMasked _ _ _ _ _ | Unmasked _ | Union _ _ _ => Err "FIXME: operation not yet implemented: is_unique"
      | Record _ _ contents =>
          (* the loop over the contents; [count] is non_unique_count *)
          let fix go (contents : list content) (count : Z) : res bool :=
            match contents with
            | [] => if count <=? 1 then Ok true else Err "FIXME: RecordArray::is_unique operation on a RecordArray with more than one non-unique content"
            | c :: contents =>
                let* u := is_unique fuel c in
                if negb u then go contents (count + 1) else if count =? 0 then Ok true else go contents count
            end in
          match contents with [] => Ok true | _ => go contents 0 end
      end
  end
with is_subrange_equal (fuel : nat) (c : content) (starts stops : list Z) : res bool :=
  match fuel with
  | O => UB
  | S fuel =>
      match c with
      | Empty => Ok false
      | Numpy dt data =>
          if negb (zlen starts =? zlen stops) then Err "NumpyArray starts length must be equal to stops length" else
          subranges_equal (order_of real dt) data starts stops
      | ListA _ _ _ | Regular _ _ _ =>
          let* lo := toListOffsetArray64 true true c in
          match lo with ListOffset _ c' => is_subrange_equal fuel c' starts stops | _ => UB end
      | ListOffset _ _ =>
          let* lo := if is64 c then Ok c else toListOffsetArray64 false true c in
          match lo with ListOffset _ c' => is_subrange_equal fuel c' starts stops | _ => UB end
      | Indexed index c' | IndexedOption index c' =>
          if negb (zlen starts =? zlen stops) then Err "IndexedArrayOf<T, ISOPTION> starts length must be equal to stops length" else
          let* t := awkward_IndexedArray_ranges_next_64 index starts stops (zlen starts) (alloc (zlen starts)) (alloc (zlen stops)) in
          let '(nextstarts, nextstops, subranges_length) := t in
          let* nextcarry := awkward_IndexedArray_ranges_carry_next_64 index starts stops (zlen starts) (alloc subranges_length) in
          let* next := carry c' nextcarry false in
          if 1 <? zlen nextstarts then is_subrange_equal fuel next nextstarts nextstops else is_unique fuel next
      | ByteMasked _ _ _ | BitMasked _ _ _ _ _ | Unmasked _ | Union _ _ _ | Record _ _ _ => Err "FIXME: operation not yet implemented: is_subrange_equal"
      end
  end.

(** unique: BitMaskedArray.cpp:1147-1150, ByteMaskedArray.cpp:1501-1506, EmptyArray.cpp:801-804, IndexedArray.cpp:2862-2868,
    ListArray.cpp:2093-2097, ListOffsetArray.cpp:2434-2440, NumpyArray.cpp:5235-5238, RecordArray.cpp:1912-1917,
    RegularArray.cpp:1678-1681, UnionArray.cpp:2324-2330, UnmaskedArray.cpp:1171-1176 *)
Definition unique (c : content) : res content :=
  match c with
  | Empty => Ok Empty
  | Numpy dt data => let* out := unique_data (order_of real dt) data 0 (zlen data) in Ok (Numpy dt out)
  | _ => Err "FIXME: operation not yet implemented: unique"
  end.
End Unique.
