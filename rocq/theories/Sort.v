(** ak.sort and ak.argsort: Content::sort, Content::argsort, sort_next and argsort_next of every class. *)
From Verif Require Import Base Content KCore Core KConvert Convert KOption Option KAxis Axis KMerge Merge KReduce Reduce KSort.

(** kMaxLevels: include/awkward/common.h:71 *)
Definition kMaxLevels : Z := 48.

(** the order of the elements of a NumpyArray; [real] is the order of floating point numbers *)
Definition order_of (real : order) (dt : dtype) : order :=
  match dt with
  | DBool => {| ole := fun x y => b2i (negb (x =? 0)) <=? b2i (negb (y =? 0));
                olt := fun x y => b2i (negb (x =? 0)) <? b2i (negb (y =? 0));
                oeq := fun x y => b2i (negb (x =? 0)) =? b2i (negb (y =? 0)) |}
  | DInt => {| ole := Z.leb; olt := Z.ltb; oeq := Z.eqb |}
  | DReal => real
  end.

(** NumpyArray::array_sort: NumpyArray.cpp:5466-5546.  A sort of the type bool moves canonical booleans. *)
Definition array_sort (o : order) (data parents : list Z) (ascending stable : bool) : res (list Z) :=
  let length := zlen data in
  let ptr := alloc length in
  if length =? 0 then Ok ptr else
  let* offsets_length := awkward_sorting_ranges_length parents (zlen parents) in
  let* offsets := awkward_sorting_ranges (alloc offsets_length) offsets_length parents (zlen parents) in
  if stable then awkward_sort o ascending ptr data length offsets (zlen offsets) (zlen parents)
  else
    let* ptr := awkward_NumpyArray_fill ptr 0 data length (fun x => x) in
    let* sort_starts := make_starts offsets in
    let* sort_stops := make_stops offsets in
    awkward_quick_sort o ascending ptr (alloc kMaxLevels) (alloc kMaxLevels) sort_starts sort_stops (zlen sort_starts) kMaxLevels.
(** NumpyArray::index_sort: NumpyArray.cpp:5391-5464 *)
Definition index_sort (o : order) (data parents : list Z) (ascending stable : bool) : res (list Z) :=
  let length := zlen data in
  let ptr := alloc length in
  if length =? 0 then Ok ptr else
  let* offsets_length := awkward_sorting_ranges_length parents (zlen parents) in
  let* offsets := awkward_sorting_ranges (alloc offsets_length) offsets_length parents (zlen parents) in
  if stable then awkward_argsort o ascending ptr data length offsets (zlen offsets)
  else awkward_quick_argsort o ascending ptr data (alloc kMaxLevels) (alloc kMaxLevels) offsets (zlen offsets) kMaxLevels.

(** getitem_nothing: BitMaskedArray.cpp:626, ByteMaskedArray.cpp:604, EmptyArray.cpp:307, IndexedArray.cpp:1246, ListArray.cpp:655,
    ListOffsetArray.cpp:651, NumpyArray.cpp:1188, RecordArray.cpp:775, RegularArray.cpp:598, UnionArray.cpp:1088, UnmaskedArray.cpp:503 *)
Definition getitem_nothing (c : content) : res content :=
  match c with
  | Empty => Ok Empty
  | Numpy dt _ => Ok (Numpy dt [])
  | ListA _ _ c' | ListOffset _ c' | Regular _ _ c' | Indexed _ c' | IndexedOption _ c' | ByteMasked _ _ c' | BitMasked _ _ _ _ c' | Unmasked c' =>
      getitem_range_nowrap c' 0 0
  | Record _ _ _ | Union _ _ _ => getitem_range_nowrap c 0 0
  end.

Section Sort.
Variable real : order.
Variable is64 : content -> bool.
Variable rc : Z -> Z.
Variable narrow : content -> bool.
Variable refeq : content -> content -> bool.
Variable mfuel : nat.
Variable arg : bool.          (* argsort instead of sort *)
Variable ascending : bool.
Variable stable : bool.

(** what an array of length zero becomes: itself for sort, an empty array of integers for argsort (IndexedArray.cpp:2374 and 2506,
    RecordArray.cpp:1610 and 1640, RegularArray.cpp:1283 and 1317, UnionArray.cpp:2102 and 2130, UnmaskedArray.cpp:973 and 1007) *)
Definition nothing_to_sort (c : content) : content := if arg then Numpy DInt [] else c.

(** NumpyArray::sort_next and argsort_next for one dimension: NumpyArray.cpp:3408-3583, 3586-3765 *)
Definition numpy_sort (dt : dtype) (data starts parents : list Z) (keepdims : bool) : res content :=
  if (zlen data =? 0) && negb arg then Ok (Numpy dt data) else
  let* ptr := if arg then index_sort (order_of real dt) data parents ascending stable
              else array_sort (order_of real dt) data parents ascending stable in
  let out := Numpy (if arg then DInt else dt) ptr in
  if keepdims then
    if zlen starts =? 0 then UB else mkRegular (Z.quot (zlen parents) (zlen starts)) (zlen data) out
  else Ok out.

(** sort_next and argsort_next: BitMaskedArray.cpp:994-1025, ByteMaskedArray.cpp:1276-1307, EmptyArray.cpp:601-637, IndexedArray.cpp:2367-2627,
    ListArray.cpp:1546-1578, ListOffsetArray.cpp:1689-2095, NumpyArray.cpp:3408-3765, RecordArray.cpp:1603-1661, RegularArray.cpp:1276-1341,
    UnionArray.cpp:2095-2147, UnmaskedArray.cpp:966-1031.  Strings are not modelled.
    IndexedArray::sort_next builds IndexedArrayOf<int64_t, ISOPTION>, so [isoption] says which node is made. *)
Fixpoint sort_next (fuel : nat) (c : content) (negaxis : Z) (starts parents : list Z) (outlength : Z) (keepdims : bool) : res content :=
  match fuel with
  | O => UB
  | S fuel =>
      (* ListOffsetArrayOf<int64_t>::sort_next and argsort_next *)
      let listoffset (offsets : list Z) (c' : content) : res content :=
        let c := ListOffset offsets c' in
        if zlen offsets - 1 =? 0 then Ok c else
        let '(branch, depth) := branch_depth c in
        let* out :=
          if negb branch && (negaxis =? depth) then
            if negb (zlen offsets - 1 =? zlen parents) then Err "offsets_.length() - 1 != parents.length()" else
            let* globalstart := rd offsets 0 in
            let* globalstop := rd offsets (zlen offsets - 1) in
            let nextlen := globalstop - globalstart in
            let* mo := awkward_ListOffsetArray_reduce_nonlocal_maxcount_offsetscopy_64 (alloc (zlen offsets)) offsets (zlen offsets - 1) in
            let '(maxcount, offsetscopy) := mo in
            let* nx := awkward_ListOffsetArray_reduce_nonlocal_preparenext_64 (alloc nextlen) (alloc nextlen) nextlen (alloc (maxcount * outlength)) (maxcount * outlength)
                         offsetscopy offsets (zlen offsets - 1) parents maxcount in
            let '(nextcarry, nextparents, maxnextparents, _) := nx in
            let* nextstarts := awkward_ListOffsetArray_reduce_nonlocal_nextstarts_64 (alloc (maxnextparents + 1)) nextparents nextlen in
            let* nextcontent := carry c' nextcarry false in
            let* outcontent := sort_next fuel nextcontent (negaxis - 1) nextstarts nextparents (if arg then maxnextparents + 1 else length_ nextcontent) false in
            let* outcarry := awkward_ListOffsetArray_local_preparenext_64 (alloc nextlen) nextcarry nextlen in
            let* outcontent := carry outcontent outcarry false in
            mkListOffset offsets outcontent
          else
            let* globalstart := rd offsets 0 in
            let* globalstop := rd offsets (zlen offsets - 1) in
            let* nextparents := awkward_ListOffsetArray_reduce_local_nextparents_64 (alloc (globalstop - globalstart)) offsets (zlen offsets - 1) in
            let* trimmed := getitem_range_nowrap c' globalstart globalstop in
            let* nextstarts := make_starts offsets in
            let* outcontent := sort_next fuel trimmed negaxis nextstarts nextparents (zlen offsets - 1) false in
            mkListOffset offsets outcontent in
        if keepdims then mkRegular (length_ out) (zlen offsets - 1) out else Ok out in
      (* IndexedArrayOf<T, ISOPTION>::sort_next and argsort_next *)
      let indexed (isoption : bool) (index : list Z) (c' : content) : res content :=
        let mk (index : list Z) (c : content) := if isoption then IndexedOption index c else Indexed index c in
        if zlen index =? 0 then Ok (nothing_to_sort (mk index c')) else
        let* numnull := awkward_IndexedArray_numnull index (zlen index) in
        let next_length := if 0 <? numnull then zlen index - numnull else zlen index in
        let* t := awkward_IndexedArray_reduce_next_64 (alloc next_length) (alloc next_length) (alloc (zlen index)) index parents (zlen index) in
        let '(nextcarry, nextparents, outindex) := t in
        let* next := carry c' nextcarry false in
        let '(branch, depth) := branch_depth c' in
        let inject_nones := (0 <? numnull) && negb branch && negb (negaxis =? depth) in
        let* out := sort_next fuel next negaxis starts nextparents outlength (if inject_nones then false else keepdims) in
        let* nextoutindex := awkward_IndexedArray_local_preparenext_64 (alloc (zlen parents)) starts parents (zlen parents) nextparents next_length in
        let* out := simplify_optiontype (mk nextoutindex out) in
        let* out := if inject_nones then mkRegular (zlen parents) 0 out else Ok out in
        if negb branch && (negaxis =? depth) then Ok out
        else
          let* out := unregular true out in
          match out with
          | ListOffset _ c'' =>
              let* _ := if 0 <? zlen starts then
                          let* s0 := rd starts 0 in
                          if negb (s0 =? 0) then Err "sort_next with unbranching depth > negaxis expects a ListOffsetArray64 whose offsets start at zero" else Ok tt
                        else Ok tt in
              let* outoffsets := awkward_IndexedArray_reduce_next_fix_offsets_64 (alloc (zlen starts + 1)) starts (zlen starts) (zlen outindex) in
              let* tmp := simplify_optiontype (mk outindex c'') in
              mkListOffset outoffsets tmp
          | IndexedOption _ _ => if isoption then Ok out else Err "sort_next with unbranching depth > negaxis"
          | Indexed _ _ => if isoption then Err "sort_next with unbranching depth > negaxis" else Ok out
          | _ => Err "sort_next with unbranching depth > negaxis is only expected to return RegularArray or ListOffsetArray64 or IndexedArray"
          end in
      match c with
      | Empty => numpy_sort (if arg then DInt else DReal) [] starts parents keepdims
      | Numpy dt data => numpy_sort dt data starts parents keepdims
      | ListA _ _ _ =>
          let* lo := toListOffsetArray64 (is64 c) true c in
          match lo with ListOffset offsets c' => listoffset offsets c' | _ => UB end
      | ListOffset offsets c' =>
          if is64 c then listoffset offsets c'
          else
            let* lo := toListOffsetArray64 false true c in
            match lo with ListOffset offsets c' => listoffset offsets c' | _ => UB end
      | Regular _ _ _ =>
          if length_ c =? 0 then Ok (nothing_to_sort c) else
          let* lo := toListOffsetArray64 true true c in
          let* out := match lo with ListOffset offsets c' => listoffset offsets c' | _ => UB end in
          match out with
          | Regular size _ (ListOffset offsets c') =>
              let* inner := ListOffset_toRegularArray offsets c' in
              mkRegular size (length_ out) inner
          | _ => Ok out
          end
      | Indexed index c' => indexed false index c'
      | IndexedOption index c' => indexed true index c'
      | ByteMasked _ _ _ =>
          let* io := toIndexedOptionArray64 c in
          match io with IndexedOption index c' => indexed true index c' | _ => UB end
      | BitMasked _ _ _ _ _ =>
          let* bm := toByteMaskedArray c in
          let* io := toIndexedOptionArray64 bm in
          match io with IndexedOption index c' => indexed true index c' | _ => UB end
      | Unmasked c' =>
          if length_ c' =? 0 then Ok (nothing_to_sort c) else
          let* out := sort_next fuel c' negaxis starts parents outlength keepdims in
          match out with
          | Regular size _ c'' =>
              let* tmp := simplify_optiontype (Unmasked c'') in
              mkRegular size (length_ c') tmp
          | _ => Ok out
          end
      | Record keys len cs =>
          if len =? 0 then Ok (nothing_to_sort c) else
          let* contents := mapres (fun x =>
            let* trimmed := getitem_range_nowrap x 0 len in
            sort_next fuel trimmed negaxis starts parents outlength keepdims) cs in
          mkRecord keys outlength contents
      | Union tags index cs =>
          if zlen tags =? 0 then Ok (nothing_to_sort c) else
          let* simplified := simplify_uniontype rc narrow refeq mfuel true true tags index cs in
          match simplified with
          | Union _ _ _ => Err "cannot sort UnionArray"
          | _ => sort_next fuel simplified negaxis starts parents outlength keepdims
          end
      end
  end.

(** Content::sort and Content::argsort: Content.cpp:1050-1106, 1109-1172 *)
Definition sort (fuel : nat) (c : content) (axis : Z) : res item :=
  let '(branch, depth) := branch_depth c in
  let* negaxis :=
    if branch then
      if - axis <=? 0 then Err "cannot use non-negative axis on a nested list structure of variable depth"
      else if depth <? - axis then Err "cannot use axis on a nested list structure that splits into different depths"
      else Ok (- axis)
    else
      let negaxis := if - axis <=? 0 then - axis + depth else - axis in
      if negb ((0 <? negaxis) && (negaxis <=? depth)) then Err "axis exceeds the depth of the nested list structure"
      else Ok negaxis in
  let* parents := awkward_content_reduce_zeroparents_64 (alloc (length_ c)) (length_ c) in
  let* out := sort_next fuel c negaxis [0] parents 1 true in
  if length_ out =? 0 then let* nothing := getitem_nothing out in Ok (IArray nothing)
  else getitem_at_nowrap out 0.
End Sort.
