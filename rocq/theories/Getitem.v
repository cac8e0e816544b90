(** Slices: getitem, getitem_next, getitem_next_jagged, getitem_field.  Union arrays, slices with missing values, with several
    fields at once and with length-1 regular dimensions (SliceMissing64, SliceFields, SliceVarNewAxis) are not modelled. *)
From Verif Require Import Base Content KCore Core KConvert Convert KOption Option KAxis Axis KRange KCombinations Combinations KGetitem.
From Coq Require Import String Ascii.
From Coq Require Import List.
Import ListNotations.
Local Open Scope string_scope.
Local Open Scope list_scope.
Local Open Scope Z_scope.

(** ** fields *)
(** std::stoi: leading white space, a sign, then digits up to the first other character; [None] when there is no digit
    (std::invalid_argument).  A number outside of 32 bits (std::out_of_range) is not cut off here; it is no valid field number. *)
Definition digit (a : ascii) : option Z :=
  let n := Z.of_nat (nat_of_ascii a) in if (48 <=? n) && (n <=? 57) then Some (n - 48) else None.
Fixpoint digits (acc : Z) (s : string) : Z :=
  match s with
  | EmptyString => acc
  | String a s' => match digit a with Some d => digits (10 * acc + d) s' | None => acc end
  end.
Definition number (s : string) : option Z :=
  match s with String a s' => match digit a with Some d => Some (digits d s') | None => None end | EmptyString => None end.
Definition space (a : ascii) : bool := let n := Z.of_nat (nat_of_ascii a) in (n =? 32) || ((9 <=? n) && (n <=? 13)).
Fixpoint stoi (s : string) : option Z :=
  match s with
  | EmptyString => None
  | String a s' =>
      if space a then stoi s'
      else if Ascii.eqb a "-" then option_map Z.opp (number s')
      else if Ascii.eqb a "+" then number s'
      else number s
  end.

(** util::fieldindex: util.cpp:506-535 *)
Fixpoint key_index (ks : list string) (key : string) (i : Z) : option Z :=
  match ks with
  | [] => None
  | k :: t => if String.eqb k key then Some i else key_index t key (i + 1)
  end.
Definition fieldindex (keys : option (list string)) (key : string) (numfields : Z) : res Z :=
  match match keys with Some ks => key_index ks key 0 | None => None end with
  | Some i => Ok i
  | None =>
      match stoi key with
      | Some i => if (0 <=? i) && (i <? numfields) then Ok i else Err "key interpreted as fieldindex for records with fewer fields"
      | None => Err "key does not exist (not in record)"
      end
  end.

(** getitem_field(key): BitMaskedArray.cpp:683-692, ByteMaskedArray.cpp:665-672, EmptyArray.cpp:343-347, IndexedArray.cpp:1332-1338,
    ListArray.cpp:754-761, ListOffsetArray.cpp:741-747, NumpyArray.cpp:1287-1291, RecordArray.cpp:854-856, RegularArray.cpp:657-664,
    UnmaskedArray.cpp:559-564 *)
Fixpoint getitem_field (key : string) (c : content) : res content :=
  match c with
  | Empty => Err "cannot slice EmptyArray by field name"
  | Numpy _ _ => Err "cannot slice NumpyArray by field name"
  | ListA starts stops c' => let* next := getitem_field key c' in mkListA starts stops next
  | ListOffset offsets c' => let* next := getitem_field key c' in mkListOffset offsets next
  | Regular size zl c' => let* next := getitem_field key c' in mkRegular size (length_ c) next
  | Indexed index c' => let* next := getitem_field key c' in simplify_optiontype (Indexed index next)
  | IndexedOption index c' => let* next := getitem_field key c' in simplify_optiontype (IndexedOption index next)
  | ByteMasked mask vw c' => let* next := getitem_field key c' in let* m := mkByteMasked mask vw next in simplify_optiontype m
  | BitMasked mask vw lsb len c' => let* next := getitem_field key c' in let* m := mkBitMasked mask vw lsb len next in simplify_optiontype m
  | Unmasked c' => let* next := getitem_field key c' in simplify_optiontype (Unmasked next)
  | Record keys len cs =>
      let* i := fieldindex keys key (zlen cs) in
      let* x := rd cs i in
      getitem_range_nowrap x 0 len
  | Union _ _ _ => UB
  end.

(** ** slices *)
(** SliceItem: Slice.h.  An index array is given by its elements, in order, and its shape.  A jagged index has offsets and, as its content,
    an array or another jagged index. *)
Inductive sliceitem : Type :=
| SAt (at_ : Z)
| SRange (start stop step : Z)
| SEllipsis
| SNewAxis
| SArray (shape index : list Z)
| SField (key : string)
| SJagged (offsets : list Z) (content : sliceitem).

(** Slice::dimlength: Slice.cpp:829-843: the items that consume a dimension *)
Definition dimlength (items : list sliceitem) : Z :=
  zlen (filter (fun it => match it with SAt _ | SRange _ _ _ | SArray _ _ => true | _ => false end) items).

(** Content::getitem_next_array_wrap: Content.cpp:1872-1896 *)
Definition getitem_next_array_wrap (outcontent : content) (shape : list Z) : res content :=
  match rev shape with
  | [] => UB
  | last :: outer =>
      let* out := mkRegular last (match outer with n :: _ => n | [] => 0 end) outcontent in
      (fix wrap (out : content) (outer : list Z) : res content :=
         match outer with
         | [] => Ok out
         | n :: outer' => let* out := mkRegular n (match outer' with m :: _ => m | [] => 0 end) out in wrap out outer'
         end) out outer
  end.

Section Width.
Variable is64 : content -> bool.

(** The next item of the slice is applied to every element of [c].  [advanced] is None for Index64::empty_advanced().
    null head: every class returns itself.
    SliceAt: ListArray.cpp:1582-1615, ListOffsetArray.cpp:2099-2123, RegularArray.cpp:1344-1367.
    SliceRange: ListArray.cpp:1619-1699, ListOffsetArray.cpp:2127-2198, RegularArray.cpp:1370-1447.
    SliceArray64: ListArray.cpp:1703-1766, ListOffsetArray.cpp:2202-2257, RegularArray.cpp:1450-1520.
    SliceJagged64: ListArray.cpp:1770-1816, ListOffsetArray.cpp:2261-2270, RegularArray.cpp:1523-1563.
    SliceEllipsis, SliceNewAxis, SliceField: Content.cpp:1473-1529.
    EmptyArray.cpp:640-712; NumpyArray.cpp:1433-1449, 3855-3873, 4284-4821 for one-dimensional arrays;
    IndexedArray.cpp:1376-1443; ByteMaskedArray.cpp:707-756; BitMaskedArray.cpp:733-737; UnmaskedArray.cpp:593-636; RecordArray.cpp:1664-1701.

    getitem_next_jagged: ListArray.cpp:1820-1876, 1968-2009; ListOffsetArray.cpp:785-799; RegularArray.cpp:1566-1599;
    IndexedArray.cpp:2771-2825; ByteMaskedArray.cpp:1433-1468; BitMaskedArray.cpp:1064-1094; UnmaskedArray.cpp:1150-1161;
    RecordArray.cpp:1860-1881; EmptyArray.cpp:715-742; NumpyArray.cpp:3876-3927. *)
Fixpoint getitem_next (fuel : nat) (c : content) (items : list sliceitem) (advanced : option (list Z)) {struct fuel} : res content :=
  match fuel with
  | O => UB
  | S fuel =>
  (** ListArray and ListOffsetArray *)
  let list_at starts stops c' (at_ : Z) tail :=
    if zlen stops <? zlen starts then Err "len(stops) < len(starts)" else
    match advanced with
    | Some _ => Err "getitem_next(SliceAt): !advanced.is_empty_advanced()"
    | None =>
        let* nextcarry := awkward_ListArray_getitem_next_at (alloc (zlen starts)) starts stops (zlen starts) at_ in
        let* nextcontent := carry c' nextcarry true in
        getitem_next fuel nextcontent tail advanced
    end in
  let list_range starts stops c' (start stop step : Z) tail :=
    if zlen stops <? zlen starts then Err "len(stops) < len(starts)" else
    let step := if step =? kSliceNone then 1 else step in
    let* carrylength := awkward_ListArray_getitem_next_range_carrylength starts stops (zlen starts) start stop step in
    let* oc := awkward_ListArray_getitem_next_range (alloc (zlen starts + 1)) (alloc carrylength) starts stops (zlen starts) start stop step in
    let '(nextoffsets, nextcarry) := oc in
    let* nextcontent := carry c' nextcarry true in
    match advanced with
    | Some a =>
        if zlen a =? 0 then let* out := getitem_next fuel nextcontent tail advanced in mkListOffset nextoffsets out
        else
          let* total := awkward_ListArray_getitem_next_range_counts nextoffsets (zlen starts) in
          let* nextadvanced := awkward_ListArray_getitem_next_range_spreadadvanced (alloc total) a nextoffsets (zlen starts) in
          let* out := getitem_next fuel nextcontent tail (Some nextadvanced) in
          mkListOffset nextoffsets out
    | None => let* out := getitem_next fuel nextcontent tail advanced in mkListOffset nextoffsets out
    end in
  let list_array starts stops c' shape (flathead : list Z) tail :=
    if zlen stops <? zlen starts then Err "len(stops) < len(starts)" else
    let first :=
      let* ca := awkward_ListArray_getitem_next_array (alloc (zlen starts * zlen flathead)) (alloc (zlen starts * zlen flathead))
                   starts stops flathead (zlen starts) (zlen flathead) (length_ c') in
      let '(nextcarry, nextadvanced) := ca in
      let* nextcontent := carry c' nextcarry true in
      getitem_next fuel nextcontent tail (Some nextadvanced) in
    match advanced with
    | None => let* out := first in getitem_next_array_wrap out shape
    | Some a =>
        if zlen a =? 0 then first
        else
          let* ca := awkward_ListArray_getitem_next_array_advanced (alloc (zlen starts)) (alloc (zlen starts))
                       starts stops flathead a (zlen starts) (length_ c') in
          let '(nextcarry, nextadvanced) := ca in
          let* nextcontent := carry c' nextcarry true in
          getitem_next fuel nextcontent tail (Some nextadvanced)
    end in
  let list_jagged starts stops c' offsets sc tail :=
    match advanced with
    | Some _ => Err "cannot mix jagged slice with NumPy-style advanced indexing"
    | None =>
        if zlen stops <? zlen starts then Err "len(stops) < len(starts)" else
        let n := zlen offsets - 1 in
        let* r := awkward_ListArray_getitem_jagged_expand (alloc (n * zlen starts)) (alloc (n * zlen starts)) offsets (alloc (n * zlen starts))
                    starts stops n (zlen starts) in
        let '(multistarts, multistops, nextcarry) := r in
        let* carried := carry c' nextcarry true in
        let* down := getitem_next_jagged fuel carried multistarts multistops sc tail in
        mkRegular n 1 down
    end in
  let list_next starts stops c' it tail :=
    match it with
    | SAt at_ => list_at starts stops c' at_ tail
    | SRange start stop step => list_range starts stops c' start stop step tail
    | SArray shape index => list_array starts stops c' shape index tail
    | SJagged offsets sc => list_jagged starts stops c' offsets sc tail
    | _ => UB
    end in
  match items with
  | [] => Ok c
  | it :: tail =>
    match it with
    | SEllipsis =>
        match c with
        | Record keys len cs =>
            let* contents := mapres (fun x => getitem_next fuel x [it] advanced) cs in
            getitem_next fuel (Record keys (minlength contents) contents) tail advanced
        | _ =>
            let '(mindepth, maxdepth) := minmax_depth c in
            if (zlen tail =? 0) || ((mindepth - 1 =? dimlength tail) && (maxdepth - 1 =? dimlength tail)) then getitem_next fuel c tail advanced
            else if (mindepth - 1 =? dimlength tail) || (maxdepth - 1 =? dimlength tail) then
              Err "ellipsis (...) can't be used on a data structure of different depths"
            else getitem_next fuel c (SRange kSliceNone kSliceNone 1 :: SEllipsis :: tail) advanced
        end
    | SNewAxis =>
        match c with
        | Record keys len cs =>
            let* contents := mapres (fun x => getitem_next fuel x [it] advanced) cs in
            getitem_next fuel (Record keys (minlength contents) contents) tail advanced
        | _ =>
            let* nextcontent := getitem_next fuel c tail advanced in
            mkRegular 1 (length_ nextcontent) nextcontent
        end
    | SField key =>
        let* next := getitem_field key c in
        getitem_next fuel next tail advanced
    | SAt _ | SRange _ _ _ | SArray _ _ | SJagged _ _ =>
        match c with
        | Empty => Err "too many dimensions in slice"
        | Numpy _ _ => Err "too many dimensions in slice"
        | ListA starts stops c' => list_next starts stops c' it tail
        | ListOffset offsets c' =>
            let* starts := make_starts offsets in
            let* stops := make_stops offsets in
            list_next starts stops c' it tail
        | Regular size zl c' =>
            let len := length_ c in
            match it with
            | SAt at_ =>
                match advanced with
                | Some _ => Err "getitem_next(SliceAt): !advanced.is_empty_advanced()"
                | None =>
                    let* nextcarry := awkward_RegularArray_getitem_next_at (alloc len) at_ len size in
                    let* nextcontent := carry c' nextcarry true in
                    getitem_next fuel nextcontent tail advanced
                end
            | SRange start stop step =>
                if step =? 0 then Err "getitem_next(SliceRange): range.step() == 0" else
                let '(regular_start, nextsize) := RegularArray_range_nextsize start stop step size in
                let* nextcarry := awkward_RegularArray_getitem_next_range (alloc (len * nextsize)) regular_start step len size nextsize in
                let* nextcontent := carry c' nextcarry true in
                match advanced with
                | Some a =>
                    if zlen a =? 0 then let* out := getitem_next fuel nextcontent tail advanced in mkRegular nextsize len out
                    else
                      let* nextadvanced := awkward_RegularArray_getitem_next_range_spreadadvanced (alloc (len * nextsize)) a len nextsize in
                      let* out := getitem_next fuel nextcontent tail (Some nextadvanced) in
                      mkRegular nextsize len out
                | None => let* out := getitem_next fuel nextcontent tail advanced in mkRegular nextsize len out
                end
            | SArray shape flathead =>
                let* regular_flathead := awkward_RegularArray_getitem_next_array_regularize (alloc (zlen flathead)) flathead (zlen flathead) size in
                let first :=
                  let* ca := awkward_RegularArray_getitem_next_array (alloc (len * zlen flathead)) (alloc (len * zlen flathead))
                               regular_flathead len (zlen regular_flathead) size in
                  let '(nextcarry, nextadvanced) := ca in
                  let* nextcontent := carry c' nextcarry true in
                  getitem_next fuel nextcontent tail (Some nextadvanced) in
                match advanced with
                | None => let* out := first in getitem_next_array_wrap out shape
                | Some a =>
                    if zlen a =? 0 then first
                    else if size =? 0 then
                      let* nextcontent := carry c' [] true in
                      getitem_next fuel nextcontent tail (Some [])
                    else
                      let* ca := awkward_RegularArray_getitem_next_array_advanced (alloc len) (alloc len) a regular_flathead len size in
                      let '(nextcarry, nextadvanced) := ca in
                      let* nextcontent := carry c' nextcarry true in
                      getitem_next fuel nextcontent tail (Some nextadvanced)
                end
            | SJagged offsets sc =>
                match advanced with
                | Some _ => Err "cannot mix jagged slice with NumPy-style advanced indexing"
                | None =>
                    let n := zlen offsets - 1 in
                    if negb (n =? size) then Err "cannot fit jagged slice into RegularArray" else
                    let* m := awkward_RegularArray_getitem_jagged_expand (alloc (n * len)) (alloc (n * len)) offsets n len in
                    let '(multistarts, multistops) := m in
                    let* down := getitem_next_jagged fuel c' multistarts multistops sc tail in
                    mkRegular n len down
                end
            | _ => UB
            end
        | Indexed index c' =>
            let* nextcarry := awkward_IndexedArray_getitem_nextcarry (alloc (zlen index)) index (zlen index) (length_ c') in
            let* next := carry c' nextcarry false in
            getitem_next fuel next items advanced
        | IndexedOption _ _ | ByteMasked _ _ _ | BitMasked _ _ _ _ _ =>
            option_path_of true (fun next => getitem_next fuel next items advanced) c
        | Unmasked c' =>
            let* out := getitem_next fuel c' items advanced in
            simplify_optiontype (Unmasked out)
        | Record keys len cs =>
            let* contents := mapres (fun x => getitem_next fuel x [it] advanced) cs in
            getitem_next fuel (Record keys (minlength contents) contents) tail advanced
        | Union _ _ _ => UB
        end
    end
  end
  end
with getitem_next_jagged (fuel : nat) (c : content) (slicestarts slicestops : list Z) (sc : sliceitem) (tail : list sliceitem) {struct fuel} : res content :=
  match fuel with
  | O => UB
  | S fuel =>
  let lists w starts stops c' :=
    if negb (zlen slicestarts =? zlen starts) then Err "cannot fit jagged slice" else
    match sc with
    | SArray _ sliceindex =>
        if zlen stops <? zlen starts then Err "len(stops) < len(starts)" else
        let* carrylen := awkward_ListArray_getitem_jagged_carrylen slicestarts slicestops (zlen slicestarts) in
        let* oc := awkward_ListArray_getitem_jagged_apply (alloc (zlen slicestarts + 1)) (alloc carrylen) slicestarts slicestops (zlen slicestarts)
                     sliceindex (zlen sliceindex) starts stops (length_ c') in
        let '(outoffsets, nextcarry) := oc in
        let* nextcontent := carry c' nextcarry true in
        let* outcontent := getitem_next fuel nextcontent tail None in
        mkListOffset outoffsets outcontent
    | SJagged offsets sc' =>
        let* outoffsets := awkward_ListArray_getitem_jagged_descend (alloc (zlen slicestarts + 1)) slicestarts slicestops (zlen slicestarts) starts stops in
        let* compact := toListOffsetArray64 w true (ListA starts stops c') in
        match compact with
        | ListOffset _ next_content =>
            let* sstarts := make_starts offsets in
            let* sstops := make_stops offsets in
            let* outcontent := getitem_next_jagged fuel next_content sstarts sstops sc' tail in
            mkListOffset outoffsets outcontent
        | _ => UB
        end
    | _ => Err "unexpected slice type for getitem_next_jagged"
    end in
  let masked pair c' len :=
    if negb (zlen slicestarts =? len) then Err "cannot fit jagged slice" else
    let* p := (pair : res (list Z * list Z)) in
    let '(nextcarry, outindex) := p in
    let* red := awkward_MaskedArray_getitem_next_jagged_project outindex slicestarts slicestops (alloc (zlen nextcarry)) (alloc (zlen nextcarry)) len in
    let '(reducedstarts, reducedstops) := red in
    let* next := carry c' nextcarry true in
    let* out := getitem_next_jagged fuel next reducedstarts reducedstops sc tail in
    simplify_optiontype (IndexedOption outindex out) in
  match c with
  | Empty => Err "too many jagged slice dimensions for array"
  | Numpy _ _ => Err "too many jagged slice dimensions for array"
  | ListA starts stops c' => lists (is64 c) starts stops c'
  | ListOffset offsets c' =>
      let* starts := make_starts offsets in
      let* stops := make_stops offsets in
      lists (is64 c) starts stops c'
  | Regular _ _ _ =>
      let* self := toListOffsetArray64 (is64 c) true c in
      getitem_next_jagged fuel self slicestarts slicestops sc tail
  | Indexed index c' =>
      if negb (zlen slicestarts =? zlen index) then Err "cannot fit jagged slice" else
      let* nextcarry := awkward_IndexedArray_getitem_nextcarry (alloc (zlen index)) index (zlen index) (length_ c') in
      let* next := carry c' nextcarry false in
      getitem_next_jagged fuel next slicestarts slicestops sc tail
  | IndexedOption index c' => masked (IndexedOption_nextcarry_outindex index c') c' (zlen index)
  | ByteMasked mask vw c' => masked (ByteMasked_nextcarry_outindex mask vw) c' (zlen mask)
  | BitMasked _ _ _ _ _ =>
      let* bm := toByteMaskedArray c in
      getitem_next_jagged fuel bm slicestarts slicestops sc tail
  | Unmasked c' =>
      let* out := getitem_next_jagged fuel c' slicestarts slicestops sc tail in
      simplify_optiontype (Unmasked out)
  | Record keys len cs =>
      match cs with
      | [] => Ok c
      | _ =>
          let* contents := mapres (fun x =>
            let* trimmed := getitem_range_nowrap x 0 len in
            getitem_next_jagged fuel trimmed slicestarts slicestops sc tail) cs in
          Ok (Record keys (minlength contents) contents)
      end
  | Union _ _ _ => UB
  end
  end.

(** getitem_nothing: EmptyArray.cpp:307-309, NumpyArray.cpp:1188-1205, ListArray.cpp:655-657, ListOffsetArray.cpp:651-653, RegularArray.cpp:598-600,
    IndexedArray.cpp:1246-1248, ByteMaskedArray.cpp:604-606, BitMaskedArray.cpp:626-628, UnmaskedArray.cpp:503-505, RecordArray.cpp:775-777,
    UnionArray.cpp:1088-1090 *)
Definition getitem_nothing (c : content) : res content :=
  match c with
  | Empty => Ok Empty
  | Numpy dt _ => Ok (Numpy dt [])
  | ListA _ _ c' | ListOffset _ c' | Regular _ _ c' | Indexed _ c' | IndexedOption _ c' | ByteMasked _ _ c' | BitMasked _ _ _ _ c' | Unmasked c' =>
      getitem_range_nowrap c' 0 0
  | Record _ _ _ | Union _ _ _ => getitem_range_nowrap c 0 0
  end.

(** Content::getitem: Content.cpp:1370-1389.  NumpyArray::getitem (NumpyArray.cpp:1331-1430) goes other ways for one-dimensional arrays;
    they are not modelled. *)
Definition getitem (fuel : nat) (c : content) (items : list sliceitem) : res item :=
  let* next := mkRegular (length_ c) 1 c in
  let* out := getitem_next fuel next items None in
  if length_ out =? 0 then let* r := getitem_nothing out in Ok (IArray r)
  else getitem_at_nowrap out 0.
End Width.
