(** The core methods of every layout node: getitem_at, getitem_range, carry, validityerror. *)
From Verif Require Import Base KRange Content KCore.
From Verif Require SpecArray.

(** util::make_starts / make_stops (src/libawkward/util.cpp): all but the last / all but the first offset. *)
Definition make_starts (offsets : list Z) : res (list Z) := view 0 (zlen offsets - 1) offsets.
Definition make_stops (offsets : list Z) : res (list Z) := view 1 (zlen offsets) offsets.

(** BitMaskedArray::toByteMaskedArray, BitMaskedArray.cpp:365-381; returns the byte mask *)
Definition BitMasked_bytemask0 (mask : list Z) (lsb : bool) (len : Z) : res (list Z) :=
  let* bytemask := awkward_BitMaskedArray_to_ByteMaskedArray (alloc (zlen mask * 8)) mask (zlen mask) false lsb in
  iview 0 len bytemask.

(** getitem_range_nowrap: EmptyArray.cpp:338, NumpyArray.cpp:1259, ListArray.cpp:739, ListOffsetArray.cpp:726,
    RegularArray.cpp:643, IndexedArray.cpp:1317, ByteMaskedArray.cpp:651, BitMaskedArray.cpp:678,
    UnmaskedArray.cpp:547, RecordArray.cpp:823, UnionArray.cpp:1155 *)
Fixpoint getitem_range_nowrap (c : content) (start stop : Z) {struct c} : res content :=
  match c with
  | Empty => Ok Empty
  | Numpy dt data => let* d := view start stop data in Ok (Numpy dt d)
  | ListA starts stops c =>
      let* a := iview start stop starts in
      let* b := iview start stop stops in
      mkListA a b c
  | ListOffset offsets c =>
      let* o := iview start (stop + 1) offsets in
      mkListOffset o c
  | Regular size _ c =>
      let* c' := getitem_range_nowrap c (start*size) (stop*size) in
      mkRegular size (stop - start) c'
  | Indexed index c => let* i := iview start stop index in Ok (Indexed i c)
  | IndexedOption index c => let* i := iview start stop index in Ok (IndexedOption i c)
  | ByteMasked mask vw c =>
      let* m := iview start stop mask in
      let* c' := getitem_range_nowrap c start stop in
      mkByteMasked m vw c'
  | BitMasked mask vw lsb len c =>
      let* bm := BitMasked_bytemask0 mask lsb len in
      let* _ := mkByteMasked bm vw c in
      let* m := iview start stop bm in
      let* c' := getitem_range_nowrap c start stop in
      mkByteMasked m vw c'
  | Unmasked c => let* c' := getitem_range_nowrap c start stop in Ok (Unmasked c')
  | Record keys len cs =>
      match cs with
      | [] => mkRecord keys (stop - start) cs
      | _ => if (start =? 0) && (stop =? len) then Ok c
             else let* cs' := mapres (fun c => getitem_range_nowrap c start stop) cs in
                  mkRecord keys (stop - start) cs'
      end
  | Union tags index cs =>
      let* t := iview start stop tags in
      let* i := iview start stop index in
      mkUnion t i cs
  end.

(** getitem_range of each class, e.g. ListArray.cpp:716-735, NumpyArray.cpp:1250-1256, ListOffsetArray.cpp:705-723:
    regularize, then getitem_range_nowrap.  EmptyArray.cpp:333 returns itself. *)
Definition getitem_range (c : content) (start stop : Z) : res content :=
  match c with
  | Empty => Ok Empty
  | ListA starts stops _ =>
      let '(a, b) := regularize_rangeslice start stop true (negb (start =? kSliceNone)) (negb (stop =? kSliceNone)) (length_ c) in
      if zlen stops <? b then Err "len(stops) < len(starts)" else getitem_range_nowrap c a b
  | _ =>
      let '(a, b) := regularize_rangeslice start stop true (negb (start =? kSliceNone)) (negb (stop =? kSliceNone)) (length_ c) in
      getitem_range_nowrap c a b
  end.

(** getitem_at_nowrap: EmptyArray.cpp:324, NumpyArray.cpp:1223 (one-dimensional: a scalar), ListArray.cpp:683, ListOffsetArray.cpp:675,
    RegularArray.cpp:619, IndexedArray.cpp:1268, ByteMaskedArray.cpp:624, BitMaskedArray.cpp:646,
    UnmaskedArray.cpp:523, RecordArray.cpp:799, UnionArray.cpp:1111 *)
Fixpoint getitem_at_nowrap (c : content) (at_ : Z) {struct c} : res item :=
  match c with
  | Empty => Err "index out of range"
  | Numpy dt data => let* x := rd data at_ in Ok (IScalar dt x)
  | ListA starts stops c =>
      let* start := rd starts at_ in
      let* stop := rd stops at_ in
      let '(start, stop) := if start =? stop then (0, 0) else (start, stop) in
      if start <? 0 then Err "starts[i] < 0"
      else if stop <? start then Err "starts[i] > stops[i]"
      else if length_ c <? stop then Err "starts[i] != stops[i] and stops[i] > len(content)"
      else let* r := getitem_range_nowrap c start stop in Ok (IArray r)
  | ListOffset offsets c =>
      let* start := rd offsets at_ in
      let* stop := rd offsets (at_ + 1) in
      let '(start, stop) := if start =? stop then (0, 0) else (start, stop) in
      if start <? 0 then Err "offsets[i] < 0"
      else if stop <? start then Err "offsets[i] > offsets[i + 1]"
      else if length_ c <? stop then Err "offsets[i] != offsets[i + 1] and offsets[i + 1] > len(content)"
      else let* r := getitem_range_nowrap c start stop in Ok (IArray r)
  | Regular size _ c => let* r := getitem_range_nowrap c (at_*size) ((at_ + 1)*size) in Ok (IArray r)
  | Indexed index c =>
      let* i := rd index at_ in
      if i <? 0 then Err "index[i] < 0"
      else if length_ c <=? i then Err "index[i] >= len(content)"
      else getitem_at_nowrap c i
  | IndexedOption index c =>
      let* i := rd index at_ in
      if i <? 0 then Ok INone
      else if length_ c <=? i then Err "index[i] >= len(content)"
      else getitem_at_nowrap c i
  | ByteMasked mask vw c =>
      let* m := rd mask at_ in
      if Bool.eqb (negb (m =? 0)) vw then getitem_at_nowrap c at_ else Ok INone
  | BitMasked mask vw lsb len c =>
      let bitat := Z.quot at_ 8 in
      let shift := Z.rem at_ 8 in
      let* byte := rd mask bitat in
      let asbool := if lsb then Z.land (Z.shiftr byte shift) 1 else (Z.land (Z.shiftl byte shift) 128) mod 256 in
      if Bool.eqb (negb (asbool =? 0)) vw then getitem_at_nowrap c at_ else Ok INone
  | Unmasked c => getitem_at_nowrap c at_
  | Record _ _ _ => Ok (IRecord c at_)
  | Union tags index cs =>
      let* tag := rd tags at_ in
      let* i := rd index at_ in
      (* (size_t)tag: a negative tag becomes huge *)
      if negb ((0 <=? tag) && (tag <? zlen cs)) then Err "not 0 <= tag[i] < numcontents" else
      nth_apply (fun c => if negb ((0 <=? i) && (i <? length_ c)) then Err "index[i] > len(content(tag))"
                          else getitem_at_nowrap c i) cs tag
  end.

(** getitem_at of each class, e.g. ListOffsetArray.cpp:657-671, RecordArray.cpp:780-796 *)
Definition getitem_at (c : content) (at_ : Z) : res item :=
  match c with
  | Empty => Err "index out of range"
  | _ =>
    let regular_at := if at_ <? 0 then at_ + length_ c else at_ in
    if negb ((0 <=? regular_at) && (regular_at <? length_ c)) then Err "index out of range"
    else match c with
         | ListA _ stops _ => if zlen stops <=? regular_at then Err "len(stops) < len(starts)"
                              else getitem_at_nowrap c regular_at
         | _ => getitem_at_nowrap c regular_at
         end
  end.

(** Record (Record.cpp): one row, read field by field: the [i]-th field at the row's position
    (Record::field, Record.cpp:415-419). *)
Definition record_field (array : content) (at_ i : Z) : res item :=
  match array with
  | Record _ _ cs => let* c := rd cs i in getitem_at_nowrap c at_
  | _ => UB
  end.

(** carry: EmptyArray.cpp:373, NumpyArray.cpp:1452, ListArray.cpp:800, ListOffsetArray.cpp:803, RegularArray.cpp:699,
    IndexedArray.cpp:1447, ByteMaskedArray.cpp:759, BitMaskedArray.cpp:740, UnmaskedArray.cpp:639, RecordArray.cpp:928,
    UnionArray.cpp:1286 *)
Definition carry_contiguous (c : content) (cry : list Z) (k : unit -> res content) : res content :=
  let* contiguous := awkward_Index_iscontiguous cry (zlen cry) in
  if contiguous then
    if zlen cry =? length_ c then Ok c else getitem_range_nowrap c 0 (zlen cry)
  else k tt.

Fixpoint carry (c : content) (cry : list Z) (allow_lazy : bool) {struct c} : res content :=
  let n := zlen cry in
  match c with
  | Empty => if n =? 0 then Ok Empty else Err "cannot extract elements from EmptyArray"
  | Numpy dt data => carry_contiguous c cry (fun _ =>
      let* d := awkward_NumpyArray_getitem_next_null (alloc n) data n cry in Ok (Numpy dt d))
  | ListA starts stops c' => carry_contiguous c cry (fun _ =>
      if zlen stops <? zlen starts then Err "len(stops) < len(starts)" else
      let* ab := awkward_ListArray_getitem_carry (alloc n) (alloc n) starts stops cry (zlen starts) n in
      mkListA (fst ab) (snd ab) c')
  | ListOffset offsets c' => carry_contiguous c cry (fun _ =>
      let* starts := make_starts offsets in
      let* stops := make_stops offsets in
      let* ab := awkward_ListArray_getitem_carry (alloc n) (alloc n) starts stops cry (zlen offsets - 1) n in
      mkListA (fst ab) (snd ab) c')
  | Regular size zl c' => carry_contiguous c cry (fun _ =>
      let* nextcarry := awkward_RegularArray_getitem_carry (alloc (n * size)) cry n size in
      let* c'' := carry c' nextcarry allow_lazy in
      mkRegular size n c'')
  | Indexed index c' => carry_contiguous c cry (fun _ =>
      let* i := awkward_IndexedArray_getitem_carry (alloc n) index cry (zlen index) n in
      Ok (Indexed i c'))
  | IndexedOption index c' => carry_contiguous c cry (fun _ =>
      let* i := awkward_IndexedArray_getitem_carry (alloc n) index cry (zlen index) n in
      Ok (IndexedOption i c'))
  | ByteMasked mask vw c' => carry_contiguous c cry (fun _ =>
      let* m := awkward_ByteMaskedArray_getitem_carry (alloc n) mask (zlen mask) cry n in
      let* c'' := carry c' cry allow_lazy in
      mkByteMasked m vw c'')
  | BitMasked mask vw lsb len c' => carry_contiguous c cry (fun _ =>
      let* bm := BitMasked_bytemask0 mask lsb len in
      let* _ := mkByteMasked bm vw c' in
      carry_contiguous (ByteMasked bm vw c') cry (fun _ =>
        let* m := awkward_ByteMaskedArray_getitem_carry (alloc n) bm (zlen bm) cry n in
        let* c'' := carry c' cry allow_lazy in
        mkByteMasked m vw c''))
  | Unmasked c' => carry_contiguous c cry (fun _ =>
      let* c'' := carry c' cry allow_lazy in Ok (Unmasked c''))
  | Record keys len cs =>
      if allow_lazy then Ok (Indexed cry c)
      else carry_contiguous c cry (fun _ =>
        let* cs' := mapres (fun c => carry c cry allow_lazy) cs in
        mkRecord keys n cs')
  | Union tags index cs => carry_contiguous c cry (fun _ =>
      if zlen index <? zlen tags then Err "len(index) < len(tags)" else
      let* t := awkward_index_carry (alloc n) tags cry (zlen tags) n in
      let* i := awkward_index_carry_nocheck (alloc n) index cry n in
      mkUnion t i cs)
  end.

(** The classes for which validityerror of an option/indexed node complains about its content,
    e.g. BitMaskedArray.cpp:808-815 *)
Definition needs_simplify (c : content) : bool :=
  match c with
  | BitMasked _ _ _ _ _ | ByteMasked _ _ _ | Indexed _ _ | IndexedOption _ _ | Unmasked _ => true
  | _ => false
  end.
Definition is_union (c : content) : bool := match c with Union _ _ _ => true | _ => false end.

(** Run a kernel that only reports errors: Err becomes an error message. [UB] stays. *)
Definition check (r : res unit) (k : unit -> res (option string)) : res (option string) :=
  match r with Ok _ => k tt | Err m => Ok (Some m) | UB => UB end.
Definition report (m : string) : res (option string) := Ok (Some m).

(** validityerror: Ok None = valid, Ok (Some m) = the error message (without the path).
    EmptyArray.cpp:431, NumpyArray.cpp:1543, ListArray.cpp:905, ListOffsetArray.cpp:903, RegularArray.cpp:787,
    IndexedArray.cpp:1525, ByteMaskedArray.cpp:829, BitMaskedArray.cpp:793, UnmaskedArray.cpp:698, RecordArray.cpp:1036,
    UnionArray.cpp:1452.  The checks on parameters (strings, categoricals) are not modelled. *)
Section AllValid.
  Variable f : content -> res (option string).
  Fixpoint all_valid (cs : list content) : res (option string) :=
    match cs with
    | [] => Ok None
    | c :: cs => let* r := f c in match r with Some m => Ok (Some m) | None => all_valid cs end
    end.
End AllValid.
Fixpoint validityerror (c : content) : res (option string) :=
  match c with
  | Empty => Ok None
  | Numpy _ _ => Ok None
  | ListA starts stops c =>
      if zlen stops <? zlen starts then report "len(stops) < len(starts)" else
      check (awkward_ListArray_validity starts stops (zlen starts) (length_ c)) (fun _ => validityerror c)
  | ListOffset offsets c =>
      if zlen offsets <? 1 then report "len(offsets) < 1" else
      let* starts := make_starts offsets in
      let* stops := make_stops offsets in
      check (awkward_ListArray_validity starts stops (zlen starts) (length_ c)) (fun _ => validityerror c)
  | Regular size _ c => if size <? 0 then report "size < 0" else validityerror c
  | Indexed index c =>
      check (awkward_IndexedArray_validity index (zlen index) (length_ c) false) (fun _ =>
      if needs_simplify c then report "forgotten simplify_optiontype" else validityerror c)
  | IndexedOption index c =>
      check (awkward_IndexedArray_validity index (zlen index) (length_ c) true) (fun _ =>
      if needs_simplify c then report "forgotten simplify_optiontype" else validityerror c)
  | ByteMasked mask _ c =>
      if length_ c <? zlen mask then report "len(content) < len(mask)"
      else if needs_simplify c then report "forgotten simplify_optiontype" else validityerror c
  | BitMasked mask _ _ len c =>
      if zlen mask * 8 <? len then report "len(mask) * 8 < length"
      else if length_ c <? len then report "len(content) < length"
      else if needs_simplify c then report "forgotten simplify_optiontype" else validityerror c
  | Unmasked c => if needs_simplify c then report "forgotten simplify_optiontype" else validityerror c
  | Record _ len cs =>
      if existsb (fun c => length_ c <? len) cs then report "len(field) < len(recordarray)"
      else all_valid validityerror cs
  | Union tags index cs =>
      if existsb is_union cs then report "forgotten simplify_uniontype"
      else if zlen index <? zlen tags then report "len(index) < len(tags)"
      else check (awkward_UnionArray_validity tags index (zlen tags) (zlen cs) (map length_ cs)) (fun _ =>
           all_valid validityerror cs)
  end.

(** to_list, the recursive reading of every element (src/python and Content::tojson_part read the same way:
    getitem_at_nowrap for 0 <= i < length, then into the item).  [fuel] bounds the nesting depth and
    running out of it answers [UB]. *)
Section Tolist.
  Variable item_value : item -> res SpecArray.value.
  Definition tolist_with (c : content) : res (list SpecArray.value) :=
    mapres (fun i => let* it := getitem_at_nowrap c i in item_value it) (zseq 0 (length_ c)).
End Tolist.
Fixpoint item_value (fuel : nat) (it : item) : res SpecArray.value :=
  match fuel with
  | O => UB
  | S fuel =>
    match it with
    | IScalar dt z => Ok (SpecArray.scalar dt z)
    | INone => Ok SpecArray.VNone
    | IArray c => let* l := tolist_with (item_value fuel) c in Ok (SpecArray.VList l)
    | IRecord (Record keys len cs) i =>
        let* row := mapres (fun k => let* it := record_field (Record keys len cs) i k in item_value fuel it) (zseq 0 (zlen cs)) in
        Ok (SpecArray.mkrow keys row)
    | IRecord _ _ => UB
    end
  end.
Definition tolist (fuel : nat) (c : content) : res (list SpecArray.value) := tolist_with (item_value fuel) c.
