(** Option-type and indexed nodes: conversions, masks, projection and simplification. *)
From Verif Require Import Base Content KCore Core KOption.

(** toByteMaskedArray: BitMaskedArray.cpp:365-381, UnmaskedArray.cpp:270-283 *)
Definition toByteMaskedArray (c : content) : res content :=
  match c with
  | BitMasked mask vw lsb len c' =>
      let* bm := BitMasked_bytemask0 mask lsb len in
      mkByteMasked bm vw c'
  | Unmasked c' =>
      let* bm := awkward_one_mask (alloc (length_ c)) (length_ c) in
      mkByteMasked bm true c'
  | _ => UB
  end.

(** toIndexedOptionArray64: BitMaskedArray.cpp:384-399, ByteMaskedArray.cpp:370-383, UnmaskedArray.cpp:286-297 *)
Definition toIndexedOptionArray64 (c : content) : res content :=
  match c with
  | BitMasked mask vw lsb len c' =>
      let* index := awkward_BitMaskedArray_to_IndexedOptionArray (alloc (zlen mask * 8)) mask (zlen mask) vw lsb in
      let* index := iview 0 len index in
      Ok (IndexedOption index c')
  | ByteMasked mask vw c' =>
      let* index := awkward_ByteMaskedArray_toIndexedOptionArray (alloc (length_ c)) mask (zlen mask) vw in
      Ok (IndexedOption index c')
  | Unmasked c' =>
      let* index := awkward_carry_arange (alloc (length_ c)) (length_ c) in
      Ok (IndexedOption index c')
  | _ => UB
  end.

(** bytemask: BitMaskedArray.cpp:331-342, ByteMaskedArray.cpp:332-347, IndexedArray.cpp:631-651, UnmaskedArray.cpp:242-250.
    Non-zero = missing. *)
Definition bytemask (c : content) : res (list Z) :=
  match c with
  | BitMasked mask vw lsb len _ =>
      let* bm := awkward_BitMaskedArray_to_ByteMaskedArray (alloc (zlen mask * 8)) mask (zlen mask) vw lsb in
      iview 0 len bm
  | ByteMasked mask vw _ =>
      if negb vw then Ok mask else awkward_ByteMaskedArray_mask (alloc (length_ c)) mask (zlen mask) vw
  | IndexedOption index _ => awkward_IndexedArray_mask (alloc (zlen index)) index (zlen index)
  | Indexed index _ => awkward_zero_mask (alloc (zlen index)) (zlen index)
  | Unmasked _ => awkward_zero_mask (alloc (length_ c)) (length_ c)
  | _ => UB
  end.

(** project(): the elements that are not missing.  ByteMaskedArray.cpp:284-304, BitMaskedArray.cpp:321-323,
    IndexedArray.cpp:570-603, UnmaskedArray.cpp:228-230 *)
Definition ByteMasked_project (mask : list Z) (vw : bool) (c' : content) : res content :=
  let* numnull := awkward_ByteMaskedArray_numnull mask (zlen mask) vw in
  let* nextcarry := awkward_ByteMaskedArray_getitem_nextcarry (alloc (zlen mask - numnull)) mask (zlen mask) vw in
  carry c' nextcarry false.
Definition IndexedOption_project (index : list Z) (c' : content) : res content :=
  let* numnull := awkward_IndexedArray_numnull index (zlen index) in
  let* nextcarry := awkward_IndexedArray_flatten_nextcarry (alloc (zlen index - numnull)) index (zlen index) (length_ c') in
  carry c' nextcarry false.
Definition project (c : content) : res content :=
  match c with
  | ByteMasked mask vw c' => ByteMasked_project mask vw c'
  | BitMasked mask vw lsb len c' =>
      let* bm := BitMasked_bytemask0 mask lsb len in
      let* _ := mkByteMasked bm vw c' in
      ByteMasked_project bm vw c'
  | IndexedOption index c' => IndexedOption_project index c'
  | Indexed index c' =>
      let* nextcarry := awkward_IndexedArray_getitem_nextcarry (alloc (zlen index)) index (zlen index) (length_ c') in
      carry c' nextcarry false
  | Unmasked c' => Ok c'
  | _ => UB
  end.

(** project(mask): the elements that are neither missing nor masked out.  ByteMaskedArray.cpp:307-329, BitMaskedArray.cpp:326-328,
    IndexedArray.cpp:607-627, UnmaskedArray.cpp:233-239 *)
Definition ByteMasked_project_mask (mymask : list Z) (vw : bool) (c' : content) (mask : list Z) : res content :=
  if negb (zlen mymask =? zlen mask) then Err "mask length is not equal to ByteMaskedArray length" else
  let* nextmask := awkward_ByteMaskedArray_overlay_mask (alloc (zlen mymask)) mask mymask (zlen mymask) vw in
  let* _ := mkByteMasked nextmask false c' in
  ByteMasked_project nextmask false c'.
Definition project_mask (c : content) (mask : list Z) : res content :=
  match c with
  | ByteMasked mymask vw c' => ByteMasked_project_mask mymask vw c' mask
  | BitMasked mymask vw lsb len c' =>
      let* bm := BitMasked_bytemask0 mymask lsb len in
      let* _ := mkByteMasked bm vw c' in
      ByteMasked_project_mask bm vw c' mask
  | Indexed index c' | IndexedOption index c' =>
      if negb (zlen index =? zlen mask) then Err "mask length is not equal to IndexedArray length" else
      let* nextindex := awkward_IndexedArray_overlay_mask (alloc (zlen index)) mask index (zlen index) in
      IndexedOption_project nextindex c'
  | Unmasked c' =>
      let* _ := mkByteMasked mask false c' in
      ByteMasked_project mask false c'
  | _ => UB
  end.

(** simplify_optiontype: IndexedArray.cpp:655-956, ByteMaskedArray.cpp:350-367, BitMaskedArray.cpp:345-362, UnmaskedArray.cpp:253-267.
    The sixteen branches of IndexedArray.cpp are one function of what the content gives as inner index. *)
Definition simplify_inner (c' : content) : res (option (bool * list Z * content)) :=
  match c' with
  | Indexed inner c'' => Ok (Some (false, inner, c''))
  | IndexedOption inner c'' => Ok (Some (true, inner, c''))
  | ByteMasked _ _ _ | BitMasked _ _ _ _ _ | Unmasked _ =>
      let* step2 := toIndexedOptionArray64 c' in
      match step2 with
      | IndexedOption inner c'' => Ok (Some (true, inner, c''))
      | _ => UB
      end
  | _ => Ok None
  end.
Definition Indexed_simplify (isoption : bool) (index : list Z) (c' : content) : res content :=
  let* inner := simplify_inner c' in
  match inner with
  | Some (inner_option, inner, c'') =>
      let* result := awkward_IndexedArray_simplify (alloc (zlen index)) index (zlen index) inner (zlen inner) in
      Ok (if isoption || inner_option then IndexedOption result c'' else Indexed result c'')
  | None => Ok (if isoption then IndexedOption index c' else Indexed index c')
  end.
Definition simplify_optiontype (c : content) : res content :=
  match c with
  | Indexed index c' => Indexed_simplify false index c'
  | IndexedOption index c' => Indexed_simplify true index c'
  | ByteMasked _ _ c' | BitMasked _ _ _ _ c' =>
      if needs_simplify c' then
        let* step1 := toIndexedOptionArray64 c in
        match step1 with
        | IndexedOption index c'' => Indexed_simplify true index c''
        | _ => UB
        end
      else Ok c
  | Unmasked c' => if needs_simplify c' then Ok c' else Ok c
  | _ => UB
  end.
