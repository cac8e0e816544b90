(** Identities: the labels that setidentities hangs on an array and on everything inside it
    (include/awkward/Identities.h, src/libawkward/Identities.cpp and the setidentities, getitem_range_nowrap
    and carry methods of the array classes).

    Simplifications: Identities32 and Identities64 are one type, so to64 is the identity function here; the
    reference number (newref) is dropped; the identities of a layout are a tree [ids] of the same shape beside
    the layout, instead of a pointer in each node (so one node occurring twice in a layout is two nodes here). *)
From Verif Require Import Base KRange Content KCore Core Merge.
Local Open Scope string_scope.
Local Open Scope list_scope.
Local Open Scope Z_scope.

(** IdentitiesOf<T>, include/awkward/Identities.h:251-412: field location, offset, width, length and buffer *)
Record idents := mkI {
  fieldloc : list (Z * string);
  offset : Z;
  width : Z;
  ilen : Z;
  ibuf : list Z
}.

(** IdentitiesOf<T>::IdentitiesOf(ref, fieldloc, width, length), Identities.cpp:69-77: fresh memory *)
Definition newI (loc : list (Z * string)) (w len : Z) (buf : list Z) : idents := mkI loc 0 w len buf.

(** IdentitiesOf<T>::data, Identities.h: the memory from the offset on *)
Definition idata (idn : idents) : list Z := slice (offset idn) (zlen (ibuf idn)) (ibuf idn).

(** ** Methods of Identities *)
(** Identities.cpp:192-208 *)
Definition irange (idn : idents) (start stop : Z) : res idents :=
  if negb ((0 <=? start) && (start <? ilen idn) && (0 <=? stop) && (stop <=? ilen idn)) && negb (start =? stop)
  then Err "Identities::getitem_range_nowrap with illegal start:stop for this length"
  else Ok (mkI (fieldloc idn) (offset idn + width idn * start * (if start =? stop then 0 else 1)) (width idn) (stop - start) (ibuf idn)).

(** Identities.cpp:231-248: allocates and copies [length] numbers, whatever the width *)
Definition ideep_copy (idn : idents) : res idents :=
  let* buf := view (offset idn) (offset idn + ilen idn) (ibuf idn) in
  Ok (mkI (fieldloc idn) 0 (width idn) (ilen idn) buf).

(** Identities.cpp:295-304 *)
Definition withfieldloc (idn : idents) (loc : list (Z * string)) : idents :=
  mkI loc (offset idn) (width idn) (ilen idn) (ibuf idn).

(** Identities.cpp:306-310 *)
Definition ivalue (idn : idents) (row col : Z) : res Z := rd (ibuf idn) (offset idn + row * width idn + col).

(** getitem_at_nowrap, Identities.cpp:326-341 *)
Definition iat (idn : idents) (at_ : Z) : res (list Z) :=
  if negb ((0 <=? at_) && (at_ <? ilen idn)) then Err "Identities::getitem_at_nowrap with illegal index for this length"
  else for_ (offset idn + at_) (offset idn + at_ + width idn)
         (fun i out => let* x := rd (ibuf idn) i in Ok (out ++ [x])) [].

(** awkward_Identities_getitem_carry.cpp:7-25 *)
Definition awkward_Identities_getitem_carry (newptr ptr carryptr : list Z) (lencarry w length : Z) : res (list Z) :=
  for_ 0 lencarry (fun i newptr =>
    let* c := rd carryptr i in
    if length <=? c then Err "index out of range" else
    for_ 0 w (fun j newptr =>
      let* x := rd ptr (w * c + j) in wr newptr (w * i + j) x) newptr) newptr.

(** getitem_carry_64, Identities.cpp:250-285 *)
Definition icarry (idn : idents) (cry : list Z) : res idents :=
  let* buf := awkward_Identities_getitem_carry (alloc (width idn * zlen cry)) (idata idn) cry (zlen cry) (width idn) (ilen idn) in
  Ok (newI (fieldloc idn) (width idn) (zlen cry) buf).

(** ** Kernels *)
(** awkward_new_Identities.cpp:8-16 *)
Definition awkward_new_Identities (toptr : list Z) (length : Z) : res (list Z) :=
  for_ 0 length (fun i toptr => wr toptr i i) toptr.

(** awkward_Identities_extend.cpp:7-21 *)
Definition awkward_Identities_extend (toptr fromptr : list Z) (fromlength tolength : Z) : res (list Z) :=
  let* toptr := for_ 0 fromlength (fun i toptr => let* x := rd fromptr i in wr toptr i x) toptr in
  for_ (Z.max 0 fromlength) tolength (fun i toptr => wr toptr i (-1)) toptr.

(** In the next kernels the result [None] stands for *uniquecontents = false with an early return:
    once it is reached the remaining iterations do nothing. *)

(** awkward_Identities_from_ListArray.cpp:7-40 *)
Definition awkward_Identities_from_ListArray (toptr fromptr fromstarts fromstops : list Z)
           (tolength fromlength fromwidth : Z) : res (option (list Z)) :=
  let* toptr := for_ 0 (tolength * (fromwidth + 1)) (fun k toptr => wr toptr k (-1)) toptr in
  for_ 0 fromlength (fun i out =>
    match out with
    | None => Ok None
    | Some toptr =>
        let* start := rd fromstarts i in
        let* stop := rd fromstops i in
        if negb (start =? stop) && (tolength <? stop) then Err "max(stop) > len(content)" else
        for_ start stop (fun j out =>
          match out with
          | None => Ok None
          | Some toptr =>
              let* x := rd toptr (j * (fromwidth + 1) + fromwidth) in
              if negb (x =? -1) then Ok None else
              let* toptr := for_ 0 fromwidth (fun k toptr =>
                let* y := rd fromptr (i * fromwidth + k) in
                wr toptr (j * (fromwidth + 1) + k) y) toptr in
              let* toptr := wr toptr (j * (fromwidth + 1) + fromwidth) (j - start) in
              Ok (Some toptr)
          end) (Some toptr)
    end) (Some toptr).

(** awkward_Identities_from_ListOffsetArray.cpp:7-40 *)
Definition awkward_Identities_from_ListOffsetArray (toptr fromptr fromoffsets : list Z)
           (tolength fromlength fromwidth : Z) : res (list Z) :=
  let* globalstart := rd fromoffsets 0 in
  let* globalstop := rd fromoffsets fromlength in
  let* toptr := for_ 0 (globalstart * (fromwidth + 1)) (fun k toptr => wr toptr k (-1)) toptr in
  let* toptr := for_ (globalstop * (fromwidth + 1)) (tolength * (fromwidth + 1)) (fun k toptr => wr toptr k (-1)) toptr in
  for_ 0 fromlength (fun i toptr =>
    let* start := rd fromoffsets i in
    let* stop := rd fromoffsets (i + 1) in
    if negb (start =? stop) && (tolength <? stop) then Err "max(stop) > len(content)" else
    for_ start stop (fun j toptr =>
      let* toptr := for_ 0 fromwidth (fun k toptr =>
        let* y := rd fromptr (i * fromwidth + k) in
        wr toptr (j * (fromwidth + 1) + k) y) toptr in
      wr toptr (j * (fromwidth + 1) + fromwidth) (j - start)) toptr) toptr.

(** awkward_Identities_from_RegularArray.cpp:7-30 *)
Definition awkward_Identities_from_RegularArray (toptr fromptr : list Z)
           (size tolength fromlength fromwidth : Z) : res (list Z) :=
  let* toptr := for_ 0 fromlength (fun i toptr =>
    for_ 0 size (fun j toptr =>
      let* toptr := for_ 0 fromwidth (fun k toptr =>
        let* y := rd fromptr (i * fromwidth + k) in
        wr toptr ((i * size + j) * (fromwidth + 1) + k) y) toptr in
      wr toptr ((i * size + j) * (fromwidth + 1) + fromwidth) j) toptr) toptr in
  for_ ((fromlength + 1) * size * (fromwidth + 1)) (tolength * (fromwidth + 1)) (fun k toptr => wr toptr k (-1)) toptr.

(** awkward_Identities_from_IndexedArray.cpp:7-36 *)
Definition awkward_Identities_from_IndexedArray (toptr fromptr fromindex : list Z)
           (tolength fromlength fromwidth : Z) : res (option (list Z)) :=
  let* toptr := for_ 0 (tolength * fromwidth) (fun k toptr => wr toptr k (-1)) toptr in
  for_ 0 fromlength (fun i out =>
    match out with
    | None => Ok None
    | Some toptr =>
        let* j := rd fromindex i in
        if tolength <=? j then Err "max(index) > len(content)"
        else if 0 <=? j then
          let* x := rd toptr (j * fromwidth) in
          if negb (x =? -1) then Ok None else
          let* toptr := for_ 0 fromwidth (fun k toptr =>
            let* y := rd fromptr (i * fromwidth + k) in
            wr toptr (j * fromwidth + k) y) toptr in
          Ok (Some toptr)
        else Ok (Some toptr)
    end) (Some toptr).

(** awkward_Identities_from_UnionArray.cpp:7-43 *)
Definition awkward_Identities_from_UnionArray (toptr fromptr fromtags fromindex : list Z)
           (tolength fromlength fromwidth which : Z) : res (option (list Z)) :=
  let* toptr := for_ 0 (tolength * fromwidth) (fun k toptr => wr toptr k (-1)) toptr in
  for_ 0 fromlength (fun i out =>
    match out with
    | None => Ok None
    | Some toptr =>
        let* tag := rd fromtags i in
        if tag =? which then
          let* j := rd fromindex i in
          if tolength <=? j then Err "max(index) > len(content)"
          else if j <? 0 then Err "min(index) < 0"
          else
            let* x := rd toptr (j * fromwidth) in
            if negb (x =? -1) then Ok None else
            let* toptr := for_ 0 fromwidth (fun k toptr =>
              let* y := rd fromptr (i * fromwidth + k) in
              wr toptr (j * fromwidth + k) y) toptr in
            Ok (Some toptr)
        else Ok (Some toptr)
    end) (Some toptr).

(** ** setidentities *)
(** The identities_ pointer of a node and of the nodes below it *)
Inductive ids : Type := Node (own : option idents) (subs : list ids).

(** The name of field [j]: RecordArray.cpp:567-592 (std::to_string for a tuple) *)
Definition fieldname (keys : option (list string)) (j : Z) : res string :=
  match keys with
  | Some ks => rd ks j
  | None => rd (record_keys None (j + 1)) j
  end.

Section Walk.
  Variable f : Z -> content -> res ids.
  (** for (j = 0; j < contents_.size(); j++) f(j, contents_[j]) *)
  Fixpoint each (j : Z) (cs : list content) : res (list ids) :=
    match cs with
    | [] => Ok []
    | c :: cs => let* t := f j c in let* ts := each (j + 1) cs in Ok (t :: ts)
    end.
  Variable g : content -> ids -> res ids.
  (** the same with the identities of each content at hand *)
  Fixpoint each2 (cs : list content) (ts : list ids) : res (list ids) :=
    match cs, ts with
    | [], _ => Ok []
    | _ :: _, [] => UB
    | c :: cs, t :: ts => let* t' := g c t in let* ts' := each2 cs ts in Ok (t' :: ts')
    end.
End Walk.

Definition same_length_error : string := "content and its identities must have the same length".

(** The identities of the content of a masked array: ByteMaskedArray.cpp:405-440, BitMaskedArray.cpp:421-456,
    UnmaskedArray.cpp:319-354.  The kernel gets the two lengths, not the numbers of integers *)
Definition masked_sub (idn : idents) (tolength : Z) : res idents :=
  let* buf := awkward_Identities_extend (alloc (width idn * tolength)) (idata idn) (ilen idn) tolength in
  Ok (newI (fieldloc idn) (width idn) tolength buf).

(** setidentities(identities): EmptyArray.cpp:204-216, NumpyArray.cpp:517-529, ListArray.cpp:388-466,
    ListOffsetArray.cpp:423-488, RegularArray.cpp:364-428, IndexedArray.cpp:991-1070, ByteMaskedArray.cpp:391-448,
    BitMaskedArray.cpp:407-464, UnmaskedArray.cpp:305-362, RecordArray.cpp:558-596, UnionArray.cpp:804-902 *)
Fixpoint setidentities (c : content) (i : option idents) {struct c} : res ids :=
  match i with
  | None =>
      match c with
      | Empty | Numpy _ _ => Ok (Node None [])
      | ListA _ _ c' | ListOffset _ c' | Regular _ _ c' | Indexed _ c' | IndexedOption _ c'
      | ByteMasked _ _ c' | BitMasked _ _ _ _ c' | Unmasked c' => let* t := setidentities c' None in Ok (Node None [t])
      | Record _ _ cs | Union _ _ cs => let* ts := each (fun _ c => setidentities c None) 0 cs in Ok (Node None ts)
      end
  | Some idn =>
      match c with
      | Empty | Numpy _ _ =>
          if negb (length_ c =? ilen idn) then Err same_length_error else Ok (Node (Some idn) [])
      | ListA starts stops c' =>
          if negb (length_ c =? ilen idn) then Err same_length_error else
          let* out := awkward_Identities_from_ListArray (alloc ((width idn + 1) * length_ c')) (idata idn) starts stops
                        (length_ c') (length_ c) (width idn) in
          let* t := setidentities c' (option_map (newI (fieldloc idn) (width idn + 1) (length_ c')) out) in
          Ok (Node (Some idn) [t])
      | ListOffset offsets c' =>
          if negb (length_ c =? ilen idn) then Err same_length_error else
          let* buf := awkward_Identities_from_ListOffsetArray (alloc ((width idn + 1) * length_ c')) (idata idn) offsets
                        (length_ c') (length_ c) (width idn) in
          let* t := setidentities c' (Some (newI (fieldloc idn) (width idn + 1) (length_ c') buf)) in
          Ok (Node (Some idn) [t])
      | Regular size _ c' =>
          if negb (length_ c =? ilen idn) then Err same_length_error else
          let* buf := awkward_Identities_from_RegularArray (alloc ((width idn + 1) * length_ c')) (idata idn) size
                        (length_ c') (length_ c) (width idn) in
          let* t := setidentities c' (Some (newI (fieldloc idn) (width idn + 1) (length_ c') buf)) in
          Ok (Node (Some idn) [t])
      | Indexed index c' | IndexedOption index c' =>
          if negb (length_ c =? ilen idn) then Err same_length_error else
          let* out := awkward_Identities_from_IndexedArray (alloc (width idn * length_ c')) (idata idn) index
                        (length_ c') (length_ c) (width idn) in
          let* t := setidentities c' (option_map (newI (fieldloc idn) (width idn) (length_ c')) out) in
          Ok (Node (Some idn) [t])
      | ByteMasked _ _ c' | BitMasked _ _ _ _ c' | Unmasked c' =>
          if negb (length_ c =? ilen idn) then Err same_length_error else
          let* sub := masked_sub idn (length_ c') in
          let* t := setidentities c' (Some sub) in
          Ok (Node (Some idn) [t])
      | Record keys _ cs =>
          if negb (length_ c =? ilen idn) then Err same_length_error else
          let* ts := each (fun j c' =>
            let* name := fieldname keys j in
            setidentities c' (Some (withfieldloc idn (fieldloc idn ++ [(width idn - 1, name)])))) 0 cs in
          Ok (Node (Some idn) ts)
      | Union tags index cs =>
          if zlen index <? zlen tags then Err "len(index) < len(tags)" else
          if negb (length_ c =? ilen idn) then Err same_length_error else
          let* ts := each (fun which c' =>
            let* out := awkward_Identities_from_UnionArray (alloc (width idn * length_ c')) (idata idn) tags index
                          (length_ c') (length_ c) (width idn) which in
            setidentities c' (option_map (newI (fieldloc idn) (width idn) (length_ c')) out)) 0 cs in
          Ok (Node (Some idn) ts)
      end
  end.

(** setidentities(): e.g. NumpyArray.cpp:532-563, ListArray.cpp:473-502, RecordArray.cpp:523-555; EmptyArray.cpp:218-219
    does nothing *)
Definition setidentities0 (c : content) : res ids :=
  match c with
  | Empty => Ok (Node None [])
  | _ => let* buf := awkward_new_Identities (alloc (length_ c)) (length_ c) in
         setidentities c (Some (newI [] 1 (length_ c) buf))
  end.

(** ** Slicing: what the methods of the array classes do with the identities *)
Definition orange (own : option idents) (start stop : Z) : res (option idents) :=
  match own with None => Ok None | Some idn => let* J := irange idn start stop in Ok (Some J) end.
Definition ocarry (own : option idents) (cry : list Z) : res (option idents) :=
  match own with None => Ok None | Some idn => let* J := icarry idn cry in Ok (Some J) end.
Definition sub0 (subs : list ids) : res ids := rd subs 0.

(** getitem_range_nowrap: EmptyArray.cpp:338, NumpyArray.cpp:1259, ListArray.cpp:739, ListOffsetArray.cpp:726,
    RegularArray.cpp:643 (which hands the old identities_ to the new array), IndexedArray.cpp:1317,
    ByteMaskedArray.cpp:651, BitMaskedArray.cpp:678, UnmaskedArray.cpp:547, RecordArray.cpp:823, UnionArray.cpp:1155 *)
Fixpoint range_ids (c : content) (t : ids) (start stop : Z) {struct c} : res ids :=
  match t with
  | Node own subs =>
      match c with
      | Empty => Ok t
      | Numpy _ _ =>
          let* o := match own with
                    | None => Ok None
                    | Some idn => if ilen idn <? stop then Err "index out of range" else orange own start stop
                    end in
          Ok (Node o subs)
      | ListA _ _ _ | ListOffset _ _ | Indexed _ _ | IndexedOption _ _ | Union _ _ _ =>
          let* o := orange own start stop in Ok (Node o subs)
      | Regular size _ c' =>
          let* _ := orange own start stop in
          let* s := sub0 subs in
          let* s' := range_ids c' s (start * size) (stop * size) in
          Ok (Node own [s'])
      | ByteMasked _ _ c' | BitMasked _ _ _ _ c' | Unmasked c' =>
          let* o := orange own start stop in
          let* s := sub0 subs in
          let* s' := range_ids c' s start stop in
          Ok (Node o [s'])
      | Record _ len cs =>
          let* o := orange own start stop in
          match cs with
          | [] => Ok (Node o subs)
          | _ => if (start =? 0) && (stop =? len) then Ok t
                 else let* subs' := each2 (fun c s => range_ids c s start stop) cs subs in Ok (Node o subs')
          end
      end
  end.

(** carry: EmptyArray.cpp:373, NumpyArray.cpp:1452, ListArray.cpp:800, ListOffsetArray.cpp:803, RegularArray.cpp:699,
    IndexedArray.cpp:1447, ByteMaskedArray.cpp:759, BitMaskedArray.cpp:740, UnmaskedArray.cpp:639, RecordArray.cpp:928,
    UnionArray.cpp:1286 *)
Definition carry_contiguous_ids (c : content) (t : ids) (cry : list Z) (k : unit -> res ids) : res ids :=
  let* contiguous := awkward_Index_iscontiguous cry (zlen cry) in
  if contiguous then
    if zlen cry =? length_ c then Ok t else range_ids c t 0 (zlen cry)
  else k tt.

Fixpoint carry_ids (c : content) (t : ids) (cry : list Z) (allow_lazy : bool) {struct c} : res ids :=
  match t with
  | Node own subs =>
      match c with
      | Empty => Ok t
      | Numpy _ _ | ListA _ _ _ | ListOffset _ _ | Indexed _ _ | IndexedOption _ _ | Union _ _ _ =>
          carry_contiguous_ids c t cry (fun _ => let* o := ocarry own cry in Ok (Node o subs))
      | Regular size _ c' => carry_contiguous_ids c t cry (fun _ =>
          let* nextcarry := awkward_RegularArray_getitem_carry (alloc (zlen cry * size)) cry (zlen cry) size in
          let* o := ocarry own cry in
          let* s := sub0 subs in
          let* s' := carry_ids c' s nextcarry allow_lazy in
          Ok (Node o [s']))
      | ByteMasked _ _ c' | BitMasked _ _ _ _ c' | Unmasked c' => carry_contiguous_ids c t cry (fun _ =>
          let* o := ocarry own cry in
          let* s := sub0 subs in
          let* s' := carry_ids c' s cry allow_lazy in
          Ok (Node o [s']))
      | Record _ _ cs =>
          if allow_lazy then let* o := ocarry own cry in Ok (Node o [t])
          else carry_contiguous_ids c t cry (fun _ =>
            let* o := ocarry own cry in
            let* subs' := each2 (fun c s => carry_ids c s cry allow_lazy) cs subs in
            Ok (Node o subs'))
      end
  end.

(** An array with its identities, and the two ways of slicing it *)
Definition labelled : Type := content * ids.
Definition range_labelled (x : labelled) (start stop : Z) : res labelled :=
  let* c := getitem_range_nowrap (fst x) start stop in
  let* t := range_ids (fst x) (snd x) start stop in Ok (c, t).
Definition carry_labelled (x : labelled) (cry : list Z) (allow_lazy : bool) : res labelled :=
  let* c := carry (fst x) cry allow_lazy in
  let* t := carry_ids (fst x) (snd x) cry allow_lazy in Ok (c, t).
