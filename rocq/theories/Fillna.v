(** Filling missing values: fillna. *)
From Verif Require Import Base Content KCore Core KConvert Convert KOption Option KMerge Merge.

(** awkward_UnionArray_fillna.cpp:7-17 *)
Definition awkward_UnionArray_fillna (toindex fromindex : list Z) (length : Z) : res (list Z) :=
  for_ 0 length (fun i toindex =>
    let* x := rd fromindex i in
    wr toindex i (if 0 <=? x then x else 0)) toindex.

Section Fillna.
Variable rc : Z -> Z.
Variable narrow : content -> bool.
Variable refeq : content -> content -> bool.
Variable fuel : nat.
Variable value : content.

(** IndexedArray.cpp:2050-2086 with ISOPTION *)
Definition IndexedOption_fillna (index : list Z) (c' : content) : res content :=
  if negb (length_ value =? 1) then Err "fillna value length is not equal to 1" else
  let* tags := bytemask (IndexedOption index c') in
  let* toindex := awkward_UnionArray_fillna (alloc (zlen tags)) index (zlen tags) in
  let* _ := mkUnion tags toindex [c'; value] in
  simplify_uniontype rc narrow refeq fuel true true tags toindex [c'; value].

(** BitMaskedArray.cpp:938-940, ByteMaskedArray.cpp:1025-1027, EmptyArray.cpp:527-530, IndexedArray.cpp:2050-2086,
    ListArray.cpp:1305-1311, ListOffsetArray.cpp:1247-1250, NumpyArray.cpp:3130-3132, RecordArray.cpp:1400-1410,
    RegularArray.cpp:982-988, UnionArray.cpp:1955-1962, UnmaskedArray.cpp:859-861 *)
Fixpoint fillna (c : content) : res content :=
  match c with
  | Empty => Ok Empty
  | Numpy _ _ => Ok c
  | ListA starts stops c' => let* n := fillna c' in mkListA starts stops n
  | ListOffset offsets c' => let* n := fillna c' in mkListOffset offsets n
  | Regular size zl c' => let* n := fillna c' in mkRegular size (length_ c) n
  | Indexed index c' =>
      if negb (length_ value =? 1) then Err "fillna value length is not equal to 1" else
      let* n := fillna c' in Ok (Indexed index n)
  | IndexedOption index c' => IndexedOption_fillna index c'
  | ByteMasked _ _ _ | BitMasked _ _ _ _ _ =>
      let* o := toIndexedOptionArray64 c in
      match o with IndexedOption index c' => IndexedOption_fillna index c' | _ => UB end
  | Unmasked c' => fillna c'
  | Record keys len cs => let* ns := mapres fillna cs in mkRecord keys len ns
  | Union tags index cs =>
      let* ns := mapres fillna cs in
      let* _ := mkUnion tags index ns in
      simplify_uniontype rc narrow refeq fuel true false tags index ns
  end.
End Fillna.
