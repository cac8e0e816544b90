(** Counting the elements of lists: num. *)
From Verif Require Import Base Content KCore Core KConvert Convert KOption Option KAxis Axis KMerge Merge.

(** awkward_ListArray_num.cpp:8-19 *)
Definition awkward_ListArray_num (tonum fromstarts fromstops : list Z) (length : Z) : res (list Z) :=
  for_ 0 length (fun i tonum =>
    let* start := rd fromstarts i in
    let* stop := rd fromstops i in
    wr tonum i (stop - start)) tonum.
(** awkward_RegularArray_num.cpp:8-16 *)
Definition awkward_RegularArray_num (tonum : list Z) (size length : Z) : res (list Z) :=
  for_ 0 length (fun i tonum => wr tonum i size) tonum.

(** the result of num: one number, one record of numbers, or an array *)
Inductive counted : Type :=
| Count (n : Z)
| CountRow (keys : option (list string)) (ns : list Z)
| Counts (c : content).

Section Num.
Variable is64 : content -> bool.
Variable rc : Z -> Z.
Variable narrow : content -> bool.
Variable refeq : content -> content -> bool.
Variable mfuel : nat.

(** num below axis 0: BitMaskedArray.cpp:830-832, ByteMaskedArray.cpp:861-883, EmptyArray.cpp:445-455, IndexedArray.cpp:1566-1590,
    ListArray.cpp:948-969, ListOffsetArray.cpp:948-976, NumpyArray.cpp:1577-1627 (one-dimensional), RecordArray.cpp:1065-1095,
    RegularArray.cpp:814-839, UnionArray.cpp:1505-1524, UnmaskedArray.cpp:725-737.
    If an inner node finds its own axis to be its depth (negative axes and branches of different depth), a zero-dimensional array
    would become a content; that is not modelled and is UB here. *)
Fixpoint num_next (fuel : nat) (c : content) (axis depth : Z) : res content :=
  match fuel with
  | O => UB
  | S fuel =>
      let* posaxis := axis_wrap_if_negative c axis in
      if posaxis =? depth then UB
      else
        let listoffset (w : bool) (offsets : list Z) (c' : content) : res content :=
          if posaxis =? depth + 1 then
            let* starts := make_starts offsets in
            let* stops := make_stops offsets in
            let* tonum := awkward_ListArray_num (alloc (zlen offsets - 1)) starts stops (zlen offsets - 1) in
            Ok (Numpy DInt tonum)
          else
            let* next := num_next fuel c' posaxis (depth + 1) in
            let* offsets := compact_offsets64 w true (ListOffset offsets c') in
            mkListOffset offsets next in
        match c with
        | Empty => Ok (Numpy DInt [])
        | Numpy _ _ => Err "'axis' out of range for 'num'"
        | ListA starts stops c' =>
            if posaxis =? depth + 1 then
              let* tonum := awkward_ListArray_num (alloc (zlen starts)) starts stops (zlen starts) in
              Ok (Numpy DInt tonum)
            else
              let* lo := toListOffsetArray64 (is64 c) true c in
              match lo with
              | ListOffset offsets c'' => listoffset true offsets c''
              | _ => UB
              end
        | ListOffset offsets c' => listoffset (is64 c) offsets c'
        | Regular size zl c' =>
            if posaxis =? depth + 1 then
              let* tonum := awkward_RegularArray_num (alloc (length_ c)) size (length_ c) in
              Ok (Numpy DInt tonum)
            else
              let* next := num_next fuel c' posaxis (depth + 1) in
              mkRegular size (length_ c) next
        | Indexed _ _ =>
            let* p := project c in
            num_next fuel p posaxis depth
        | IndexedOption _ _ | ByteMasked _ _ _ | BitMasked _ _ _ _ _ =>
            option_path_of false (fun next => num_next fuel next posaxis depth) c
        | Unmasked c' =>
            let* next := num_next fuel c' posaxis depth in
            Ok (Unmasked next)
        | Record keys len cs =>
            let* contents := mapres (fun x => num_next fuel x posaxis depth) cs in
            mkRecord keys len contents
        | Union tags index cs =>
            let* contents := mapres (fun x => num_next fuel x posaxis depth) cs in
            let* _ := mkUnion tags index contents in
            simplify_uniontype rc narrow refeq mfuel true false tags index contents
        end
  end.

(** num: at axis 0 the result is one number (EmptyArray.cpp:447-451 and the same lines in the other classes), for a record
    array a record of that number for every field (RecordArray.cpp:1067-1083). *)
Definition num (fuel : nat) (c : content) (axis : Z) : res counted :=
  let* posaxis := axis_wrap_if_negative c axis in
  if posaxis =? 0 then
    match c with
    | Record keys len cs => Ok (CountRow keys (map (fun _ => len) cs))
    | _ => Ok (Count (length_ c))
    end
  else
    let* c' := num_next fuel c axis 0 in
    Ok (Counts c').
End Num.
