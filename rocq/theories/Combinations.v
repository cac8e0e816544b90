(** combinations. *)
From Verif Require Import Base Content KCore Core KConvert Convert KOption Option KAxis Axis KCombinations.

(** RecordArray.cpp:397-413 *)
Definition minlength (cs : list content) : Z :=
  match cs with
  | [] => 0
  | _ => fold_left (fun out x => if (out <? 0) || (length_ x <? out) then length_ x else out) cs (-1)
  end.

(** Content::combinations_axis0: Content.cpp:1306-1367 *)
Definition combinations_axis0 (c : content) (n : Z) (replacement : bool) (keys : option (list string)) : res content :=
  let len := combinationslen n replacement (length_ c) in
  let* tocarry := awkward_RegularArray_combinations (repeat (alloc len) (Z.to_nat n)) (alloc n) (alloc n) n replacement (length_ c) 1 in
  let contents := map (fun ptr => Indexed ptr c) tocarry in
  Ok (Record keys (minlength contents) contents).

(** ListArray.cpp:1460-1525 and ListOffsetArray.cpp:1603-1668 (which first makes starts and stops) *)
Definition list_combinations (starts stops : list Z) (len : Z) (c' : content) (n : Z) (replacement : bool) (keys : option (list string)) : res content :=
  let* st := awkward_ListArray_combinations_length (alloc (len + 1)) n replacement starts stops len in
  let '(totallen, offsets) := st in
  let* tocarry := awkward_ListArray_combinations (repeat (alloc totallen) (Z.to_nat n)) (alloc n) (alloc n) n replacement starts stops len in
  let* contents := mapres (fun ptr => carry c' ptr true) tocarry in
  mkListOffset offsets (Record keys (minlength contents) contents).

Section Width.
Variable is64 : content -> bool.

(** combinations: BitMaskedArray.cpp:979-991, ByteMaskedArray.cpp:1240-1273, EmptyArray.cpp:587-598, IndexedArray.cpp:2319-2363,
    ListArray.cpp:1444-1542, ListOffsetArray.cpp:1587-1685, NumpyArray.cpp:3376-3405, RecordArray.cpp:1518-1548,
    RegularArray.cpp:1159-1273, UnionArray.cpp:2060-2091, UnmaskedArray.cpp:937-963.
    [keys] is the recordlookup of the result (None: tuples). *)
Fixpoint combinations (fuel : nat) (c : content) (n : Z) (replacement : bool) (keys : option (list string)) (axis depth : Z) : res content :=
  match fuel with
  | O => UB
  | S fuel =>
      if n <? 1 then Err "in combinations, 'n' must be at least 1" else
      match c with
      | Empty => Ok Empty
      | _ =>
      let* posaxis := axis_wrap_if_negative c axis in
      if posaxis =? depth then combinations_axis0 c n replacement keys
      else
        match c with
        | Empty => Ok Empty
        | Numpy _ _ => Err "'axis' out of range for combinations"
        | ListA starts stops c' =>
            if posaxis =? depth + 1 then list_combinations starts stops (length_ c) c' n replacement keys
            else
              let* compact := toListOffsetArray64 (is64 c) true c in
              match compact with
              | ListOffset offsets c'' =>
                  let* next := combinations fuel c'' n replacement keys posaxis (depth + 1) in
                  mkListOffset offsets next
              | _ => UB
              end
        | ListOffset offsets c' =>
            if posaxis =? depth + 1 then
              let* starts := make_starts offsets in
              let* stops := make_stops offsets in
              list_combinations starts stops (length_ c) c' n replacement keys
            else
              let* compact := toListOffsetArray64 (is64 c) true c in
              match compact with
              | ListOffset offsets c'' =>
                  let* next := combinations fuel c'' n replacement keys posaxis (depth + 1) in
                  mkListOffset offsets next
              | _ => UB
              end
        | Regular size zl c' =>
            if posaxis =? depth + 1 then
              let len := combinationslen n replacement size in
              let totallen := len * length_ c in
              let scratch := if replacement then size + (n - 1) else size in
              let tocarry := repeat (alloc totallen) (Z.to_nat n) in
              let* tocarry :=
                if negb (size =? 0) then awkward_RegularArray_combinations tocarry (alloc scratch) (alloc scratch) n replacement size (length_ c)
                else Ok tocarry in
              let* contents := mapres (fun ptr => carry c' ptr true) tocarry in
              mkRegular len (length_ c) (Record keys (minlength contents) contents)
            else
              let* sub := getitem_range_nowrap c' 0 (length_ c * size) in
              let* next := combinations fuel sub n replacement keys posaxis (depth + 1) in
              mkRegular size (length_ c) next
        | Indexed _ _ =>
            let* p := project c in
            combinations fuel p n replacement keys posaxis depth
        | IndexedOption _ _ | ByteMasked _ _ _ | BitMasked _ _ _ _ _ =>
            option_path_of true (fun next => combinations fuel next n replacement keys posaxis depth) c
        | Unmasked c' =>
            let* next := combinations fuel c' n replacement keys posaxis depth in
            Ok (Unmasked next)
        | Record keys' len cs =>
            let* contents := mapres (fun x => combinations fuel x n replacement keys posaxis depth) cs in
            mkRecord keys' len contents
        | Union tags index cs =>
            let* contents := mapres (fun x => combinations fuel x n replacement keys posaxis depth) cs in
            mkUnion tags index contents
        end
      end
  end.
End Width.
