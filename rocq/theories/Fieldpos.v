(** The positions of the fields of an array: Content::numfields, Content::fieldindex and Content::key. *)
From Verif Require Import Base Content Getitem Setitem Keys.
From Coq Require Import String.
From Coq Require Import List.
Import ListNotations.
Local Open Scope string_scope.
Local Open Scope list_scope.
Local Open Scope Z_scope.

(** std::to_string of an int64_t *)
Definition int_to_string (i : Z) : string := if i <? 0 then ("-" ++ to_string (Z.to_nat (- i)))%string else to_string (Z.to_nat i).

(** util::key: util.cpp:537-552.  The position is compared with the number of fields only; [at] throws std::out_of_range for positions
    that are not in the list, and those below zero are large as size_t *)
Definition record_key (names : option (list string)) (fieldindex numfields : Z) : res string :=
  if numfields <=? fieldindex then Err "fieldindex for records with fewer fields"
  else match names with
       | Some ks => match nthZ ks fieldindex with Some k => Ok k | None => Err "vector::at" end
       | None => Ok (int_to_string fieldindex)
       end.

(** numfields: BitMaskedArray.cpp:768, ByteMaskedArray.cpp:804, EmptyArray.cpp:400, IndexedArray.cpp:1495, ListArray.cpp:875, ListOffsetArray.cpp:873,
    NumpyArray.cpp:1512, RecordArray.cpp:1011, RegularArray.cpp:762, UnionArray.cpp:1393, UnmaskedArray.cpp:673 *)
Fixpoint numfields (c : content) : Z :=
  match c with
  | Empty | Numpy _ _ => -1
  | ListA _ _ c | ListOffset _ c | Regular _ _ c | Indexed _ c | IndexedOption _ c | ByteMasked _ _ c | BitMasked _ _ _ _ c | Unmasked c => numfields c
  | Record _ _ cs => zlen cs
  | Union _ _ _ => zlen (keys c)
  end.

(** fieldindex: BitMaskedArray.cpp:773, ByteMaskedArray.cpp:809, EmptyArray.cpp:405, IndexedArray.cpp:1501, ListArray.cpp:881, ListOffsetArray.cpp:879,
    NumpyArray.cpp:1517, RecordArray.cpp:1016, RegularArray.cpp:767, UnionArray.cpp:1399, UnmaskedArray.cpp:678 *)
Fixpoint field_position (key : string) (c : content) : res Z :=
  match c with
  | Empty => Err "key does not exist (data might not be records)"
  | Numpy _ _ => Err "key does not exist (data are not records)"
  | ListA _ _ c | ListOffset _ c | Regular _ _ c | Indexed _ c | IndexedOption _ c | ByteMasked _ _ c | BitMasked _ _ _ _ c | Unmasked c => field_position key c
  | Record names _ cs => fieldindex names key (zlen cs)
  | Union _ _ _ => Err "UnionForm breaks the one-to-one relationship between fieldindexes and keys"
  end.

(** key: BitMaskedArray.cpp:778, ByteMaskedArray.cpp:814, EmptyArray.cpp:413, IndexedArray.cpp:1507, ListArray.cpp:887, ListOffsetArray.cpp:885,
    NumpyArray.cpp:1525, RecordArray.cpp:1021, RegularArray.cpp:772, UnionArray.cpp:1407, UnmaskedArray.cpp:683 *)
Fixpoint field_key (i : Z) (c : content) : res string :=
  match c with
  | Empty => Err "fieldindex does not exist (data might not be records)"
  | Numpy _ _ => Err "fieldindex does not exist (data are not records)"
  | ListA _ _ c | ListOffset _ c | Regular _ _ c | Indexed _ c | IndexedOption _ c | ByteMasked _ _ c | BitMasked _ _ _ _ c | Unmasked c => field_key i c
  | Record names _ cs => record_key names i (zlen cs)
  | Union _ _ _ => Err "UnionForm breaks the one-to-one relationship between fieldindexes and keys"
  end.
