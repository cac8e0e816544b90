(** The names of the fields of an array: ak.fields, Content::keys and Content::haskey. *)
From Verif Require Import Base Content Getitem Setitem.
From Coq Require Import String.
From Coq Require Import List.
Import ListNotations.
Local Open Scope list_scope.
Local Open Scope Z_scope.

(** util::keys: util.cpp:566-580 *)
Definition record_keys (names : option (list string)) (numfields : nat) : list string :=
  match names with Some ks => ks | None => map to_string (seq 0 numfields) end.
(** util::haskey: util.cpp:552-563 *)
Definition record_haskey (names : option (list string)) (key : string) (numfields : Z) : bool :=
  match fieldindex names key numfields with Ok _ => true | _ => false end.

(** the inner loop of UnionArrayOf::keys: UnionArray.cpp:1434-1445: from the last name to the first, those that are not in [tmp] are erased;
    [n] names are left to be looked at *)
Fixpoint erase_loop (tmp : list string) (n : nat) (out : list string) : list string :=
  match n with
  | O => out
  | S j =>
      let found := match nth_error out j with Some k => existsb (String.eqb k) tmp | None => true end in
      erase_loop tmp j (if found then out else firstn j out ++ skipn (S j) out)
  end.

(** keys: BitMaskedArray.cpp:788, ByteMaskedArray.cpp:824, EmptyArray.cpp:426-428, IndexedArray.cpp:1519, ListArray.cpp:899, ListOffsetArray.cpp:897,
    NumpyArray.cpp:1538-1540, RecordArray.cpp:1031-1033, RegularArray.cpp:782, UnionArray.cpp:1426-1448, UnmaskedArray.cpp:693 *)
Fixpoint keys (c : content) : list string :=
  match c with
  | Empty | Numpy _ _ => []
  | ListA _ _ c | ListOffset _ c | Regular _ _ c | Indexed _ c | IndexedOption _ c | ByteMasked _ _ c | BitMasked _ _ _ _ c | Unmasked c => keys c
  | Record names _ cs => record_keys names (length cs)
  | Union _ _ cs =>
      match map keys cs with
      | [] => []
      | first :: rest => fold_left (fun out tmp => erase_loop tmp (length out) out) rest first
      end
  end.
(** haskey: BitMaskedArray.cpp:783, ByteMaskedArray.cpp:819, EmptyArray.cpp:421-423, IndexedArray.cpp:1513-1515, ListArray.cpp:893,
    ListOffsetArray.cpp:891, NumpyArray.cpp:1533-1535, RecordArray.cpp:1026-1028, RegularArray.cpp:777, UnionArray.cpp:1415-1422, UnmaskedArray.cpp:688 *)
Fixpoint haskey (key : string) (c : content) : bool :=
  match c with
  | Empty | Numpy _ _ => false
  | ListA _ _ c | ListOffset _ c | Regular _ _ c | Indexed _ c | IndexedOption _ c | ByteMasked _ _ c | BitMasked _ _ _ _ c | Unmasked c => haskey key c
  | Record names _ cs => record_haskey names key (zlen cs)
  | Union _ _ _ => existsb (String.eqb key) (keys c)
  end.
