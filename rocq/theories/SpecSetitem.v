(** What it means to give a record one more field. *)
From Verif Require Import Base Content SpecArray.
From Coq Require Import String DecimalString.
From Coq Require Import List.
Import ListNotations.
Local Open Scope list_scope.

(** a number in decimal *)
Definition decimal (n : nat) : string := NilEmpty.string_of_uint (Nat.to_uint n).
(** a new last field, with a name; the fields of a tuple get their numbers as names *)
Definition add_field (key : string) (v x : value) : value :=
  match v with
  | VRec fs => VRec (fs ++ [(key, x)])
  | VTuple l => VRec (combine (map decimal (seq 0 (length l))) l ++ [(key, x)])
  | v => v
  end.
(** a new field at a position, at the end if there are not that many; in a record its name is the position *)
Definition insert_field (n : nat) (v x : value) : value :=
  match v with
  | VRec fs => VRec (firstn n fs ++ (decimal n, x) :: skipn n fs)
  | VTuple l => VTuple (firstn n l ++ x :: skipn n l)
  | v => v
  end.
