(** What uniqueness means, on values. *)
From Coq Require Import Permutation.
From Verif Require Import Base Content SpecArray SpecForm KSort SpecSort.
Local Open Scope list_scope.
Local Open Scope Z_scope.

(** two numbers are equal; [real] compares floating point numbers *)
Definition equal_numbers (real : order) (v w : value) : bool :=
  match v, w with
  | VInt x, VInt y => x =? y
  | VBool x, VBool y => Bool.eqb x y
  | VReal x, VReal y => oeq real x y
  | _, _ => false
  end.
(** no two elements of the list are equal *)
Definition all_different (real : order) (vs : list value) : Prop :=
  forall i j v w, i < j -> nthZ vs i = Some v -> nthZ vs j = Some w -> equal_numbers real v w = false.
(** no floating point number of the list is NaN: the numbers are in a total order, and numbers neither of which is larger are equal *)
Definition no_nan (real : order) (vs : list value) : Prop :=
  comparable real vs /\
  (forall x y, In (VReal x) vs -> In (VReal y) vs -> oeq real x y = ole real x y && ole real y x).
(** [ws] holds every number of [vs] once, in increasing order *)
Definition distinct_values (real : order) (vs ws : list value) : Prop :=
  sorted (vle real true) ws /\ all_different real ws /\ (forall w, In w ws -> In w vs) /\
  (forall v, In v vs -> exists w, In w ws /\ equal_numbers real v w = true).
(** two lists hold the same numbers, in any order *)
Definition same_numbers (real : order) (l l' : list value) : Prop :=
  exists m, Permutation l' m /\ Forall2 (fun v w => equal_numbers real v w = true) l m.

(** the elements that are not missing *)
Definition present (vs : list value) : list value := filter (fun v => match v with VNone => false | _ => true end) vs.
(** numbers, picked from an array by index any number of times *)
Fixpoint picked_numbers (c : content) : bool :=
  match c with Empty | Numpy _ _ => true | Indexed _ c | IndexedOption _ c => picked_numbers c | _ => false end.
Fixpoint picked_levels (c : content) : nat :=
  match c with Indexed _ c | IndexedOption _ c => S (S (picked_levels c)) | _ => 1%nat end.
