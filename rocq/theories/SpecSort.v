(** What sort and argsort mean, on values. *)
From Coq Require Import Permutation.
From Verif Require Import Base Content SpecArray SpecForm KSort.

(** [l] is in order *)
Definition sorted {A} (le : A -> A -> bool) (l : list A) : Prop :=
  forall i j x y, i < j -> nthZ l i = Some x -> nthZ l j = Some y -> le x y = true.

(** The comparisons of a type are those of a total order (up to ties) on the numbers satisfying [ok]. *)
Definition total_order (o : order) (ok : Z -> Prop) : Prop :=
  (forall x y, ok x -> ok y -> ole o x y = true \/ ole o y x = true) /\
  (forall x y z, ok x -> ok y -> ok z -> ole o x y = true -> ole o y z = true -> ole o x z = true) /\
  (forall x y, ok x -> ok y -> olt o x y = negb (ole o y x)) /\
  (forall x y, ok x -> ok y -> oeq o x y = true -> ole o x y = true /\ ole o y x = true).

(** ** values *)
(** the order of two numbers; [real] is the order of floating point numbers *)
Definition vle (real : order) (ascending : bool) (v w : value) : bool :=
  let le v w := match v, w with
                | VInt x, VInt y => x <=? y
                | VBool x, VBool y => implb x y
                | VReal x, VReal y => ole real x y
                | _, _ => false
                end in
  if ascending then le v w else le w v.
(** no floating point number of the list is NaN *)
Definition comparable (real : order) (vs : list value) : Prop := total_order real (fun x => In (VReal x) vs).

(** [ws] is [vs] sorted: the same elements, missing elements last, and the others in order *)
Definition is_sort (real : order) (ascending : bool) (vs ws : list value) : Prop :=
  Permutation vs ws /\
  exists s k, ws = s ++ repeat VNone k /\ Forall (fun v => v <> VNone) s /\ (comparable real vs -> sorted (vle real ascending) s).

(** [ws] is the list of positions that sorts [vs]; of two elements that tie, a stable sort keeps the first one first *)
Definition is_argsort (real : order) (ascending stable : bool) (vs ws : list value) : Prop :=
  exists ps, ws = map VInt ps /\ Permutation (zseq 0 (zlen vs)) ps /\
    (comparable real vs -> forall a b i j v w,
       a < b -> nthZ ps a = Some i -> nthZ ps b = Some j -> nthZ vs i = Some v -> nthZ vs j = Some w ->
       vle real ascending v w = true /\ (stable = true -> vle real ascending w v = true -> i < j)).

(** [P] relates the lists of numbers at [depth] levels below the top, position by position *)
Fixpoint innermost (P : list value -> list value -> Prop) (depth : nat) (vs ws : list value) : Prop :=
  match depth with
  | O => P vs ws
  | S depth => Forall2 (fun v w => match v, w with VList l, VList l' => innermost P depth l l' | _, _ => False end) vs ws
  end.

(** ** the layouts that are sorted correctly *)
(** an option type around numbers *)
Fixpoint without_index (c : content) : bool :=
  match c with
  | Empty | Numpy _ _ => true
  | IndexedOption _ c | ByteMasked _ _ c | BitMasked _ _ _ _ c | Unmasked c => without_index c
  | _ => false
  end.
Definition optional_numbers (c : content) : Prop :=
  without_index c = true /\ match form_of c with FOption FUnknown | FOption (FNum _) => True | _ => False end.
(** lists of numbers; the numbers may be missing for a sort, not for an argsort; the offsets of the lists start at zero *)
Fixpoint sortable (arg : bool) (c : content) : Prop :=
  match c with
  | Empty | Numpy _ _ => True
  | ListOffset offsets c' => nthZ offsets 0 = Some 0 /\ (sortable arg c' \/ (arg = false /\ optional_numbers c'))
  | ListA _ _ c' | Regular _ _ c' => sortable arg c' \/ (arg = false /\ optional_numbers c')
  | _ => False
  end.
(** how many levels of lists there are above the innermost lists *)
Fixpoint list_levels (f : form) : nat := match f with FList f => S (list_levels f) | _ => O end.
(** a condition on every innermost list *)
Fixpoint each_innermost (Q : list value -> Prop) (depth : nat) (vs : list value) : Prop :=
  match depth with
  | O => Q vs
  | S depth => Forall (fun v => match v with VList l => each_innermost Q depth l | _ => True end) vs
  end.
