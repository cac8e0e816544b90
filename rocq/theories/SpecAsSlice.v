(** Specification: what it means to slice an array by an array of integers or booleans, possibly with missing values, possibly in lists.
    Nothing here uses the model of the methods. *)
From Verif Require Import Base Content SpecArray SpecForm SpecGetitem.
From Coq Require Import String.
From Coq Require Import List.
Import ListNotations.
Local Open Scope Z_scope.

(** A list of booleans says the same as the list of the positions of its true elements; missing values stay between them. *)
Fixpoint places (k : Z) (m : value) : list value :=
  match m with
  | VBool b => if b then [VInt k] else []
  | VList l => [VList ((fix go (k : Z) (l : list value) : list value := match l with [] => [] | x :: t => places k x ++ go (k + 1) t end) 0 l)]
  | _ => [m]
  end.
Fixpoint positions_from (k : Z) (l : list value) : list value := match l with [] => [] | x :: t => places k x ++ positions_from (k + 1) t end.
Definition as_positions (l : list value) : list value := positions_from 0 l.

(** The elements of [v] that [j] selects, where [j] is a list of positions below [d] levels of lists: a position selects an element of the
    list at the same place, counted from the end when negative; what is missing in [j] is missing in the result. *)
Fixpoint choose (d : nat) (j v : value) {struct d} : option value :=
  thru (fun v => match v, j with
    | VList l, VList js =>
        match d with
        | O => option_map VList (omap (fun i => match i with VInt i => elem l i | VNone => Some VNone | _ => None end) js)
        | S d => if zlen js =? zlen l then
                   option_map VList (omap (fun jx => match fst jx with VNone => Some VNone | _ => choose d (fst jx) (snd jx) end) (combine js l))
                 else None
        end
    | _, _ => None
    end) v.

(** levels of lists in a type *)
Fixpoint levels (f : form) : nat := match f with FList f => S (levels f) | FOption f => levels f | _ => O end.

(** array[slice], for an array of the values [vs] and a slice of the type [f] with the values [ms] *)
Definition sliced (f : form) (ms vs : list value) : option value := choose (levels f) (VList (as_positions ms)) (VList vs).

(** the types of slices: integers or booleans, with or without missing values, in lists *)
Definition scalars (f : form) : Prop := f = FUnknown \/ f = FNum DInt \/ f = FNum DBool.
(** lists of lists of ... scalars, with missing values only among the scalars ([o]) *)
Inductive jagged_slice : bool -> form -> Prop :=
| js_scalars f : scalars f -> jagged_slice false f
| js_missing f : scalars f -> jagged_slice true (FOption f)
| js_list o f : jagged_slice o f -> jagged_slice o (FList f).

(** no regular dimensions, records or unions, and offsets within the content even for lists that are empty *)
Fixpoint tidy (c : content) : Prop :=
  match c with
  | Empty | Numpy _ _ => True
  | ListOffset offsets c' => Forall (fun o => 0 <= o <= length_ c') offsets /\ tidy c'
  | ListA _ _ c' | Indexed _ c' | IndexedOption _ c' | ByteMasked _ _ c' | BitMasked _ _ _ _ c' | Unmasked c' => tidy c'
  | Regular _ _ _ | Record _ _ _ | Union _ _ _ => False
  end.

(** the types of arrays that slices of [d] levels of lists below the outermost fit; lists may be missing in the array where the slice is a list of
    positions, unless positions are missing ([o]) *)
Inductive slice_fits : bool -> nat -> form -> Prop :=
| sf_last o f : slice_fits o O (FList f)
| sf_option f : slice_fits false O f -> slice_fits false O (FOption f)
| sf_list o d f : slice_fits o d f -> slice_fits o (S d) (FList f)
| sf_record o d keys fs : Forall (slice_fits o d) fs -> slice_fits o d (FRecord keys fs).
