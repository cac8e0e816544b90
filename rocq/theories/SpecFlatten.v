(** Specification of flattening. *)
From Verif Require Import Base Content SpecArray SpecForm SpecAxis.

(** a missing list has no elements *)
Definition items (v : value) : list value := match v with VList l => l | _ => [] end.
(** flattening at axis 1 concatenates the lists; at axis k > 1 it does so inside the lists that are k - 1 levels down *)
Definition flat (l : list value) : value := VList (concat (map items l)).
Definition flattened (k : Z) (vs : list value) : list value :=
  if k =? 1 then concat (map items vs) else map (lift flat (k - 1)) vs.

(** the types that can be flattened at axis [k]: lists there in every branch; a list of records is not a list of lists *)
Fixpoint flattens (k : Z) (f : form) {struct f} : bool :=
  match f with
  | FUnknown => k =? 1
  | FNum _ => false
  | FList f' => if k =? 1 then true else flattens (k - 1) f'
  | FOption f' => flattens k f'
  | FRecord _ fs => negb (k =? 1) && forallb (flattens k) fs
  | FUnion fs => forallb (flattens k) fs
  end.
Fixpoint definite (f : form) : bool :=
  match f with
  | FUnknown => false
  | FNum _ => true
  | FList f' | FOption f' => definite f'
  | FRecord _ fs | FUnion fs => forallb definite fs
  end.

(** Offsets of the ListOffsetArrays above the flattened lists point into their content (even those of empty lists), and the
    record arrays there have a field. *)
Fixpoint flat_ok (k : Z) (c : content) {struct c} : Prop :=
  match c with
  | Empty | Numpy _ _ => True
  | ListOffset offsets c' => if k =? 1 then True else Forall (fun o => 0 <= o <= length_ c') offsets /\ flat_ok (k - 1) c'
  | ListA _ _ c' | Regular _ _ c' => if k =? 1 then True else flat_ok (k - 1) c'
  | Indexed _ c' | IndexedOption _ c' | ByteMasked _ _ c' | BitMasked _ _ _ _ c' | Unmasked c' => flat_ok k c'
  | Record _ _ cs => cs <> [] /\ fold_right and True (map (flat_ok k) cs)
  | Union _ _ cs => fold_right and True (map (flat_ok k) cs)
  end.
