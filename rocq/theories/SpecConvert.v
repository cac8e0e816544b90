(** Specification of the list conversions, in terms of the values an array stands for. *)
From Verif Require Import Base Content SpecArray SpecSlice.

(** a node whose elements are lists *)
Definition list_type (c : content) : Prop :=
  match c with ListA _ _ _ | ListOffset _ _ | Regular _ _ _ => True | _ => False end.
(** lists of length one, known from the type *)
Definition size_one (c : content) : Prop := match c with Regular 1 _ _ => True | _ => False end.
Definition is_regular (c : content) : Prop := match c with Regular _ _ _ => True | _ => False end.
Definition all_same_length (lists : list (list value)) : Prop := forall s t, In s lists -> In t lists -> zlen s = zlen t.

(** offsets that do not point outside of the content, even for empty lists *)
Definition offsets_inside (c : content) : Prop :=
  match c with
  | ListOffset offsets c' => exists first last, nthZ offsets 0 = Some first /\ nthZ offsets (zlen offsets - 1) = Some last /\ 0 <= first /\ last <= length_ c'
  | _ => True
  end.
