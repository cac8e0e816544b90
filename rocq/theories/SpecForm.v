(** Specification: the type of an array, as ak.type shows it, without parameters and without the
    distinction between regular and variable-length lists. *)
From Verif Require Import Base Content.

Inductive form : Type :=
| FUnknown
| FNum (dt : dtype)
| FList (f : form)
| FOption (f : form)
| FRecord (keys : option (list string)) (fs : list form)
| FUnion (fs : list form).

Fixpoint form_of (c : content) : form :=
  match c with
  | Empty => FUnknown
  | Numpy dt _ => FNum dt
  | ListA _ _ c | ListOffset _ c | Regular _ _ c => FList (form_of c)
  | Indexed _ c => form_of c
  | IndexedOption _ c | ByteMasked _ _ c | BitMasked _ _ _ _ c | Unmasked c => FOption (form_of c)
  | Record keys _ cs => FRecord keys (map form_of cs)
  | Union _ _ cs => FUnion (map form_of cs)
  end.
