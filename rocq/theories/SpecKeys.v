(** Which fields the elements of an array have, by their type. *)
From Verif Require Import Base Content SpecForm SpecSetitem.
From Coq Require Import String.
From Coq Require Import List.
Import ListNotations.

(** the outermost records, below lists and missing values; fields of tuples are numbered; of several types, what they have in common,
    in the order of the first *)
Fixpoint field_names (f : form) : list string :=
  match f with
  | FList f | FOption f => field_names f
  | FRecord (Some ks) _ => ks
  | FRecord None fs => map decimal (seq 0 (length fs))
  | FUnion [] => []
  | FUnion (f :: fs) => filter (fun k => forallb (fun names => existsb (String.eqb k) names) (map field_names fs)) (field_names f)
  | _ => []
  end.
