(** What array[["x", "y"]] is: every record with only those fields, in that order. *)
From Verif Require Import Base Content SpecArray SpecForm SpecGetitem.
From Coq Require Import String.
From Coq Require Import List.
Import ListNotations.
Local Open Scope Z_scope.

(** [proj key v] is the field [key] of the record [v] (SpecGetitem.v).  Fields of tuples are named by their numbers, and a selection of them is
    again a tuple. *)
Fixpoint select (keys : list string) (v : value) : option value :=
  match v with
  | VNone => Some VNone
  | VList l => option_map VList (omap (select keys) l)
  | VRec fs => option_map VRec (omap (fun key => option_map (pair key) (proj key (VRec fs))) keys)
  | VTuple l => option_map VTuple (omap (fun key => proj key (VTuple l)) keys)
  | _ => None
  end.

Definition has_fields (keys : list string) (f : form) : bool := forallb (fun key => has_field key f) keys.

(** there are records (or tuples) inside, below lists and missing values only *)
Fixpoint has_records (f : form) : bool :=
  match f with
  | FList f => has_records f
  | FOption f => has_records f
  | FRecord _ _ => true
  | _ => false
  end.
(** the same for records with names *)
Fixpoint has_named (f : form) : bool :=
  match f with
  | FList f => has_named f
  | FOption f => has_named f
  | FRecord (Some _) _ => true
  | _ => false
  end.
