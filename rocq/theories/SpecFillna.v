(** Specification of fillna: the missing values are replaced, at every depth. *)
From Verif Require Import Base Content SpecArray SpecForm SpecMerge.

Fixpoint fill (w v : value) : value :=
  match v with
  | VNone => w
  | VList l => VList (map (fill w) l)
  | VRec r => VRec (map (fun p => (fst p, fill w (snd p))) r)
  | VTuple l => VTuple (map (fill w) l)
  | _ => v
  end.

(** no option type inside another option type *)
Fixpoint one_option (f : form) : bool :=
  match f with
  | FUnknown | FNum _ => true
  | FList f => one_option f
  | FOption f => option_free f
  | FRecord _ fs | FUnion fs => forallb one_option fs
  end.

(** the same at the first level only *)
Definition fill_outer (w v : value) : value := match v with VNone => w | _ => v end.
