(** Specification: slices by arrays of lists of integers.  Each integer selects an element of the list at the same place. *)
From Verif Require Import Base Content SpecArray SpecForm Getitem SpecGetitem.
From Coq Require Import String.
From Coq Require Import List.
Import ListNotations.
Local Open Scope Z_scope.

(** the lists of (lists of ...) integers that the slice stands for; offsets start at 0 and end with the length of the content,
    as Content::asslice makes them (ListOffsetArray.cpp:1159-1176) *)
Fixpoint jag (sc : sliceitem) : option (list value) :=
  match sc with
  | SArray _ index => Some (map VInt index)
  | SJagged offsets sc =>
      match jag sc with
      | Some js => if (1 <=? zlen offsets) && (hd (-1) offsets =? 0) && (last offsets (-1) =? zlen js)
                   then omap (fun ab => sublist js (fst ab) (snd ab)) (pairs offsets) else None
      | None => None
      end
  | _ => None
  end.
(** levels of lists outside the lists of integers *)
Fixpoint jdepth (sc : sliceitem) : nat := match sc with SJagged _ sc => S (jdepth sc) | _ => O end.

(** the elements of [v] that [j] selects, where [j] is a list of integers below [d] levels of lists *)
Fixpoint jpick (d : nat) (j v : value) {struct d} : option value :=
  thru (fun v => match v, j with
    | VList l, VList js =>
        match d with
        | O => option_map VList (omap (fun i => match i with VInt i => elem l i | _ => None end) js)
        | S d => if zlen js =? zlen l then option_map VList (omap (fun jx => jpick d (fst jx) (snd jx)) (combine js l)) else None
        end
    | _, _ => None
    end) v.

(** types with enough levels of lists, and missing lists only where the integers apply *)
Inductive jfits : nat -> form -> Prop :=
| jfits_last f : jfits O (FList f)
| jfits_option f : jfits O f -> jfits O (FOption f)
| jfits_list d f : jfits d f -> jfits (S d) (FList f)
| jfits_record d keys fs : Forall (jfits d) fs -> jfits d (FRecord keys fs).
