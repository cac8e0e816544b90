(** Specification of operations along an axis.

    [lift f k v]: apply [f] to every list [k] levels below the element [v] (k = 1: [v] itself is the list).
    Records are looked into field by field, missing values stay missing. *)
From Verif Require Import Base Content SpecArray SpecForm.

Fixpoint lift (f : list value -> value) (k : Z) (v : value) {struct v} : value :=
  match v with
  | VList l => if k =? 1 then f l else VList (map (lift f (k - 1)) l)
  | VRec fields => VRec (map (fun kv => (fst kv, lift f k (snd kv))) fields)
  | VTuple l => VTuple (map (lift f k) l)
  | _ => v
  end.

(** does every branch of the type have lists [k] levels down?  (an array of unknown type is empty) *)
Fixpoint has_axis (k : Z) (f : form) {struct f} : bool :=
  match f with
  | FUnknown => true
  | FNum _ => false
  | FList f' => if k =? 1 then true else has_axis (k - 1) f'
  | FOption f' => has_axis k f'
  | FRecord _ fs => forallb (has_axis k) fs
  | FUnion fs => forallb (has_axis k) fs
  end.

(** the number of list levels of a type in which every branch has the same number and there are no records *)
Fixpoint uniform_depth (f : form) : option Z :=
  match f with
  | FUnknown | FNum _ => Some 1
  | FList f' => option_map (Z.add 1) (uniform_depth f')
  | FOption f' => uniform_depth f'
  | FRecord _ _ => None
  | FUnion fs =>
      match map uniform_depth fs with
      | Some d :: ds => if forallb (fun d' => match d' with Some d' => d' =? d | None => false end) ds then Some d else None
      | _ => None
      end
  end.

(** the positions in a list *)
Definition local_index (l : list value) : value := VList (map VInt (zseq 0 (zlen l))).
Definition count (l : list value) : value := VInt (zlen l).
