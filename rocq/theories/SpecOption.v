(** Specification of missing values. *)
From Verif Require Import Base Content SpecArray.

(** the nodes that hide elements *)
Definition option_type (c : content) : Prop :=
  match c with IndexedOption _ _ | ByteMasked _ _ _ | BitMasked _ _ _ _ _ | Unmasked _ => True | _ => False end.
Definition option_or_indexed (c : content) : Prop := option_type c \/ exists index c', c = Indexed index c'.

(** does the node itself hide element [i]?  [None] if there is no such element *)
Definition missing_at (c : content) (i : Z) : option bool :=
  match c with
  | BitMasked mask vw lsb _ _ => option_map (fun b => negb (Bool.eqb b vw)) (mask_bit mask lsb i)
  | ByteMasked mask vw _ => option_map (fun m => negb (Bool.eqb (negb (m =? 0)) vw)) (nthZ mask i)
  | IndexedOption index _ => option_map (fun x => x <? 0) (nthZ index i)
  | Indexed index _ => option_map (fun _ => false) (nthZ index i)
  | Unmasked _ => Some false
  | _ => None
  end.

(** the positions in 0, ..., n-1 that the node does not hide, in order *)
Definition present (c : content) (n : Z) : list Z :=
  filter (fun i => match missing_at c i with Some false => true | _ => false end) (zseq 0 n).

(** position [i] is not masked out by a mask in which non-zero means "hide" *)
Definition unmasked_at (mask : list Z) (i : Z) : bool := match nthZ mask i with Some m => m =? 0 | None => false end.

(** the content directly below an option or indexed node *)
Definition below (c : content) : content :=
  match c with Indexed _ c' | IndexedOption _ c' | ByteMasked _ _ c' | BitMasked _ _ _ _ c' | Unmasked c' => c' | _ => c end.
