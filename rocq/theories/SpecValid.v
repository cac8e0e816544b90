(** Specification vocabulary for validity. *)
From Verif Require Import Base Content.

(** [built c]: every node of [c] was accepted by its C++ constructor (Content.v, mk...), and the
    two lengths that constructors take on trust (RecordArray, BitMaskedArray) are not negative. *)
Fixpoint built (c : content) : Prop :=
  match c with
  | Empty => True
  | Numpy _ _ => True
  | ListA starts stops c' => mkListA starts stops c' = Ok c /\ built c'
  | ListOffset offsets c' => mkListOffset offsets c' = Ok c /\ built c'
  | Regular size zl c' => mkRegular size zl c' = Ok c /\ built c'
  | Indexed _ c' => built c'
  | IndexedOption _ c' => built c'
  | ByteMasked mask vw c' => mkByteMasked mask vw c' = Ok c /\ built c'
  | BitMasked mask vw lsb len c' => mkBitMasked mask vw lsb len c' = Ok c /\ 0 <= len /\ built c'
  | Unmasked c' => built c'
  | Record keys len cs => mkRecord keys len cs = Ok c /\ 0 <= len /\ fold_right (fun c p => built c /\ p) True cs
  | Union tags index cs => mkUnion tags index cs = Ok c /\ fold_right (fun c p => built c /\ p) True cs
  end.

Definition option_or_indexed (c : content) : Prop :=
  match c with
  | BitMasked _ _ _ _ _ | ByteMasked _ _ _ | Indexed _ _ | IndexedOption _ _ | Unmasked _ => True
  | _ => False
  end.
(** [simplified c]: no option/indexed node directly inside another, no union directly inside a union. *)
Fixpoint simplified (c : content) : Prop :=
  match c with
  | Empty => True
  | Numpy _ _ => True
  | ListA _ _ c' | ListOffset _ c' | Regular _ _ c' => simplified c'
  | Indexed _ c' | IndexedOption _ c' | ByteMasked _ _ c' | BitMasked _ _ _ _ c' | Unmasked c' =>
      ~ option_or_indexed c' /\ simplified c'
  | Record _ _ cs => fold_right (fun c p => simplified c /\ p) True cs
  | Union _ _ cs => fold_right (fun c p => ((match c with Union _ _ _ => False | _ => True end) /\ simplified c) /\ p) True cs
  end.

