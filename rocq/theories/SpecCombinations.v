(** Specification of ak.combinations. *)
From Verif Require Import Base Content SpecArray.

(** all n-tuples of elements of [l] taken from increasing positions (with replacement: positions may repeat) *)
Fixpoint combos {A} (n : nat) (replacement : bool) (l : list A) : list (list A) :=
  match n with
  | O => [[]]
  | S m => (fix from (l : list A) : list (list A) :=
              match l with
              | [] => []
              | x :: t => map (cons x) (combos m replacement (if replacement then l else t)) ++ from t
              end) l
  end.

(** a tuple is strictly (weakly) increasing *)
Fixpoint increasing (replacement : bool) (t : list Z) : Prop :=
  match t with
  | x :: t' => match t' with
               | y :: _ => (if replacement then x <= y else x < y) /\ increasing replacement t'
               | [] => True
               end
  | [] => True
  end.

(** lexicographic order on tuples of the same length *)
Inductive lex : list Z -> list Z -> Prop :=
| lex_head x y a b : x < y -> lex (x :: a) (y :: b)
| lex_tail x a b : lex a b -> lex (x :: a) (x :: b).

(** the list of combinations of a list of values: tuples, or records with the given keys *)
Definition combinations_of (keys : option (list string)) (n : Z) (replacement : bool) (l : list value) : value :=
  VList (map (mkrow keys) (combos (Z.to_nat n) replacement l)).

(** the sizes of the RegularArrays in an array *)
Fixpoint regular_sizes (c : content) : list Z :=
  match c with
  | Empty | Numpy _ _ => []
  | Regular size _ c' => size :: regular_sizes c'
  | ListA _ _ c' | ListOffset _ c' | Indexed _ c' | IndexedOption _ c' | ByteMasked _ _ c' | BitMasked _ _ _ _ c' | Unmasked c' => regular_sizes c'
  | Record _ _ cs | Union _ _ cs => concat (map regular_sizes cs)
  end.
