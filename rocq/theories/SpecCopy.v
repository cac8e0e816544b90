(** Specification: copies that share no memory. *)
From Verif Require Import Base Content Copy.

(** two memories have the same buffers from position [a] to position [b] *)
Definition same_buffers (a b : Z) (m m' : memory) : Prop := forall k, a <= k < b -> nthZ m' k = nthZ m k.

(** no NumpyArray of the array starts in the middle of its buffer, except those that have a stride or no elements *)
Fixpoint from_the_start (n : node) : Prop :=
  match n with
  | MEmpty => True
  | MNumpy _ _ offset length stride => offset = 0 \/ length = 0 \/ stride <> 1
  | MListA _ _ c | MListOffset _ c | MRegular _ _ c | MIndexed _ c | MIndexedOption _ c | MByteMasked _ _ c | MBitMasked _ _ _ _ c | MUnmasked c => from_the_start c
  | MRecord _ _ cs | MUnion _ _ cs => (fix all (cs : list node) : Prop := match cs with [] => True | c :: cs => from_the_start c /\ all cs end) cs
  end.
