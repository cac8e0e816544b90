(** Specification: the elements of buffers that an array uses, and how many bytes they take when each is counted once. *)
From Verif Require Import Base Content Copy.
Local Open Scope Z_scope.

(** A part of a buffer: [a_length] elements, from [a_offset] on, [a_stride] apart. *)
Record area := mkArea { a_ptr : Z; a_offset : Z; a_length : Z; a_stride : Z }.
(** its elements, each given by the buffer and the position in it *)
Definition cells (a : area) : list (Z * Z) := map (fun i => (a_ptr a, a_offset a + i * a_stride a)) (zseq 0 (a_length a)).
Definition whole (v : iview) : area := mkArea (v_ptr v) (v_offset v) (v_length v) 1.

(** all the parts of buffers that an array refers to *)
Fixpoint areas (n : node) : list area :=
  match n with
  | MEmpty => []
  | MNumpy _ ptr offset length stride => [mkArea ptr offset length stride]
  | MListA starts stops c => whole starts :: whole stops :: areas c
  | MListOffset v c | MIndexed v c | MIndexedOption v c | MByteMasked v _ c | MBitMasked v _ _ _ c => whole v :: areas c
  | MRegular _ _ c | MUnmasked c => areas c
  | MRecord _ _ cs => flat_map areas cs
  | MUnion tags index cs => whole tags :: whole index :: flat_map areas cs
  end.
Definition used (n : node) (x : Z * Z) : Prop := exists a, In a (areas n) /\ In x (cells a).

(** the bytes of some elements *)
Definition total (width : Z -> Z) (xs : list (Z * Z)) : Z := fold_right (fun x out => width (fst x) + out) 0 xs.

(** no lengths are negative, and no two elements of an array are the same place in memory (a stride of zero) *)
Definition sound (n : node) : Prop := forall a, In a (areas n) -> 0 <= a_length a /\ a_stride a <> 0.
(** of two parts of the same buffer, one has all the elements of the other *)
Definition nested (n : node) : Prop :=
  forall a b, In a (areas n) -> In b (areas n) -> a_ptr a = a_ptr b -> incl (cells a) (cells b) \/ incl (cells b) (cells a).

Fixpoint no_union (n : node) : bool :=
  match n with
  | MEmpty | MNumpy _ _ _ _ _ => true
  | MListA _ _ c | MListOffset _ c | MRegular _ _ c | MIndexed _ c | MIndexedOption _ c | MByteMasked _ _ c | MBitMasked _ _ _ _ c | MUnmasked c => no_union c
  | MRecord _ _ cs => forallb no_union cs
  | MUnion _ _ _ => false
  end.
