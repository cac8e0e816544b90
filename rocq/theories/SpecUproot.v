(** Specification: the bytes ROOT writes for a std::vector<std::vector<T>>.  Of the model only the types of arrays and forms are used. *)
From Verif Require Import Base Content SpecArray Strided SpecStrided Uproot.
Local Open Scope list_scope.
Local Open Scope Z_scope.

(** a number in [n] bytes, most significant first; negative numbers in two's complement *)
Fixpoint be (n : nat) (x : Z) : list Z := match n with O => [] | S n => be n (x / 256) ++ [x mod 256] end.

(** number of bytes of an item, and which numbers it holds: 32-bit integers, or floating point numbers given by their 64 bits *)
Definition width (t : roottype) : nat := match t with RInt32 => 4 | RFloat64 => 8 end.
Definition holds (t : roottype) (x : Z) : Prop := match t with RInt32 => - 2 ^ 31 <= x < 2 ^ 31 | RFloat64 => 0 <= x < 2 ^ 64 end.
Definition value_of (t : roottype) (x : Z) : value := match t with RInt32 => VInt x | RFloat64 => VReal x end.

(** an inner vector: its length, then its items *)
Definition vector_bytes (t : roottype) (xs : list Z) : list Z := be 4 (zlen xs) ++ concat (map (be (width t)) xs).
(** an entry: the number of bytes that follow, marked with bit 30, then a version of two bytes, then the inner vectors *)
Definition entry_bytes (t : roottype) (version : Z) (xss : list (list Z)) : list Z :=
  let body := be 2 version ++ concat (map (vector_bytes t) xss) in be 4 (2 ^ 30 + zlen body) ++ body.

Definition entry_value (t : roottype) (xss : list (list Z)) : value := VList (map (fun xs => VList (map (value_of t) xs)) xss).

(** [data] is a contiguous array of bytes; its elements are [bs] *)
Definition bytes_of (data : ndarray) (bs : list Z) : Prop :=
  nd_itemsize data = 1 /\ nd_shape data = [zlen bs] /\ nd_strides data = [1] /\
  forall i b, nthZ bs i = Some b -> element data [i] = Some [b].

(** the bytes from position [p] on begin with [e] *)
Definition stands_at (bs : list Z) (p : Z) (e : list Z) : Prop := exists before after, bs = before ++ e ++ after /\ zlen before = p.

Definition form_of (t : roottype) : rootform :=
  FListOffset (FListOffset (FNumpy (match t with RInt32 => "int32" | RFloat64 => "float64" end))).
