(** Specification: an array of other numbers. *)
From Verif Require Import Base Content SpecArray SpecForm Astype.

(** the integers of a type with [bits] bits *)
Definition in_type (signed : bool) (bits : Z) (z : Z) : Prop :=
  if signed then - 2 ^ (bits - 1) <= z < 2 ^ (bits - 1) else 0 <= z < 2 ^ bits.

Section Spec.
(** floating-point numbers: greater than zero, zero, the integer part, and the one nearest to an integer *)
Variables positive zero : Z -> bool.
Variable whole : Z -> option Z.
Variable nearest : Z -> Z.

(** [w] is the number [v] in type [t]: a truth value says whether the number is not zero; an integer is kept modulo 2^bits, a floating-point
    number is cut to its integer part; True and False are 1 and 0. *)
Definition number_as (t : ntype) (v w : value) : Prop :=
  match t, v, w with
  | TBool, VBool b, VBool b' => b' = b
  | TBool, VInt z, VBool b => b = true <-> z <> 0
  | TBool, VReal x, VBool b => b = true <-> zero x = false
  | TInt s n, VBool b, VInt z' => z' = if b then 1 else 0
  | TInt s n, VInt z, VInt z' => in_type s n z' /\ exists k, z = z' + k * 2 ^ n
  | TInt s n, VReal x, VInt z' => in_type s n z' /\ whole x = Some z'
  | TReal, VBool b, VReal x => x = nearest (if b then 1 else 0)
  | TReal, VInt z, VReal x => x = nearest z
  | TReal, VReal x, VReal x' => x' = x
  | _, _, _ => False
  end.
(** the same lists, records and missing values, with every number in type [t] *)
Inductive value_as (t : ntype) : value -> value -> Prop :=
| as_number v w : number_as t v w -> value_as t v w
| as_none : value_as t VNone VNone
| as_list l l' : Forall2 (value_as t) l l' -> value_as t (VList l) (VList l')
| as_tuple l l' : Forall2 (value_as t) l l' -> value_as t (VTuple l) (VTuple l')
| as_record l l' : map fst l = map fst l' -> Forall2 (value_as t) (map snd l) (map snd l') -> value_as t (VRec l) (VRec l').

(** what the buffers of an array hold *)
Fixpoint all_numbers (P : value -> Prop) (c : content) : Prop :=
  match c with
  | Empty => True
  | Numpy dt data => Forall P (map (scalar dt) data)
  | ListA _ _ c | ListOffset _ c | Regular _ _ c | Indexed _ c | IndexedOption _ c | ByteMasked _ _ c | BitMasked _ _ _ _ c | Unmasked c => all_numbers P c
  | Record _ _ cs | Union _ _ cs => (fix all (cs : list content) : Prop := match cs with [] => True | c :: cs => all_numbers P c /\ all cs end) cs
  end.
(** for integers, floating-point numbers fit the type; for truth values, they are not negative *)
Definition convertible (t : ntype) (v : value) : Prop :=
  match t, v with
  | TBool, VInt z => 0 <= z
  | TBool, VReal x => positive x = true \/ zero x = true
  | TInt s n, VReal x => exists z, whole x = Some z /\ in_type s n z
  | _, _ => True
  end.
End Spec.

(** a type that can be asked for *)
Definition proper_type (t : ntype) : Prop := match t with TInt _ bits => 1 < bits | TRefused => False | _ => True end.
(** the type of the result *)
Fixpoint retype (t : ntype) (f : form) : form :=
  match f with
  | FUnknown => FUnknown
  | FNum _ => FNum (dtype_of t)
  | FList f => FList (retype t f)
  | FOption f => FOption (retype t f)
  | FRecord keys fs => FRecord keys (map (retype t) fs)
  | FUnion fs => FUnion (map (retype t) fs)
  end.
