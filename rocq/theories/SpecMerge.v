(** Specification of concatenation. *)
From Coq Require Import Permutation.
From Verif Require Import Base Content SpecArray SpecForm.

(** [promotes rc v v']: v' is v after the conversions of numbers that a common type asks for: booleans become integers or
    floating-point numbers, integers become floating-point numbers ([rc n] is the code of the real number n), at any depth;
    the fields of a record may come in another order. *)
Inductive promotes (rc : Z -> Z) : value -> value -> Prop :=
| pr_refl v : promotes rc v v
| pr_bool_int b : promotes rc (VBool b) (VInt (if b then 1 else 0))
| pr_bool_real b : promotes rc (VBool b) (VReal (rc (if b then 1 else 0)))
| pr_int_real n : promotes rc (VInt n) (VReal (rc n))
| pr_list l l' : Forall2 (promotes rc) l l' -> promotes rc (VList l) (VList l')
| pr_tuple l l' : Forall2 (promotes rc) l l' -> promotes rc (VTuple l) (VTuple l')
| pr_rec r r1 r' : Permutation r r1 -> Forall2 (fun p q => fst p = fst q /\ promotes rc (snd p) (snd q)) r1 r' -> promotes rc (VRec r) (VRec r').

(** the common type of some number types, and a number in that type *)
Definition common (ds : list dtype) : dtype :=
  if existsb (fun d => match d with DReal => true | _ => false end) ds then DReal
  else if existsb (fun d => match d with DInt => true | _ => false end) ds then DInt else DBool.
Definition as_type (rc : Z -> Z) (d : dtype) (v : value) : value :=
  match d, v with
  | DInt, VBool b => VInt (if b then 1 else 0)
  | DReal, VBool b => VReal (rc (if b then 1 else 0))
  | DReal, VInt n => VReal (rc n)
  | _, _ => v
  end.

(** Two types whose arrays may be concatenated without making a union: unknown and union types with anything, options through
    their content, numbers with numbers (booleans only if asked for), lists of compatible items, tuples and records field by field. *)
Fixpoint no_option (f : form) : form := match f with FOption f => no_option f | _ => f end.
Definition numeric_compat (mergebool : bool) (a b : dtype) : Prop := mergebool = true \/ (a = DBool <-> b = DBool).
Inductive compatible (mergebool : bool) : form -> form -> Prop :=
| co_unknown_l f : compatible mergebool FUnknown f
| co_unknown_r f : compatible mergebool f FUnknown
| co_union_l fs f : compatible mergebool (FUnion fs) f
| co_union_r fs f : compatible mergebool f (FUnion fs)
| co_option_l f g : compatible mergebool f g -> compatible mergebool (FOption f) g
| co_option_r f g : compatible mergebool f g -> compatible mergebool f (FOption g)
| co_num a b : numeric_compat mergebool a b -> compatible mergebool (FNum a) (FNum b)
| co_list f g : compatible mergebool f g -> compatible mergebool (FList f) (FList g)
| co_tuple fs gs : Forall2 (compatible mergebool) fs gs -> compatible mergebool (FRecord None fs) (FRecord None gs)
| co_rec ks ks' fs gs : length ks = length fs -> length ks' = length gs -> Permutation ks ks' ->
    (forall k f g, In (k, f) (combine ks fs) -> In (k, g) (combine ks' gs) -> compatible mergebool f g) ->
    compatible mergebool (FRecord (Some ks) fs) (FRecord (Some ks') gs).

(** Arrays that are laid out as the library itself lays them out: every record array has at least one field, distinct field
    names, and fields that are exactly as long as the record array says. *)
Fixpoint tidy (c : content) : Prop :=
  match c with
  | Empty | Numpy _ _ => True
  | ListA _ _ c | ListOffset _ c | Regular _ _ c | Indexed _ c | IndexedOption _ c | ByteMasked _ _ c | BitMasked _ _ _ _ c | Unmasked c => tidy c
  | Record keys len cs =>
      cs <> [] /\ match keys with Some ks => NoDup ks | None => True end /\ Forall (fun c => length_ c = len) cs /\ fold_right and True (map tidy cs)
  | Union _ _ cs => fold_right and True (map tidy cs)
  end.
(** no IndexedArray anywhere *)
Fixpoint indexed_free (c : content) : bool :=
  match c with
  | Empty | Numpy _ _ => true
  | ListA _ _ c | ListOffset _ c | Regular _ _ c | IndexedOption _ c | ByteMasked _ _ c | BitMasked _ _ _ _ c | Unmasked c => indexed_free c
  | Indexed _ _ => false
  | Record _ _ cs | Union _ _ cs => forallb indexed_free cs
  end.
(** no option type, no union type anywhere *)
Fixpoint option_free (f : form) : bool :=
  match f with FUnknown | FNum _ => true | FList f => option_free f | FOption _ => false | FRecord _ fs | FUnion fs => forallb option_free fs end.
Fixpoint union_free (f : form) : bool :=
  match f with FUnknown | FNum _ => true | FList f | FOption f => union_free f | FRecord _ fs => forallb union_free fs | FUnion _ => false end.
(** the number of nodes, regular lists counted twice *)
Fixpoint weight (c : content) : nat :=
  match c with
  | Empty | Numpy _ _ => 1
  | ListA _ _ c | ListOffset _ c | Indexed _ c | IndexedOption _ c | ByteMasked _ _ c | BitMasked _ _ _ _ c | Unmasked c => S (weight c)
  | Regular _ _ c => S (S (weight c))
  | Record _ _ cs | Union _ _ cs => S (list_sum (map weight cs))
  end.
