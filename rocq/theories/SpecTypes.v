(** Specification of types: the values a type has, and what it says about nesting.  Of the model only the names of the types are used. *)
From Coq Require Import String Permutation.
From Verif Require Import Base Content SpecArray Types.
Local Open Scope string_scope.
Local Open Scope list_scope.
Local Open Scope Z_scope.

(** ** The values of a type *)
Definition a_number (dt : dtype) (v : value) : Prop :=
  match dt, v with DBool, VBool _ | DInt, VInt _ | DReal, VReal _ => True | _, _ => False end.

Section Row.
  Variable has : ty -> value -> Prop.
  (** one value for each of the types *)
  Fixpoint row_of (ts : list ty) (vs : list value) : Prop :=
    match ts, vs with [], [] => True | t :: ts, v :: vs => has t v /\ row_of ts vs | _, _ => False end.
  Fixpoint one_of (ts : list ty) (v : value) : Prop :=
    match ts with [] => False | t :: ts => has t v \/ one_of ts v end.
End Row.

Fixpoint has_type (t : ty) (v : value) {struct t} : Prop :=
  match t with
  | YUnknown => False
  | YNum dt => a_number dt v
  | YList t => exists l, v = VList l /\ Forall (has_type t) l
  | YRegular t size => exists l, v = VList l /\ zlen l = size /\ Forall (has_type t) l
  | YOption t => v = VNone \/ has_type t v
  | YRecord keys ts => exists row, v = mkrow keys row /\ keys_ok keys (zlen ts) = true /\ row_of has_type ts row
  | YUnion ts => one_of has_type ts v
  end.

(** ** Values up to the order of the fields of records *)
Inductive same_value : value -> value -> Prop :=
| sv_refl v : same_value v v
| sv_list l l' : Forall2 same_value l l' -> same_value (VList l) (VList l')
| sv_tuple l l' : Forall2 same_value l l' -> same_value (VTuple l) (VTuple l')
| sv_rec fs fs' fs'' : Forall2 (fun f g => fst f = fst g /\ same_value (snd f) (snd g)) fs fs' -> Permutation fs' fs'' ->
    same_value (VRec fs) (VRec fs'').

(** The keys of each record are different from each other, and none of them begins with a digit, a sign or white space. *)
Definition wordy (a : Ascii.ascii) : bool :=
  let n := Z.of_nat (Ascii.nat_of_ascii a) in
  negb ((48 <=? n) && (n <=? 57) || (n =? 43) || (n =? 45) || (n =? 32) || ((9 <=? n) && (n <=? 13))).
Definition word (k : string) : Prop := match k with EmptyString => True | String a _ => wordy a = true end.
Fixpoint plain_keys (t : ty) : Prop :=
  match t with
  | YUnknown | YNum _ => True
  | YList t | YRegular t _ | YOption t => plain_keys t
  | YRecord keys ts =>
      match keys with Some ks => NoDup ks /\ Forall word ks /\ zlen ks = zlen ts | None => True end
      /\ fold_right and True (map plain_keys ts)
  | YUnion ts => fold_right and True (map plain_keys ts)
  end.

(** sizes are not negative, records have a key for each field or none, unions have alternatives *)
Fixpoint proper (t : ty) : Prop :=
  match t with
  | YUnknown | YNum _ => True
  | YList t | YOption t => proper t
  | YRegular t size => 0 <= size /\ proper t
  | YRecord keys ts => keys_ok keys (zlen ts) = true /\ fold_right and True (map proper ts)
  | YUnion ts => ts <> [] /\ fold_right and True (map proper ts)
  end.

(** ** One item of an array *)
(** a type, what is in its option, and the alternatives of a union *)
Fixpoint alternatives (t : ty) : list ty :=
  match t with YOption u => t :: alternatives u | YUnion ts => flat_map alternatives ts | t => [t] end.
Definition item_typed (t : ty) (it : item) : Prop :=
  match it with
  | IScalar dt _ => In (YNum dt) (alternatives t)
  | INone => exists u, In (YOption u) (alternatives t)
  | IArray c => In (YList (type_of c)) (alternatives t) \/ exists size, In (YRegular (type_of c) size) (alternatives t)
  | IRecord c _ => In (type_of c) (alternatives t)
  end.

(** ** Nesting *)
(** The number of list levels around the numbers or records, with the array itself as one; None when alternatives differ. *)
Fixpoint depth_of (t : ty) : option Z :=
  match t with
  | YUnknown | YNum _ | YRecord _ _ => Some 1
  | YList t | YRegular t _ => option_map (Z.add 1) (depth_of t)
  | YOption t => depth_of t
  | YUnion ts =>
      match map depth_of ts with
      | Some d :: ds => if forallb (fun e => match e with Some e => e =? d | None => false end) ds then Some d else None
      | _ => None
      end
  end.
(** items of an array of depth d: at depth 1 none is a list *)
Fixpoint nested (d : nat) (v : value) : Prop :=
  match d with
  | O => False
  | S d' => match v with
            | VNone => True
            | VList l => d' <> O /\ Forall (nested d') l
            | _ => d' = O
            end
  end.

(** the list levels around each number, through records; a record or union with nothing in it counts as 0 *)
Fixpoint branches (t : ty) : list Z :=
  match t with
  | YUnknown | YNum _ => [1]
  | YList t | YRegular t _ => map (Z.add 1) (branches t)
  | YOption t => branches t
  | YRecord _ ts | YUnion ts => match ts with [] => [0] | _ => flat_map branches ts end
  end.
Definition is_least (m : Z) (l : list Z) : Prop := In m l /\ Forall (fun x => m <= x) l.
Definition is_greatest (m : Z) (l : list Z) : Prop := In m l /\ Forall (fun x => x <= m) l.

(** the depths of the numbers of a value, [d] being the depth of the array it is in *)
Fixpoint number_depths (d : Z) (v : value) : list Z :=
  match v with
  | VInt _ | VBool _ | VReal _ => [d]
  | VNone => []
  | VList l => flat_map (number_depths (d + 1)) l
  | VRec fs => flat_map (fun f => number_depths d (snd f)) fs
  | VTuple l => flat_map (number_depths d) l
  end.
