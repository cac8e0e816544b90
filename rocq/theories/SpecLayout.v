(** LayoutBuilder, for C43: which Forms are considered, which values they describe, and the calls that append a value *)
From Coq Require Import String.
From Verif Require Import Base SpecArray Forms LayoutBuild.
Local Open Scope list_scope.
Local Open Scope Z_scope.

(** Lists, records and tuples of numbers, nested in any way *)
Inductive leaf := LInt | LReal | LBool.
Inductive shape : Type :=
| SNum (l : leaf)
| SList (w : iform) (c : shape)
| SRec (keys : option (list string)) (cs : list shape).

(** the shape of a Form: 64-bit integers, 64-bit floating-point numbers and booleans, lists with offsets, records with at least one field and as
    many keys as fields *)
Fixpoint shape_of (f : form) : option shape :=
  match f with
  | FNumpy _ [] 8 _ int64 => Some (SNum LInt)
  | FNumpy _ [] 8 _ float64 => Some (SNum LReal)
  | FNumpy _ [] 1 _ boolean => Some (SNum LBool)
  | FListOffset _ w c =>
      match w, shape_of c with
      | (i32 | u32 | i64), Some s => Some (SList w s)
      | _, _ => None
      end
  | FRecord _ keys cs =>
      match omap shape_of cs with
      | Some (s :: ss) => if keys_ok keys (zlen cs) then Some (SRec keys (s :: ss)) else None
      | _ => None
      end
  | _ => None
  end.

(** values of a shape *)
Definition fields_of (v : value) : list value :=
  match v with VRec fs => map snd fs | VTuple vs => vs | _ => [] end.
Fixpoint of_shape (s : shape) (v : value) : Prop :=
  match s with
  | SNum LInt => exists z, v = VInt z /\ - 2^63 <= z < 2^63
  | SNum LReal => exists z, v = VReal z /\ 0 <= z < 2^64
  | SNum LBool => exists b, v = VBool b
  | SList _ c => exists vs, v = VList vs /\ (fix all (vs : list value) := match vs with [] => True | v :: vs => of_shape c v /\ all vs end) vs
  | SRec keys cs =>
      match keys with
      | Some ks => exists vs, v = VRec (combine ks vs) /\ List.length ks = List.length vs
      | None => exists vs, v = VTuple vs
      end
      /\ (fix all (cs : list shape) (vs : list value) :=
            match cs, vs with
            | [], [] => True
            | c :: cs, v :: vs => of_shape c v /\ all cs vs
            | _, _ => False
            end) cs (fields_of v)
  end.

(** the calls that append a value *)
Fixpoint calls_of (v : value) : list call :=
  match v with
  | VInt z => [CInt z]
  | VReal z => [CReal z]
  | VBool b => [CBool b]
  | VNone => [CNull]
  | VList vs => CBegin :: (fix go (vs : list value) := match vs with [] => [] | v :: vs => calls_of v ++ go vs end) vs ++ [CEnd]
  | VRec fs => (fix go (fs : list (string * value)) := match fs with [] => [] | f :: fs => calls_of (snd f) ++ go fs end) fs
  | VTuple vs => (fix go (vs : list value) := match vs with [] => [] | v :: vs => calls_of v ++ go vs end) vs
  end.

(** the calls that append some values, one after another *)
Fixpoint calls_all (vs : list value) : list call := match vs with [] => [] | v :: vs => calls_of v ++ calls_all vs end.

(** all items of the lists, and the j-th fields *)
Definition items_of (v : value) : list value := match v with VList vs => vs | _ => [] end.
Definition field_of (j : nat) (v : value) : value := nth j (fields_of v) VNone.

(** fewer than 2^31 items in all at every level *)
Fixpoint few (s : shape) (vs : list value) : Prop :=
  zlen vs < 2^31 /\
  match s with
  | SNum _ => True
  | SList _ c => few c (concat (map items_of vs))
  | SRec _ cs =>
      (fix all (cs : list shape) (j : nat) :=
         match cs with [] => True | c :: cs => few c (map (field_of j) vs) /\ all cs (S j) end) cs 0%nat
  end.

(** Shapes without lists; lists of lists (of any depth) of numbers or records whose fields are either all without lists, or each a number or one
    list of a shape without lists *)
Fixpoint scal (s : shape) : bool :=
  match s with SNum _ => true | SList _ _ => false | SRec _ cs => (0 <? zlen cs) && forallb scal cs end.
Definition flat_field (s : shape) : bool := match s with SNum _ => true | SList _ c => scal c | SRec _ _ => false end.
Fixpoint nest (s : shape) : bool :=
  match s with
  | SNum _ => true
  | SList _ c => nest c
  | SRec _ cs => scal s || ((0 <? zlen cs) && forallb flat_field cs)
  end.

(** the number of nodes *)
Fixpoint nodes (s : shape) : Z :=
  match s with SNum _ => 1 | SList _ c => 1 + nodes c | SRec _ cs => 1 + fold_right Z.add 0 (map nodes cs) end.

(** The keys of the builders, in the order in which the builders are made: that of the Form or, without one, a number *)
Fixpoint keys_in (f : form) (next : nat) : list string * nat :=
  let key m := match form_key m with Some k => (k, next) | None => (("node-id" +++ to_string next)%string, S next) end in
  match f with
  | FListOffset m _ c => let '(k, next) := key m in let '(ks, next) := keys_in c next in (k :: ks, next)
  | FRecord m _ cs =>
      let '(k, next) := key m in
      let '(ks, next) := (fix go (cs : list form) (next : nat) : list string * nat :=
                            match cs with
                            | [] => ([], next)
                            | c :: cs => let '(ks, next) := keys_in c next in let '(ks', next) := go cs next in (ks ++ ks', next)
                            end) cs next in
      (k :: ks, next)
  | _ => let '(k, next) := key (meta_of f) in ([k], next)
  end.

(** A letter followed by letters, digits, hyphens and underscores, but not beginning with part0 *)
Definition letter (c : ascii) : bool := let n := nat_of_ascii c in ((65 <=? n) && (n <=? 90) || (97 <=? n) && (n <=? 122))%nat%bool.
Definition key_char (c : ascii) : bool := let n := nat_of_ascii c in (letter c || (48 <=? n) && (n <=? 57) || (n =? 45) || (n =? 95))%nat%bool.
Definition plain_key (k : string) : bool :=
  match k with
  | String c _ => letter c && forallb key_char (list_ascii_of_string k) && negb (String.prefix "part0" k)
  | _ => false
  end.
