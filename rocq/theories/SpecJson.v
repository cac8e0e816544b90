(** Specification of JSON: documents, the document that shows a value, and the value that a document is read as.
    Of the models only the names of the types, tokens and options are used. *)
From Coq Require Import String DecimalString.
From Verif Require Import Base SpecArray Types Builder SpecBuilder Json.
Local Open Scope string_scope.
Local Open Scope list_scope.
Local Open Scope Z_scope.

Inductive json :=
| JNull
| JBool (b : bool)
| JInt (z : Z)
| JReal (r : Z)
| JString (s : string)
| JList (l : list json)
| JObject (fields : list (string * json)).

(** the text of a document *)
Fixpoint text (d : json) : list token :=
  match d with
  | JNull => [TNull]
  | JBool b => [TBool b]
  | JInt z => [TInt z]
  | JReal r => [TReal r]
  | JString s => [TString s]
  | JList l => TBeginList :: flat_map text l ++ [TEndList]
  | JObject fs => TBeginObject :: flat_map (fun f => TKey (fst f) :: text (snd f)) fs ++ [TEndObject]
  end.

(** the numbers 0, 1, 2, ... in decimal *)
Definition decimals (n : Z) : list string := map (fun i => NilZero.string_of_uint (Nat.to_uint (Z.to_nat i))) (zseq 0 n).

Section Spec.
Variables (isnan isinf signbit : Z -> bool) (quiet_nan infinity minus_infinity : Z).
Variable o : options.

(** The document that shows a value: numbers that are not finite are shown as the strings given, tuples as objects with keys
    "0", "1", ... *)
Definition special (r : Z) : option string :=
  if isnan r then nan_string o else if isinf r then (if signbit r then minus_infinity_string o else infinity_string o) else None.
Definition real_document (r : Z) : json := match special r with Some s => JString s | None => JReal r end.
Fixpoint document (v : value) : json :=
  match v with
  | VNone => JNull
  | VBool b => JBool b
  | VInt z => JInt z
  | VReal r => real_document r
  | VList l => JList (map document l)
  | VTuple l => JObject (combine (decimals (zlen l)) (map document l))
  | VRec fs => JObject (map (fun f => (fst f, document (snd f))) fs)
  end.
(** values JSON can show: integers of 64 bits with sign, and a string is given for each number that is not finite *)
Definition int64_range (z : Z) : Prop := - 2 ^ 63 <= z < 2 ^ 63.
Fixpoint showable (v : value) : Prop :=
  match v with
  | VNone | VBool _ => True
  | VInt z => int64_range z
  | VReal r => isnan r || isinf r = true -> special r <> None
  | VList l | VTuple l => fold_right and True (map showable l)
  | VRec fs => fold_right and True (map (fun f => showable (snd f)) fs)
  end.

(** The datum a document describes.  Strings other than the three are not covered. *)
Definition named (s : string) : option Z :=
  if match nan_string o with Some t => (s =? t)%string | None => false end then Some quiet_nan
  else if match infinity_string o with Some t => (s =? t)%string | None => false end then Some infinity
  else if match minus_infinity_string o with Some t => (s =? t)%string | None => false end then Some minus_infinity
  else None.
Fixpoint datum (d : json) : entry :=
  match d with
  | JNull => ENull
  | JBool b => EBool b
  | JInt z => EInt z
  | JReal r => EReal r
  | JString s => EReal (match named s with Some r => r | None => 0 end)
  | JList l => EList (map datum l)
  | JObject fs => ERecord (map (fun f => (fst f, [datum (snd f)])) fs)
  end.
(** integers of 64 bits with sign, no string but the three *)
Fixpoint covered_document (d : json) : Prop :=
  match d with
  | JInt z => int64_range z
  | JString s => named s <> None
  | JList l => fold_right and True (map covered_document l)
  | JObject fs => fold_right and True (map (fun f => covered_document (snd f)) fs)
  | _ => True
  end.
(** no object has a key twice *)
Fixpoint keys_once (d : json) : Prop :=
  match d with
  | JList l => fold_right and True (map keys_once l)
  | JObject fs => NoDup (map fst fs) /\ fold_right and True (map (fun f => keys_once (snd f)) fs)
  | _ => True
  end.

(** ** There and back *)
(** [reread r] is what a parser makes of the digits printed for [r] *)
Variable reread : Z -> Z.
Definition reread_token (t : token) : token := match t with TReal r => TReal (reread r) | t => t end.
Definition real_back (r : Z) : Z :=
  match special r with Some s => match named s with Some r => r | None => 0 end | None => reread r end.
(** what comes back: tuples as records, real numbers as read *)
Fixpoint back (v : value) : value :=
  match v with
  | VReal r => VReal (real_back r)
  | VList l => VList (map back l)
  | VTuple l => VRec (combine (decimals (zlen l)) (map back l))
  | VRec fs => VRec (map (fun f => (fst f, back (snd f))) fs)
  | v => v
  end.
End Spec.

(** Types without unions, and with different keys in each record. *)
Fixpoint faithful (t : ty) : Prop :=
  match t with
  | YUnknown | YNum _ => True
  | YList t | YRegular t _ | YOption t => faithful t
  | YRecord keys ts => match keys with Some ks => NoDup ks | None => True end /\ fold_right and True (map faithful ts)
  | YUnion _ => False
  end.
