(** Specification for ArrayBuilder: what a sequence of calls describes.

    [entry] is one appended datum, [calls] the calls that append it, [value_of] the value a snapshot must show for it.
    [advance] reads calls one by one and keeps what has been closed and what is still open: it says which calls are well
    nested.  Nothing here uses the model of the methods (of Builder.v only the names of the calls). *)
From Coq Require Import String.
From Verif Require Import Base SpecArray Builder.
Local Open Scope string_scope.
Local Open Scope list_scope.
Local Open Scope Z_scope.

(** In a tuple or record, [(k, l)] is a call of index k or field k, and the data appended until the next one. *)
Inductive entry :=
| ENull
| EBool (b : bool)
| EInt (z : Z)
| EReal (r : Z)
| EList (items : list entry)
| ETuple (n : Z) (slots : list (Z * list entry))
| ERecord (fields : list (string * list entry)).

Fixpoint calls (e : entry) : list call :=
  match e with
  | ENull => [CNull]
  | EBool b => [CBool b]
  | EInt z => [CInt z]
  | EReal r => [CReal r]
  | EList l => CBeginList :: flat_map calls l ++ [CEndList]
  | ETuple n fs => CBeginTuple n :: flat_map (fun f => CIndex (fst f) :: flat_map calls (snd f)) fs ++ [CEndTuple]
  | ERecord fs => CBeginRecord :: flat_map (fun f => CField (fst f) :: flat_map calls (snd f)) fs ++ [CEndRecord]
  end.

(** everything appended under one index or key *)
Definition filled {K X} (eqb : K -> K -> bool) (k : K) (fs : list (K * list X)) : list X :=
  flat_map (fun f => if eqb (fst f) k then snd f else []) fs.
(** no index or key was given two data *)
Definition once {K X} (eqb : K -> K -> bool) (fs : list (K * list X)) : bool :=
  forallb (fun f => zlen (filled eqb (fst f) fs) <=? 1) fs.

(** ** The values to be shown *)
(** The data at one place of an array share a type.  A place is given by all the data there, the column. *)
Definition has_real (col : list entry) : bool := existsb (fun e => match e with EReal _ => true | _ => false end) col.
(** the columns inside a column: the items of its lists, slot [i] of its tuples of [n], field [k] of its records *)
Definition items_of (col : list entry) : list entry := flat_map (fun e => match e with EList l => l | _ => [] end) col.
Definition slot_of (n i : Z) (col : list entry) : list entry :=
  flat_map (fun e => match e with ETuple m fs => if m =? n then filled Z.eqb i fs else [] | _ => [] end) col.
Definition field_of (k : string) (col : list entry) : list entry :=
  flat_map (fun e => match e with ERecord fs => filled String.eqb k fs | _ => [] end) col.
(** the keys of all the records of a column, in the order of their first appearance *)
Definition distinct (ks : list string) : list string :=
  fold_left (fun acc k => if existsb (String.eqb k) acc then acc else acc ++ [k]) ks [].
Definition keys_of (col : list entry) : list string :=
  distinct (flat_map (fun e => match e with ERecord fs => map fst fs | _ => [] end) col).

(** what was appended under one key, or None *)
Definition one (l : list value) : value := match l with [v] => v | _ => VNone end.

Section Values.
(** the floating point number an integer converts to *)
Variable rc : Z -> Z.
(** An integer becomes a real number when a real number is at the same place; a slot or field that was not filled is
    missing; a record has all the fields that the records at its place have. *)
Fixpoint value_of (col : list entry) (e : entry) {struct e} : value :=
  match e with
  | ENull => VNone
  | EBool b => VBool b
  | EInt z => if has_real col then VReal (rc z) else VInt z
  | EReal r => VReal r
  | EList l => VList (map (value_of (items_of col)) l)
  | ETuple n fs =>
      let vs := map (fun f => (fst f, map (value_of (slot_of n (fst f) col)) (snd f))) fs in
      VTuple (map (fun i => one (filled Z.eqb i vs)) (zseq 0 n))
  | ERecord fs =>
      let vs := map (fun f => (fst f, map (value_of (field_of (fst f) col)) (snd f))) fs in
      VRec (map (fun k => (k, one (filled String.eqb k vs))) (keys_of col))
  end.
Definition values (es : list entry) : list value := map (value_of es) es.
End Values.

(** ** Reading calls one by one *)
(** a list, tuple or record that is still open: what is in it so far, [now] being the index or key in use *)
Inductive frame :=
| FList (items : list entry)
| FTuple (n : Z) (slots : list (Z * list entry)) (now : option (Z * list entry))
| FRecord (fields : list (string * list entry)) (now : option (string * list entry)).

Definition all {K} (fs : list (K * list entry)) (now : option (K * list entry)) : list (K * list entry) :=
  fs ++ match now with Some f => [f] | None => [] end.

(** a call where nothing is open *)
Definition start (es : list entry) (k : call) : option (list entry * list frame) :=
  match k with
  | CNull => Some (es ++ [ENull], [])
  | CBool b => Some (es ++ [EBool b], [])
  | CInt z => Some (es ++ [EInt z], [])
  | CReal r => Some (es ++ [EReal r], [])
  | CBeginList => Some (es, [FList []])
  | CBeginTuple n => Some (es, [FTuple n [] None])
  | CBeginRecord => Some (es, [FRecord [] None])
  | _ => None
  end.
(** a call that is about the innermost open structure itself; [es] is what was closed before it *)
Definition own (es : list entry) (f : frame) (k : call) : option (list entry * list frame) :=
  match f, k with
  | FList l, CEndList => Some (es ++ [EList l], [])
  | FTuple n fs now, CIndex i => Some (es, [FTuple n (all fs now) (Some (i, []))])
  | FTuple n fs now, CEndTuple => if once Z.eqb (all fs now) then Some (es ++ [ETuple n (all fs now)], []) else None
  | FRecord fs now, CField k => Some (es, [FRecord (all fs now) (Some (k, []))])
  | FRecord fs now, CEndRecord => if once String.eqb (all fs now) then Some (es ++ [ERecord (all fs now)], []) else None
  | _, _ => None
  end.
(** a call on what is inside an open structure; a tuple or record needs an index or key first *)
Definition inside (f : frame) (rec : list entry -> option (list entry * list frame)) : option (list frame) :=
  match f with
  | FList l => option_map (fun r => FList (fst r) :: snd r) (rec l)
  | FTuple n fs (Some (i, l)) => option_map (fun r => FTuple n fs (Some (i, fst r)) :: snd r) (rec l)
  | FRecord fs (Some (k, l)) => option_map (fun r => FRecord fs (Some (k, fst r)) :: snd r) (rec l)
  | _ => None
  end.
(** [es] are the closed data, [frs] the open structures, the outermost first *)
Fixpoint advance (es : list entry) (frs : list frame) (k : call) {struct frs} : option (list entry * list frame) :=
  match frs with
  | [] => start es k
  | f :: frs =>
      match (match frs with [] => own es f k | _ => None end) with
      | Some r => Some r
      | None => option_map (fun frs' => (es, frs')) (inside f (fun l => advance l frs k))
      end
  end.

(** a sequence of calls: what it describes and leaves open, or None when it is not well nested *)
Fixpoint reading (es : list entry) (frs : list frame) (ks : list call) : option (list entry * list frame) :=
  match ks with
  | [] => Some (es, frs)
  | k :: ks => match advance es frs k with Some (es, frs) => reading es frs ks | None => None end
  end.

(** the data in open structures, as if they were closed now *)
Fixpoint pending (frs : list frame) : list entry :=
  match frs with
  | [] => []
  | FList l :: frs => [EList (l ++ pending frs)]
  | FTuple n fs None :: _ => [ETuple n fs]
  | FTuple n fs (Some (i, l)) :: frs => [ETuple n (fs ++ [(i, l ++ pending frs)])]
  | FRecord fs None :: _ => [ERecord fs]
  | FRecord fs (Some (k, l)) :: frs => [ERecord (fs ++ [(k, l ++ pending frs)])]
  end.

(** ** The calls the theorems are about *)
(** Sizes of tuples are not negative and among [sizes]; an index is in the bounds of every open tuple. *)
Definition in_tuple (i : Z) (f : frame) : Prop := match f with FTuple n _ _ => 0 <= i < n | _ => True end.
Definition tame (sizes : list Z) (frs : list frame) (k : call) : Prop :=
  match k with
  | CBeginTuple n => 0 <= n /\ In n sizes
  | CIndex i => Forall (in_tuple i) frs
  | _ => True
  end.
(** [ks] is well nested, describes [es] and leaves [frs] open *)
Inductive describes (sizes : list Z) : list call -> list entry -> list frame -> Prop :=
| d_nil : describes sizes [] [] []
| d_snoc ks k es frs es' frs' : describes sizes ks es frs -> tame sizes frs k -> advance es frs k = Some (es', frs') ->
    describes sizes (ks ++ [k]) es' frs'.

(** data that can be appended: no slot or field twice, sizes and indices as above; [outer] are the sizes of the tuples around *)
Fixpoint writable (sizes outer : list Z) (e : entry) : Prop :=
  match e with
  | EList l => fold_right and True (map (writable sizes outer) l)
  | ETuple n fs =>
      0 <= n /\ In n sizes /\ once Z.eqb fs = true /\
      fold_right and True (map (fun f => Forall (fun m => 0 <= fst f < m) (n :: outer) /\ fold_right and True (map (writable sizes (n :: outer)) (snd f))) fs)
  | ERecord fs =>
      once String.eqb fs = true /\
      fold_right and True (map (fun f => fold_right and True (map (writable sizes outer) (snd f))) fs)
  | _ => True
  end.

(** ** Which structure a call needs *)
Fixpoint innermost (frs : list frame) : option frame :=
  match frs with
  | [] => None
  | [f] => Some f
  | _ :: frs => innermost frs
  end.
(** the call is about an open structure, and the innermost one is not of its kind *)
Definition misnested (frs : list frame) (k : call) : Prop :=
  match k, innermost frs with
  | CEndList, Some (FList _) => False
  | (CIndex _ | CEndTuple), Some (FTuple _ _ _) => False
  | (CField _ | CEndRecord), Some (FRecord _ _) => False
  | (CEndList | CIndex _ | CEndTuple | CField _ | CEndRecord), _ => True
  | _, _ => False
  end.

(** [sizes] has every size of a tuple; sizes and indices are not negative *)
Definition sized (sizes : list Z) (k : call) : Prop :=
  match k with
  | CBeginTuple n => 0 <= n /\ In n sizes
  | CIndex i => 0 <= i
  | _ => True
  end.

(** calls that append no real number and open no tuple or record *)
Definition plain_call (k : call) : Prop := match k with CReal _ | CBeginTuple _ | CBeginRecord => False | _ => True end.
