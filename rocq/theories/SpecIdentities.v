(** Specification of identities.

    A node of an array is named by the numbers of the children to go through from the top (a record has one child per
    field, a union one per content, other nodes have child 0).  An identity is a list of numbers: the position in the
    outermost array, then the position in the list found there, and so on, one number for each list gone through.
    [descend c np i p] walks from row [i] of the array [c] to the node [np], taking the positions in [p] at the lists,
    and says which row of that node is reached.  Nothing here uses the model of the methods. *)
From Coq Require Import DecimalString.
From Verif Require Import Base Content SpecArray Identities.
Local Open Scope string_scope.
Local Open Scope list_scope.
Local Open Scope Z_scope.

(** the row [j] of a two-dimensional table of numbers stored row after row *)
Definition identity (idn : idents) (j : Z) : list Z :=
  slice (offset idn + j * width idn) (offset idn + (j + 1) * width idn) (ibuf idn).

Definition child (c : content) (k : Z) : option content :=
  match c with
  | Empty | Numpy _ _ => None
  | ListA _ _ c' | ListOffset _ c' | Regular _ _ c' | Indexed _ c' | IndexedOption _ c'
  | ByteMasked _ _ c' | BitMasked _ _ _ _ c' | Unmasked c' => if k =? 0 then Some c' else None
  | Record _ _ cs | Union _ _ cs => nthZ cs k
  end.

(** position [q] of the list that starts at [a] and ends before [b] *)
Definition within (a b : Z) (p : list Z) : option (Z * list Z) :=
  match p with
  | q :: p' => if (0 <=? q) && (q <? b - a) then Some (a + q, p') else None
  | [] => None
  end.

(** The row of child [k] that belongs to row [i], and the positions that are left.  A missing value's row belongs to it
    where it has one: masked arrays line up with their content. *)
Definition into (c : content) (k i : Z) (p : list Z) : option (Z * list Z) :=
  match c with
  | Empty | Numpy _ _ => None
  | ListA starts stops _ =>
      match nthZ starts i, nthZ stops i with Some a, Some b => within a b p | _, _ => None end
  | ListOffset offsets _ =>
      match nthZ offsets i, nthZ offsets (i + 1) with Some a, Some b => within a b p | _, _ => None end
  | Regular size _ _ => if (0 <=? i) && (i <? length_ c) then within (i * size) ((i + 1) * size) p else None
  | Indexed index _ | IndexedOption index _ =>
      match nthZ index i with Some j => if 0 <=? j then Some (j, p) else None | None => None end
  | ByteMasked _ _ _ | BitMasked _ _ _ _ _ | Unmasked _ | Record _ _ _ =>
      if (0 <=? i) && (i <? length_ c) then Some (i, p) else None
  | Union tags index _ =>
      match nthZ tags i, nthZ index i with Some t, Some j => if t =? k then Some (j, p) else None | _, _ => None end
  end.

Fixpoint subnode (c : content) (np : list Z) : option content :=
  match np with
  | [] => Some c
  | k :: np' => match child c k with Some c' => subnode c' np' | None => None end
  end.

Fixpoint descend (c : content) (np : list Z) (i : Z) (p : list Z) : option Z :=
  match np with
  | [] => match p with [] => Some i | _ => None end
  | k :: np' =>
      match child c k, into c k i p with
      | Some c', Some (r, p') => descend c' np' r p'
      | _, _ => None
      end
  end.

(** the identities hanging on node [np] *)
Fixpoint ident_at (t : ids) (np : list Z) : option idents :=
  match t with
  | Node own subs =>
      match np with
      | [] => own
      | k :: np' => match nthZ subs k with Some t' => ident_at t' np' | None => None end
      end
  end.

(** the decimal name of a field of a tuple, or its key *)
Definition field_label (keys : option (list string)) (k : Z) : string :=
  match keys with
  | Some ks => match nthZ ks k with Some s => s | None => "" end
  | None => NilZero.string_of_uint (Nat.to_uint (Z.to_nat k))
  end.

(** How many numbers a step into child [k] adds to an identity, and which field it goes through *)
Definition step_width (c : content) : Z :=
  match c with ListA _ _ _ | ListOffset _ _ | Regular _ _ _ => 1 | _ => 0 end.
Definition step_field (c : content) (k w : Z) : list (Z * string) :=
  match c with Record keys _ _ => [(w - 1, field_label keys k)] | _ => [] end.
Fixpoint route (c : content) (np : list Z) (w : Z) : list (Z * string) :=
  match np with
  | [] => []
  | k :: np' => match child c k with
                | Some c' => step_field c k w ++ route c' np' (w + step_width c)
                | None => []
                end
  end.

Fixpoint lists_on (c : content) (np : list Z) : Z :=
  match np with
  | [] => 0
  | k :: np' => match child c k with Some c' => step_width c + lists_on c' np' | None => 0 end
  end.

(** Two places of the node refer to one row of child [k]: lists that overlap, an index used twice *)
Definition shared (c : content) (k : Z) : Prop :=
  exists i1 p1 i2 p2 r, (i1, p1) <> (i2, p2) /\
    into c k i1 p1 = Some (r, []) /\ into c k i2 p2 = Some (r, []).

(** The layouts the theorem is about.  [deep] says that some list is above.
    - lists by offsets: the offsets lie inside the content (empty lists beyond it write outside the buffer);
    - regular arrays: the content has no left-over rows at the end;
    - masked arrays: not below a list;
    - records: no field is longer than the record. *)
Fixpoint tidy (deep : bool) (c : content) : bool :=
  match c with
  | Empty | Numpy _ _ => true
  | ListA _ _ c' => tidy true c'
  | ListOffset offsets c' =>
      match nthZ offsets 0, nthZ offsets (zlen offsets - 1) with
      | Some a, Some b => (0 <=? a) && (b <=? length_ c')
      | _, _ => false
      end && tidy true c'
  | Regular size _ c' => ((size =? 0) || (length_ c' =? size * length_ c)) && tidy true c'
  | Indexed _ c' | IndexedOption _ c' => tidy deep c'
  | ByteMasked _ _ c' | BitMasked _ _ _ _ c' | Unmasked c' => negb deep && tidy deep c'
  | Record _ len cs => forallb (fun c' => (length_ c' =? len) && tidy deep c') cs
  | Union _ _ cs => forallb (tidy deep) cs
  end.

(** Slicing the array does not slice a regular array: none at the top, nor under option types and records at the top *)
Fixpoint straight (c : content) : bool :=
  match c with
  | Regular _ _ _ => false
  | ByteMasked _ _ c' | BitMasked _ _ _ _ c' | Unmasked c' => straight c'
  | Record _ _ cs => forallb straight cs
  | _ => true
  end.

(** [F i q] says that row [i] is to bear the identity [q].  Then every row that can be reached from row [i] bears,
    wherever there are identities, that identity followed by the positions on the way. *)
Definition bears (c : content) (t : ids) (F : Z -> list Z -> Prop) : Prop :=
  forall np idn i q p j,
    ident_at t np = Some idn -> F i q -> descend c np i p = Some j ->
    0 <= j < ilen idn /\ identity idn j = q ++ p.

(** A history of slicing: ranges and selections by integer arrays *)
Inductive op := ORange (start stop : Z) | OCarry (cry : list Z) (lazy : bool).
Fixpoint slices (x : labelled) (ops : list op) : res labelled :=
  match ops with
  | [] => Ok x
  | ORange a b :: ops => let* y := range_labelled x a b in slices y ops
  | OCarry cry lazy :: ops => let* y := carry_labelled x cry lazy in slices y ops
  end.
(** which rows of the array a history of slices picks out of [rows]; [None] if a slice is out of range *)
Fixpoint origin (rows : list Z) (ops : list op) : option (list Z) :=
  match ops with
  | [] => Some rows
  | ORange a b :: ops =>
      if (0 <=? a) && (a <=? b) && (b <=? zlen rows) then origin (slice a b rows) ops else None
  | OCarry cry _ :: ops =>
      match omap (nthZ rows) cry with Some rows' => origin rows' ops | None => None end
  end.
