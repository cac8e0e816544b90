(** What growable buffers are for: a buffer is a list that only grows (or starts again), a snapshot is the list of
    that moment. *)
From Verif Require Import Base Growable.
Local Open Scope list_scope.
Local Open Scope Z_scope.

Section SpecGrowable.
Context {T : Type}.
Variable of_int : Z -> T.

Record lists := mkLists { ls_bufs : list (list T); ls_views : list (list T) }.

(** [None]: the program names a buffer that does not exist, or a negative size *)
Definition meaning (s : lists) (x : op T) : option lists :=
  let bs := ls_bufs s in
  let vs := ls_views s in
  match x with
  | ONew => Some (mkLists (bs ++ [[]]) vs)
  | OEmpty n => if n <? 0 then None else Some (mkLists (bs ++ [[]]) vs)
  | OFull v n => if n <? 0 then None else Some (mkLists (bs ++ [repeat v (Z.to_nat n)]) vs)
  | OArange n => if n <? 0 then None else Some (mkLists (bs ++ [map of_int (zseq 0 n)]) vs)
  | OConvert f i => match nthZ bs i with Some l => Some (mkLists (bs ++ [map f l]) vs) | None => None end
  | OAppend i d => match nthZ bs i with Some l => Some (mkLists (upd bs (Z.to_nat i) (l ++ [d])) vs) | None => None end
  | OReserve i n => match nthZ bs i with Some l => Some s | None => None end
  | OClear i => match nthZ bs i with Some l => Some (mkLists (upd bs (Z.to_nat i) []) vs) | None => None end
  | OSnapshot i => match nthZ bs i with Some l => Some (mkLists bs (vs ++ [l])) | None => None end
  end.

Fixpoint meanings (s : lists) (xs : list (op T)) : option lists :=
  match xs with
  | [] => Some s
  | x :: xs => match meaning s x with Some s => meanings s xs | None => None end
  end.

(** memory [h] at [p] reads back as [l] *)
Definition reads (h : heap T) (p n : Z) (l : list T) : Prop :=
  n = zlen l /\ forall i, 0 <= i < n -> exists x, nthZ l i = Some x /\ getitem h p i = Ok x.

(** the growth the options describe really grows *)
Definition growing (o : options) : Prop := 1 <= o_initial o /\ forall r, 1 <= r -> r < o_grow o r.

(** resize = p/q *)
Definition ceil_grow (p q : Z) (r : Z) : Z := (r * p + (q - 1)) / q.
End SpecGrowable.
