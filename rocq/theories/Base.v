(** Results, buffers and loops: the vocabulary in which the C++ is modelled.

    [res] is the outcome of running a piece of C++:
    - [Ok a]    normal completion,
    - [Err m]   an error reported through `struct Error` / an exception
                (include/awkward/common.h:39-52, util::handle_error),
    - [UB]      undefined behaviour: an access outside a buffer, and the like.

    A raw pointer plus the number of valid elements behind it is a [list];
    [rd] and [wr] are the only ways a kernel touches it and answer [UB] outside. *)
From Coq Require Export String Ascii List ZArith Lia Bool.
From Coq Require Export ZifyBool ZifyNat.
Export ListNotations.
Open Scope Z_scope.
Arguments Z.mul : simpl never.
Arguments Z.add : simpl never.
Arguments Z.sub : simpl never.

Inductive res (A : Type) : Type :=
| Ok (a : A)
| Err (msg : string)
| UB.
Arguments Ok {A} a.
Arguments Err {A} msg.
Arguments UB {A}.

Definition bind {A B} (r : res A) (k : A -> res B) : res B :=
  match r with Ok a => k a | Err m => Err m | UB => UB end.

Notation "'let*' x ':=' e 'in' k" := (bind e (fun x => k))
  (at level 200, x pattern, e at level 100, k at level 200, right associativity).

Definition is_Ok {A} (r : res A) : Prop := exists a, r = Ok a.
Definition not_UB {A} (r : res A) : Prop := r <> UB.

(** ** Lists indexed by [Z] *)
Definition zlen {A} (l : list A) : Z := Z.of_nat (List.length l).

Definition nthZ {A} (l : list A) (i : Z) : option A :=
  if i <? 0 then None else nth_error l (Z.to_nat i).

Definition slice {A} (a b : Z) (l : list A) : list A :=
  firstn (Z.to_nat (b - a)) (skipn (Z.to_nat a) l).

Fixpoint zseq_nat (a : Z) (n : nat) : list Z :=
  match n with O => [] | S m => a :: zseq_nat (a + 1) m end.
(** [zseq a b] = a, a+1, ..., b-1 *)
Definition zseq (a b : Z) : list Z := zseq_nat a (Z.to_nat (b - a)).

Arguments zlen {A} l : simpl never.
Arguments nthZ {A} l i : simpl never.
Arguments slice {A} a b l : simpl never.
Arguments zseq a b : simpl never.

(** ** Memory *)
Definition rd {A} (l : list A) (i : Z) : res A :=
  match nthZ l i with Some x => Ok x | None => UB end.

Fixpoint upd {A} (l : list A) (n : nat) (x : A) : list A :=
  match l, n with
  | [], _ => []
  | _ :: t, O => x :: t
  | h :: t, S m => h :: upd t m x
  end.

Definition wr {A} (l : list A) (i : Z) (x : A) : res (list A) :=
  if (0 <=? i) && (i <? zlen l) then Ok (upd l (Z.to_nat i) x) else UB.

(** A view [start, stop) of raw memory (NumpyArray.cpp:1259-1284): no check in the code; a view
    reaching outside the buffer is undefined behaviour here as soon as it is not empty. *)
Definition view {A} (start stop : Z) (l : list A) : res (list A) :=
  if start =? stop then Ok []
  else if (0 <=? start) && (start <=? stop) && (stop <=? zlen l)
       then Ok (slice start stop l) else UB.

(** IndexOf::getitem_range_nowrap, src/libawkward/Index.cpp:257-265: checked, except that
    0 <= stop < start makes an index of negative length. *)
Definition iview {A} (start stop : Z) (l : list A) : res (list A) :=
  if negb ((0 <=? start) && (start <? zlen l) && (0 <=? stop) && (stop <=? zlen l)) && negb (start =? stop)
  then Err "Index::getitem_range_nowrap with illegal start:stop for this length"
  else if start =? stop then Ok []
  else if stop <? start then UB
  else Ok (slice start stop l).

(** Fresh memory of [n] elements.  The content of fresh memory is arbitrary in C++; the kernel theorems
    are proved for arbitrary initial contents. *)
Definition poison : Z := -559038737.
Definition alloc (n : Z) : list Z := repeat poison (Z.to_nat n).

(** ** Loops: for (i = lo; i < hi; i++) body *)
Fixpoint loop {S} (n : nat) (i : Z) (body : Z -> S -> res S) (s : S) : res S :=
  match n with
  | O => Ok s
  | S m => let* s' := body i s in loop m (i + 1) body s'
  end.
Definition for_ {S} (lo hi : Z) (body : Z -> S -> res S) (s : S) : res S :=
  loop (Z.to_nat (hi - lo)) lo body s.
Arguments for_ {S} lo hi body s : simpl never.
Arguments rd {A} l i : simpl never.
Arguments wr {A} l i x : simpl never.
Arguments view {A} start stop l : simpl never.
Arguments iview {A} start stop l : simpl never.
Arguments alloc n : simpl never.
