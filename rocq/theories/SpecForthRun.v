(** Histories of calls of the Forth machine's API, for C27-C30 and C33 *)
From Verif Require Import Base Forth.
Local Open Scope list_scope.
Local Open Scope Z_scope.

(** A call which may be made between begin/run/reset *)
Inductive op := Step (fuel : nat) | Resume (fuel : nat) | Call (word : Z) (fuel : nat).
(** and those which start afresh or touch the stack only *)
Inductive fresh := Begin (inputs : list inbuf) | Run (inputs : list inbuf) (fuel : nat) | Reset | SetStack (st : list Z).

Definition do_op (m : machine) (o : op) (s : state) : option ares :=
  match o with
  | Step fuel => step_ m fuel s
  | Resume fuel => resume_ m fuel s
  | Call w fuel => call_ m w fuel s
  end.
Definition do_fresh (m : machine) (o : fresh) (s : state) : option ares :=
  match o with
  | Begin inputs => Some (ARet e_none (begin_ m inputs s))
  | Run inputs fuel => run_ m inputs fuel s
  | Reset => Some (ARet e_none (reset s))
  | SetStack st => Some (ARet (err s) (set_stk st s))
  end.

(** The states a machine can be in between calls *)
Inductive reached (m : machine) : state -> Prop :=
| reached_new : reached m (initial m)
| reached_op : forall o s e s', reached m s -> do_op m o s = Some (ARet e s') -> reached m s'
| reached_fresh : forall o s e s', reached m s -> do_fresh m o s = Some (ARet e s') -> reached m s'.

(** errors of execution, as opposed to errors of use *)
Definition stopped_by (e : ferror) : bool :=
  match e with e_none | e_not_ready | e_is_done | e_user_halt => false | _ => true end.

(** ** Pauses *)

(** Calling resume until the program is done or an error is reported *)
Inductive resumed (m : machine) : ares -> ares -> Prop :=
| resumed_error : forall e s, e <> e_none -> resumed m (ARet e s) (ARet e s)
| resumed_done : forall s, is_done s = true -> resumed m (ARet e_none s) (ARet e_none s)
| resumed_bad : forall b, resumed m (ABad b) (ABad b)
| resumed_again : forall s fuel r r', is_done s = false -> resume_ m fuel s = Some r -> resumed m r r' ->
    resumed m (ARet e_none s) r'.

Definition completes (m : machine) (inputs : list inbuf) (s : state) (r : ares) : Prop :=
  exists fuel r1, run_ m inputs fuel s = Some r1 /\ resumed m r1 r.

(** The machine in which pause does nothing: when the next instruction is pause it is passed over *)
Definition at_pause (m : machine) (inner : bool) (s : state) : bool :=
  (inner || negb (depth s =? 0))
  && match is_segment_done m s with Some false => true | _ => false end
  && match bytecode_get m s with Some c => c =? CODE_PAUSE | None => false end
  && match in_do s with Some d => d_i d <? d_stop d | None => true end.

Definition pass_pause (s : state) : state :=
  count_instr (match in_do s with Some _ => s | None => where_add 1 s end).

Fixpoint trips_through (m : machine) (n : nat) (inner : bool) (s : state) : tres :=
  match n with
  | O => TGo inner s
  | S n' => match (if at_pause m inner s then TGo true (pass_pause s) else tick m false 0 inner s) with
            | TGo inner s => trips_through m n' inner s
            | r => r
            end
  end.

Definition completes_without_pausing (m : machine) (inputs : list inbuf) (s : state) (r : ares) : Prop :=
  exists n, match trips_through m n false (begin_ m inputs s) with
            | TGo _ _ => False
            | TRet s' => r = pop_target s'
            | TBad b => r = ABad b
            end.

(** equal, but perhaps for the number of instructions counted *)
Definition uncounted (s : state) : state :=
  mkState (stk s) (vars s) (ins s) (outs s) (ready s) (frames s) (targets s) (dos s) (err s) 0 (n_reads s) (n_writes s).
Definition same_result (r r' : ares) : Prop :=
  match r, r' with
  | ARet e s, ARet e' s' => e = e' /\ uncounted s = uncounted s'
  | ABad b, ABad b' => b = b'
  | _, _ => False
  end.

(** ** Single steps *)

(** Calling step until the program is done or an error is reported *)
Inductive stepped (m : machine) : ares -> ares -> Prop :=
| stepped_error : forall e s, e <> e_none -> stepped m (ARet e s) (ARet e s)
| stepped_done : forall s, is_done s = true -> stepped m (ARet e_none s) (ARet e_none s)
| stepped_bad : forall b, stepped m (ABad b) (ABad b)
| stepped_again : forall s fuel r r', is_done s = false -> step_ m fuel s = Some r -> stepped m r r' ->
    stepped m (ARet e_none s) r'.

Definition completes_stepping (m : machine) (inputs : list inbuf) (s : state) (r : ares) : Prop :=
  stepped m (ARet e_none (begin_ m inputs s)) r.

(** The first n trips of the run (pauses passed over) execute no do, +loop's do, or exit *)
Definition next_is_plain (m : machine) (s : state) : Prop :=
  is_segment_done m s = Some false ->
  match bytecode_get m s with Some c => c <> CODE_DO /\ c <> CODE_DO_STEP /\ c <> CODE_EXIT | None => True end.

Fixpoint plain_for (m : machine) (n : nat) (inner : bool) (s : state) : Prop :=
  match n with
  | O => True
  | S n' => next_is_plain m s /\
            match (if at_pause m inner s then TGo true (pass_pause s) else tick m false 0 inner s) with
            | TGo inner s => plain_for m n' inner s
            | _ => True
            end
  end.

(** ** Loops *)

(** the error, the depths at which calls return, and the ready flag *)
Definition status (s : state) := (err s, targets s, ready s).

(** what a program computes with *)
Definition data (s : state) := (stk s, vars s, ins s, outs s).
Notation dataset := (list Z * list Z * list inbuf * list outbuf)%type (only parsing).
Definition push_data (v : Z) (d : dataset) : dataset := let '(st, vs, i, o) := d in (v :: st, vs, i, o).

(** [body] once for every index from i up to stop, in order *)
Inductive iterated (body : Z -> dataset -> dataset -> Prop) (stop : Z) : Z -> dataset -> dataset -> Prop :=
| iterated_end : forall i d, stop <= i -> iterated body stop i d d
| iterated_next : forall i d d' d'', i < stop -> body i d d' -> iterated body stop (i + 1) d' d'' ->
    iterated body stop i d d''.

(** the same where the body leaves on the stack what is added to the index *)
Inductive iterated_by (body : Z -> dataset -> dataset -> Prop) (stop : Z) : Z -> dataset -> dataset -> Prop :=
| iterated_by_end : forall i d, stop <= i -> iterated_by body stop i d d
| iterated_by_next : forall i step d d' d'', i < stop -> body i d (push_data step d') -> iterated_by body stop (i + step) d' d'' ->
    iterated_by body stop i d d''.

(** Some trips of internal_run lead from s to s' *)
Definition leads (m : machine) (target : Z) (s s' : state) : Prop :=
  exists n i j, trips m false target n i s = TGo j s'.

(** Segment w of the bytecode starts at a and has n codes *)
Definition segment (m : machine) (w a n : Z) : Prop :=
  nthZ (m_offs m) w = Some a /\ nthZ (m_offs m) (w + 1) = Some (a + n).

(** From the start to the end of segment b, called from the frames fr, with the loops ds under way *)
Definition segment_does (m : machine) (target b len : Z) (fr : list (Z * Z)) (ds : list doent) (d d' : dataset) : Prop :=
  forall s, data s = d -> frames s = (b, 0) :: fr -> dos s = ds -> exists s',
  leads m target s s' /\ data s' = d' /\ frames s' = (b, len) :: fr /\ dos s' = ds /\ status s' = status s.
