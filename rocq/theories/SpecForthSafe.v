(** Specification for C27: which histories of calls are considered, and which steps of a program put memory at risk *)
From Verif Require Import Base Forth ForthParse SpecForth SpecForthRun.
Local Open Scope string_scope.
Local Open Scope list_scope.
Local Open Scope Z_scope.

(** Anything a user may do with a machine *)
Inductive event := Op (o : op) | Fresh (o : fresh).
Definition do_event (m : machine) (e : event) (s : state) : option ares :=
  match e with Op o => do_op m o s | Fresh o => do_fresh m o s end.

(** Inputs: one for every declared name, bytes, read from their beginning *)
Definition startable (p : pst) (inputs : list inbuf) : Prop :=
  zlen inputs = zlen (p_ins p) /\ Forall (fun b => ipos b = 0 /\ Forall is_byte (idata b)) inputs.

(** The arguments the API takes: a defined word, called with room left in the call stack; the declared inputs;
    no more than the stack can hold *)
Definition proper (p : pst) (m : machine) (e : event) (s : state) : Prop :=
  match e with
  | Op (Call w _) => 0 <= w < zlen (m_words m) /\ depth s < m_recmax m
  | Op _ => True
  | Fresh (Begin inputs) | Fresh (Run inputs _) => startable p inputs
  | Fresh Reset => True
  | Fresh (SetStack st) => zlen st <= m_stackmax m
  end.

(** The states reached by calls which satisfy [ok] *)
Inductive history (p : pst) (m : machine) (ok : event -> state -> Prop) : state -> Prop :=
| history_new : history p m ok (initial m)
| history_event : forall e s err s', history p m ok s -> proper p m e s -> ok e s ->
    do_event m e s = Some (ARet err s') -> history p m ok s'.

(** The execution a call starts: whether it is a single step, the depth at which it ends, how many trips it may make
    and the state it starts from *)
Definition executes (m : machine) (e : event) (s : state) : option (bool * Z * nat * state) :=
  match e with
  | Fresh (Run inputs fuel) => Some (false, 0, fuel, begin_ m inputs s)
  | Fresh _ => None
  | Op o =>
      if ready s && is_none (err s) then
        match o, targets s with
        | Step fuel, t :: _ => Some (true, t, fuel, s)
        | Resume fuel, t :: _ => Some (false, t, fuel, s)
        | Call i fuel, _ =>
            match nthZ (m_words m) i with
            | Some w => Some (false, depth s, fuel,
                              set_frames ((w - BOUND_DICTIONARY, 0) :: frames s) (set_targets (depth s :: targets s) s))
            | None => None
            end
        | _, [] => None
        end
      else None
  end.

(** The next instruction is one of the three which the machine does not guard: exit while a do-loop is under way,
    rewind by a negative number, or a repeated read of a negative number of items of fixed size *)
Definition negative_top (s : state) : Prop := exists n r, stk s = n :: r /\ n < 0.
Definition risky (m : machine) (s : state) : Prop :=
  is_segment_done m s = Some false /\
  exists c, bytecode_get m s = Some c /\
    (c = CODE_EXIT /\ dos s <> []
     \/ c = CODE_REWIND /\ negative_top s
     \/ c < 0 /\ Z.testbit (Z.lnot c) 1 = true /\ fmt_of (Z.land (Z.lnot c) 248) <> None /\ negative_top s).

Definition careful (m : machine) (e : event) (s : state) : Prop :=
  match executes m e s with
  | None => True
  | Some (single, target, fuel, s0) =>
      forall n i s1, (n < fuel)%nat -> trips m single target n false s0 = TGo i s1 -> ~ risky m s1
  end.

(** A source text which cannot take these risks: its words do not include rewind, none begins with #, and it does not
    use both do and exit *)
Definition begins_with_hash (w : string) : Prop := match w with String c _ => c = "#"%char | "" => False end.
Definition riskless (words : list string) : Prop :=
  ~ In "rewind" words /\ Forall (fun w => ~ begins_with_hash w) words /\ ~ (In "do" words /\ In "exit" words).
