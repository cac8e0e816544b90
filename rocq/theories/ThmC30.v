(** C30: errors are sticky *)
From Coq Require Import String.
From Verif Require Import Base BaseLemmas Forth ForthParse SpecForth SpecForthRun PForthStep PForthCtl.
Local Open Scope string_scope.
Local Open Scope list_scope.
Local Open Scope Z_scope.

(** ** The theorems *)

(** several calls, with what they report *)
Fixpoint do_all (m : machine) (ops : list op) (s : state) : option (list ferror * state) :=
  match ops with
  | [] => Some ([], s)
  | o :: t => match do_op m o s with
              | Some (ARet e s') => match do_all m t s' with Some (es, s'') => Some (e :: es, s'') | None => None end
              | _ => None
              end
  end.

Theorem C30_stopped_machine_stays : forall m s, reached m s -> stopped_by (err s) = true ->
  forall ops, do_all m ops s = Some (map (fun _ => err s) ops, s).
Proof.
  intros m s R E ops. destruct (reached_between m s R) as (_ & _ & B). destruct (B E) as (B1 & B2).
  assert (N : is_none (err s) = false) by (destruct (err s); [ discriminate E | reflexivity .. ]).
  induction ops as [ | o t IH ]; [ reflexivity | ]. cbn [do_all map].
  assert (do_op m o s = Some (ARet (err s) s)) as ->.
  { destruct o; cbn [do_op]; unfold step_, resume_, step_or_resume, call_; rewrite B1; cbn [negb]; rewrite ?N; cbn [negb];
      try reflexivity; (destruct (targets s); [ congruence | reflexivity ]). }
  rewrite IH. reflexivity.
Qed.
(** begin forgets the run before: stack, variables, loops and outputs are as on a new machine, so what follows does
    not depend on it. *)
Theorem C30_begin_forgets : forall m inputs s,
  let s' := begin_ m inputs s in
  stk s' = [] /\ Forall (fun v => v = 0) (vars s') /\ zlen (vars s') = zlen (vars s) /\ dos s' = [] /\ frames s' = [(0, 0)] /\ targets s' = [0]
  /\ ins s' = inputs /\ zlen (outs s') = zlen (m_outs m) /\ Forall (fun o => olen o = 0) (outs s').
Proof.
  intros m inputs s. cbn. repeat split; try reflexivity; try apply zlen_map.
  - apply Forall_forall. intros v Hv. apply in_map_iff in Hv as (x & <- & _). reflexivity.
  - apply Forall_forall. intros o Ho. apply in_map_iff in Ho as (x & <- & _). reflexivity.
Qed.
Print Assumptions C30_stopped_machine_stays.

(** Once step, resume or call has reported an error of execution, any further step, resume and call report it and
    change nothing *)
Theorem C30_errors_sticky_partial : forall m s o e s', reached m s -> do_op m o s = Some (ARet e s') -> stopped_by e = true ->
  forall ops, do_all m ops s' = Some (map (fun _ => e) ops, s').
Proof.
  intros m s o e s' R H E ops. destruct (do_op_good m o s e s' (reached_between m s R) H) as (_ & ->).
  apply C30_stopped_machine_stays; [ eapply reached_op; eassumption | exact E ].
Qed.
Print Assumptions C30_errors_sticky_partial.

(** The same after run *)
Theorem C30_errors_of_run_sticky_partial : forall m s inputs fuel e s', reached m s -> run_ m inputs fuel s = Some (ARet e s') -> stopped_by e = true ->
  forall ops, do_all m ops s' = Some (map (fun _ => e) ops, s').
Proof.
  intros m s inputs fuel e s' R H E ops.
  destruct (do_fresh_good m (Run inputs fuel) s e s' (reached_between m s R) H) as (_ & X).
  rewrite X in *.
  apply C30_stopped_machine_stays; [ eapply (reached_fresh m (Run inputs fuel)); eassumption | exact E ].
Qed.
Print Assumptions C30_errors_of_run_sticky_partial.

(** begin, run and reset start afresh: what they do does not depend on the error *)
Theorem C30_begin_clears : forall m inputs s, err (begin_ m inputs s) = e_none /\ ready (begin_ m inputs s) = true
  /\ forall fuel e, run_ m inputs fuel (set_err e s) = run_ m inputs fuel s.
Proof. intros. repeat split. Qed.
Print Assumptions C30_begin_clears.
Print Assumptions C30_begin_forgets.

(** halt is reported once: afterwards the machine says it is not ready *)
Definition opts : options :=
  mkOptions 64 1024 1024 1024 (fun r => r + r) (fun _ => None) (fun _ _ => None) (fun _ v => v) (fun _ a b => a + b).
Definition with_program (source : string) (f : machine -> Prop) : Prop :=
  exists names m, compile opts source = Ok (names, m) /\ f m.

Theorem C30_halt_not_sticky_refuted : with_program "1 halt 2" (fun m => exists s, run_ m [] 10 (initial m) = Some (ARet e_user_halt s)
  /\ (exists s', resume_ m 10 s = Some (ARet e_not_ready s'))
  /\ (exists s', step_ m 10 s = Some (ARet e_not_ready s'))).
Proof.
  eexists; eexists; split; [ vm_compute; reflexivity | ]. eexists; split; [ vm_compute; reflexivity | ].
  split; eexists; vm_compute; reflexivity.
Qed.
Print Assumptions C30_halt_not_sticky_refuted.

(** An error of use also blocks call, which would have worked: resume on a finished program *)
Theorem C30_is_done_blocks_call : with_program ": f 5 ; 1" (fun m => exists s, run_ m [] 10 (initial m) = Some (ARet e_none s)
  /\ (exists s', call_ m 0 10 s = Some (ARet e_none s') /\ stk s' = [5; 1])
  /\ (exists s', resume_ m 10 s = Some (ARet e_is_done s') /\ call_ m 0 10 s' = Some (ARet e_is_done s'))).
Proof.
  eexists; eexists; split; [ vm_compute; reflexivity | ]. eexists; split; [ vm_compute; reflexivity | ].
  split; eexists; (split; [ vm_compute; reflexivity | vm_compute; reflexivity ]).
Qed.
Print Assumptions C30_is_done_blocks_call.

(** ** The hypotheses can be met: an error in a word called while the program is paused inside a loop *)
Example C30_example : with_program ": f drop drop ; 3 0 do pause loop" (fun m => exists s s', reached m s
  /\ do_op m (Call 0 20) s = Some (ARet e_stack_underflow s') /\ targets s' = [1; 0] /\ List.length (frames s') = 2%nat).
Proof.
  eexists; eexists; split; [ vm_compute; reflexivity | ]. eexists; eexists. split.
  - eapply (reached_fresh _ (Run [] 20)); [ apply reached_new | vm_compute; reflexivity ].
  - split; [ vm_compute; reflexivity | split; reflexivity ].
Qed.
