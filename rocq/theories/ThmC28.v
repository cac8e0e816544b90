(** C28: pausing and resuming do not change the result *)
From Coq Require Import String.
From Verif Require Import Base BaseLemmas Forth ForthParse SpecForthRun PForthPause.
Local Open Scope string_scope.
Local Open Scope list_scope.
Local Open Scope Z_scope.

(** For every program, whatever the bytecode and the inputs: if run followed by resumes, as many as are needed, comes to
    an end, then so does one run of the machine in which pause does nothing, with the same error, stack, variables,
    input positions, outputs and everything else but perhaps the count of instructions... *)
Theorem C28_pauses_change_nothing : forall m inputs s r, completes m inputs s r ->
  exists r', completes_without_pausing m inputs s r' /\ same_result r r'.
Proof.
  intros m inputs s r (fuel & r1 & H & Hr). unfold run_, internal_run in H.
  destruct (trips m false 0 fuel false (begin_ m inputs s)) as [ | t | b ] eqn:T; [ discriminate H | | ]; injection H as <-.
  - destruct (session_through m _ r Hr fuel false _ (begin_sane m inputs s) (TRet t) T I eq_refl) as (n & R' & A & B & C).
    exists (result R'). split; [ | exact C ]. exists n. rewrite A. destruct R'; [ contradiction B | reflexivity | reflexivity ].
  - destruct (session_through m _ r Hr fuel false _ (begin_sane m inputs s) (TBad b) T I eq_refl) as (n & R' & A & B & C).
    exists (result R'). split; [ | exact C ]. exists n. rewrite A. destruct R'; [ contradiction B | reflexivity | reflexivity ].
Qed.
Print Assumptions C28_pauses_change_nothing.

(** ... and conversely: if the program without pauses ends, then so does the program run with resumes. *)
Theorem C28_resuming_reaches_the_end : forall m inputs s r', completes_without_pausing m inputs s r' ->
  exists r, completes m inputs s r /\ same_result r r'.
Proof.
  intros m inputs s r' (n & H).
  destruct (trips_through m n false (begin_ m inputs s)) as [ | t | b ] eqn:T; [ contradiction H | | ]; subst r'.
  - destruct (through_session m n false _ (TRet t) (begin_sane m inputs s) T I) as (fuel & R & r & A & B & C & D).
    exists r. split; [ | exact D ]. exists fuel, (result R). split; [ | exact C ]. unfold run_, internal_run. rewrite A.
    destruct R; [ contradiction B | reflexivity | reflexivity ].
  - destruct (through_session m n false _ (TBad b) (begin_sane m inputs s) T I) as (fuel & R & r & A & B & C & D).
    exists r. split; [ | exact D ]. exists fuel, (result R). split; [ | exact C ]. unfold run_, internal_run. rewrite A.
    destruct R; [ contradiction B | reflexivity | reflexivity ].
Qed.
Print Assumptions C28_resuming_reaches_the_end.

(** ** A program which pauses inside a loop, inside a word and at the very end *)
Definition opts : options :=
  mkOptions 64 1024 1024 1024 (fun r => r + r) (fun _ => None) (fun _ _ => None) (fun _ v => v) (fun _ a b => a + b).
Definition source := ": f 7 pause 8 pause ; 3 0 do i pause loop f pause".
Definition program : machine :=
  match compile opts source with Ok (_, m) => m | _ => mkMachine 0 [] [] [] 0 [] 0 0 0 0 (fun r => r) (fun _ => None) (fun _ _ => None) (fun _ v => v) (fun _ a b => a) end.

(** Resuming n times *)
Fixpoint resumes (m : machine) (n : nat) (r : option ares) : option ares :=
  match n, r with
  | S n', Some (ARet e_none s) => resumes m n' (resume_ m 100 s)
  | _, _ => r
  end.

Example C28_example : exists s,
  resumes program 5 (run_ program [] 100 (initial program)) = Some (ARet e_none s)
  /\ stk s = [8; 7; 2; 1; 0] /\ is_done s = true
  /\ (exists s', run_ program [] 100 (initial program) = Some (ARet e_none s') /\ stk s' = [0] /\ is_done s' = false)
  /\ exists n t, trips_through program n false (begin_ program [] (initial program)) = TRet t /\ pop_target t = ARet e_none s.
Proof.
  eexists. split; [ vm_compute; reflexivity | ]. split; [ reflexivity | ]. split; [ reflexivity | ]. split.
  - eexists. split; [ vm_compute; reflexivity | split; reflexivity ].
  - exists 60%nat. eexists. split; [ vm_compute; reflexivity | vm_compute; reflexivity ].
Qed.
