(** C29: single-stepping reaches the same result as run *)
From Coq Require Import String.
From Verif Require Import Base BaseLemmas Forth ForthParse SpecForthRun PForthPause PForthSingle.
Local Open Scope string_scope.
Local Open Scope list_scope.
Local Open Scope Z_scope.

(** Stepping until done and running (pauses passed over, C28) give the same final state, the counts of instructions
    included, for executions in which no do and no exit is executed.  Both ways: each ends if and only if the other
    does.  What is missing: do and exit, for which the property is false (below). *)
Theorem C29_stepping_is_running_partial : forall m inputs s, (forall n, plain_for m n false (begin_ m inputs s)) ->
  forall r, completes_stepping m inputs s r <-> completes_without_pausing m inputs s r.
Proof.
  intros m inputs s P r. set (b := begin_ m inputs s) in *.
  assert (PT : pop_target b = ARet e_none b) by reflexivity. split.
  - intros H. unfold completes_stepping in H. fold b in H.
    destruct (steps_through m _ r H b false (eq_sym PT) (begin_easy m inputs s) (or_introl eq_refl) P) as (n & R' & A & B & C).
    exists n. fold b. rewrite A. destruct R'; [ contradiction B | exact C | exact C ].
  - intros (n & H). fold b in H. destruct (trips_through m n false b) as [ i t | t | x ] eqn:T; [ contradiction H | | ]; subst r.
    + destruct (through_steps m n b (TRet t) (begin_easy m inputs s) T I (P n)) as (fuel & R & A & B & C).
      unfold completes_stepping. fold b. rewrite <- PT. eapply step_step; [ apply begin_sane | | exact A | exact B | exact C ]. unfold b. discriminate.
    + destruct (through_steps m n b (TBad x) (begin_easy m inputs s) T I (P n)) as (fuel & R & A & B & C).
      unfold completes_stepping. fold b. rewrite <- PT. eapply step_step; [ apply begin_sane | | exact A | exact B | exact C ]. unfold b. discriminate.
Qed.
Print Assumptions C29_stepping_is_running_partial.

(** Only the trips of the run itself need to be without do and exit *)
Theorem C29_run_is_stepped_partial : forall m inputs s n t, plain_for m n false (begin_ m inputs s) ->
  trips_through m n false (begin_ m inputs s) = TRet t -> completes_stepping m inputs s (pop_target t).
Proof.
  intros m inputs s n t P T. set (b := begin_ m inputs s) in *.
  destruct (through_steps m n b (TRet t) (begin_easy m inputs s) T I P) as (fuel & R & A & B & C).
  unfold completes_stepping. fold b. change (ARet e_none b) with (pop_target b).
  eapply step_step; [ apply begin_sane | | exact A | exact B | exact C ]. unfold b. discriminate.
Qed.
Print Assumptions C29_run_is_stepped_partial.

(** ** Where single-stepping goes wrong *)
Definition opts : options :=
  mkOptions 64 1024 1024 1024 (fun r => r + r) (fun _ => None) (fun _ _ => None) (fun _ v => v) (fun _ a b => a + b).
Definition program (source : string) : machine :=
  match compile opts source with Ok (_, m) => m | _ => mkMachine 0 [] [] [] 0 [] 0 0 0 0 (fun r => r) (fun _ => None) (fun _ _ => None) (fun _ v => v) (fun _ a b => a) end.

(** n steps *)
Fixpoint steps (m : machine) (n : nat) (s : state) : option ares :=
  match n with
  | O => Some (ARet (err s) s)
  | S n' => match step_ m 100 s with Some (ARet e_none s') => steps m n' s' | r => r end
  end.

(** The index of a loop never advances: the program never ends, however many steps are made *)
Definition looping := program "3 0 do i drop loop".
Definition cycle (pos k : Z) : state :=
  mkState (if pos =? 1 then [0] else []) [] [] [] true (if pos =? 2 then [(0, 5)] else [(1, pos); (0, 5)]) [0] [mkDo 1 false 3 0] e_none k 0 0.

Lemma cycling : forall k, step_ looping 100 (cycle 0 k) = Some (ARet e_none (cycle 1 (k + 1)))
  /\ step_ looping 100 (cycle 1 k) = Some (ARet e_none (cycle 2 (k + 1)))
  /\ step_ looping 100 (cycle 2 k) = Some (ARet e_none (cycle 0 (k + 1))).
Proof. intros k. repeat split; vm_compute; reflexivity. Qed.

Lemma cycles : forall n pos k, (pos = 0 \/ pos = 1 \/ pos = 2) ->
  exists pos', (pos' = 0 \/ pos' = 1 \/ pos' = 2) /\ steps looping n (cycle pos k) = Some (ARet e_none (cycle pos' (k + Z.of_nat n))).
Proof.
  induction n as [ | n IH ]; intros pos k H.
  - exists pos. split; [ exact H | ]. cbn [steps]. rewrite Z.add_0_r. reflexivity.
  - cbn [steps]. destruct (cycling k) as (A & B & C).
    destruct H as [ -> | [ -> | -> ] ]; [ rewrite A | rewrite B | rewrite C ].
    + destruct (IH 1 (k + 1) ltac:(auto)) as (p & P & E). exists p. split; [ exact P | ]. rewrite E. do 3 f_equal. lia.
    + destruct (IH 2 (k + 1) ltac:(auto)) as (p & P & E). exists p. split; [ exact P | ]. rewrite E. do 3 f_equal. lia.
    + destruct (IH 0 (k + 1) ltac:(auto)) as (p & P & E). exists p. split; [ exact P | ]. rewrite E. do 3 f_equal. lia.
Qed.

Theorem C29_loop_refuted :
  (exists s, run_ looping [] 100 (initial looping) = Some (ARet e_none s) /\ is_done s = true)
  /\ (forall n, exists s, steps looping (3 + n) (begin_ looping [] (initial looping)) = Some (ARet e_none s) /\ is_done s = false).
Proof.
  split.
  - eexists. split; [ vm_compute; reflexivity | reflexivity ].
  - intros n.
    assert (E : steps looping (3 + n) (begin_ looping [] (initial looping)) = steps looping n (cycle 2 3)) by reflexivity.
    rewrite E. destruct (cycles n 2 3 ltac:(auto)) as (p & P & ->). eexists. split; [ reflexivity | reflexivity ].
Qed.
Print Assumptions C29_loop_refuted.

(** exit does not leave the word: it only skips the rest of the innermost block *)
Theorem C29_exit_refuted : let m := program ": f 1 if exit then 5 ; f" in
  (exists s, run_ m [] 100 (initial m) = Some (ARet e_none s) /\ stk s = [] /\ is_done s = true)
  /\ (exists s, steps m 7 (begin_ m [] (initial m)) = Some (ARet e_none s) /\ stk s = [5] /\ is_done s = true).
Proof. split; eexists; (split; [ vm_compute; reflexivity | split; reflexivity ]). Qed.
Print Assumptions C29_exit_refuted.

(** ** A program to which the theorem applies: words, conditions, begin loops and pauses *)
Definition source := "variable x : f x +! x @ pause ; 0 begin 1 f 5 < while 10 x +! repeat 2 0= if 7 else 8 pause then".
Example C29_example : let m := program source in
  exists n t, trips_through m n false (begin_ m [] (initial m)) = TRet t /\ plain_for m n false (begin_ m [] (initial m))
    /\ stk t = [8; 0] /\ vars t = [12].
Proof.
  cbn zeta. exists 100%nat. eexists. split; [ vm_compute; reflexivity | ]. split; [ | split; reflexivity ].
  vm_compute. repeat split; try discriminate.
Qed.
