(** C33: a do loop runs its body once for every index, in order; exit returns from the current word. *)
From Coq Require Import String List.
From Verif Require Import Base BaseLemmas Forth ForthParse SpecForthRun PForthRun PForthStep PForthLoop.
Import ListNotations.
Local Open Scope string_scope.
Local Open Scope list_scope.
Local Open Scope Z_scope.

(** Code [c] with operand [x] at position p of segment w *)
Definition coded (m : machine) (w p c x : Z) : Prop :=
  exists a n, segment m w a n /\ p + 1 < n /\ nthZ (m_code m) (a + p) = Some c /\ nthZ (m_code m) (a + (p + 1)) = Some x.

(** no loop is waiting for this very position *)
Definition outside_loop (fr : list (Z * Z)) (ds : list doent) : Prop :=
  match ds with e :: _ => d_depth e <> zlen fr + 1 | [] => True end.

Lemma outside_in_do : forall s w p fr, frames s = (w, p) :: fr -> outside_loop fr (dos s) -> in_do s = None.
Proof.
  intros s w p fr F O. unfold in_do, outside_loop in *. destruct (dos s) as [ | e r ]; [ reflexivity | ].
  unfold depth. rewrite F, zlen_cons. apply Z.eqb_neq in O. rewrite O. reflexivity.
Qed.

Lemma start_loop : forall m (step : bool) target w p fr ds b start stop st vs ii oo s,
  coded m w p (if step then CODE_DO_STEP else CODE_DO) (BOUND_DICTIONARY + b) -> outside_loop fr ds -> zlen ds < m_recmax m ->
  data s = (start :: stop :: st, vs, ii, oo) -> frames s = (w, p) :: fr -> dos s = ds -> exists s',
  leads m target s s' /\ data s' = (st, vs, ii, oo) /\ frames s' = (w, p + 1) :: fr
  /\ dos s' = mkDo (zlen fr + 1) step stop start :: ds /\ status s' = status s.
Proof.
  intros m step target w p fr ds b start stop st vs ii oo s (a & n & SG & P & C1 & C2) O R D F E.
  destruct (data_inv _ _ _ _ _ D) as (D1 & D2 & D3 & D4).
  exists (count_instr (set_dos (mkDo (zlen fr + 1) step stop start :: ds) (set_stk st (where_add 1 s)))). split.
  - apply (go_plain m target s w p fr (if step then CODE_DO_STEP else CODE_DO)).
    + split; [ exact F | ]. exists a, n. split; [ exact SG | split; [ lia | exact C1 ] ].
    + eapply outside_in_do; [ exact F | rewrite E; exact O ].
    + assert (X : forall k, pop2_or_fail (where_add 1 s) k = k stop start (set_stk st (where_add 1 s))).
      { intros k. apply pop2_exact. unfold where_add. rewrite F. exact D1. }
      assert (Y : do_push m step start stop (set_stk st (where_add 1 s)) XNext
                  = XNext (set_dos (mkDo (zlen fr + 1) step stop start :: ds) (set_stk st (where_add 1 s)))).
      { unfold do_push, where_add, depth. rewrite F. cbn. rewrite E. destruct (Z.ltb_spec (zlen ds) (m_recmax m)); [ | lia ].
        rewrite zlen_cons. reflexivity. }
      assert (Z0 : zlen (dos (set_stk st (where_add 1 s))) =? m_recmax m = false).
      { unfold where_add. rewrite F. cbn. rewrite E. apply Z.eqb_neq. lia. }
      destruct step; cbn [exec Z.ltb Z.compare]; unfold exec; cbn [Z.ltb Z.compare CODE_DO CODE_DO_STEP BOUND_DICTIONARY Z.leb Pos.compare Pos.compare_cont exec_code];
        rewrite X; rewrite Z0; exact Y.
  - unfold data, where_add. rewrite F. cbn. rewrite D2, D3, D4. auto.
Qed.

(** ** do ... loop.
    The loop is segment b, called from position p + 1 of segment w.  Inside it the innermost index is i. *)
Theorem C33_do_loop : forall m target w p b ba blen fr ds start stop st vs ii oo d',
  coded m w p CODE_DO (BOUND_DICTIONARY + b) -> 0 <= b -> segment m b ba blen ->
  outside_loop fr ds -> zlen ds < m_recmax m -> zlen fr + 1 < m_recmax m -> 0 <= target <= zlen fr ->
  - 2^63 <= start -> stop < 2^63 ->
  iterated (fun i => segment_does m target b blen ((w, p + 1) :: fr) (mkDo (zlen fr + 1) false stop i :: ds)) stop start (st, vs, ii, oo) d' ->
  forall s, data s = (start :: stop :: st, vs, ii, oo) -> frames s = (w, p) :: fr -> dos s = ds -> exists s',
  leads m target s s' /\ data s' = d' /\ frames s' = (w, p + 2) :: fr /\ dos s' = ds /\ status s' = status s.
Proof.
  intros m target w p b ba blen fr ds start stop st vs ii oo d' C Hb SB O R1 R2 T B1 B2 It s D F E.
  destruct (start_loop m false target w p fr ds b start stop st vs ii oo s C O R1 D F E) as (s1 & L1 & D1 & F1 & E1 & X1).
  destruct (loop_runs m target w p fr ds b blen ba stop start (st, vs, ii, oo) d') with (s := s1) as (s2 & L2 & D2 & F2 & E2 & X2); auto.
  { destruct C as (a & n & SG & P & _ & C2). exists a, n. auto. }
  exists s2. split; [ | split; [ exact D2 | split; [ rewrite F2; do 2 f_equal; lia | split; [ exact E2 | congruence ] ] ] ].
  eapply leads_trans; [ | exact L1 | exact L2 ]. unfold depth. rewrite F1, zlen_cons. lia.
Qed.
Print Assumptions C33_do_loop.

(** ** do ... +loop: the number left on the stack is added to the index.
    Every index reached, the last one included, is a signed 64-bit integer. *)
Theorem C33_do_step_loop : forall m target w p b ba blen fr ds start stop st vs ii oo d',
  coded m w p CODE_DO_STEP (BOUND_DICTIONARY + b) -> 0 <= b -> segment m b ba blen ->
  outside_loop fr ds -> zlen ds < m_recmax m -> zlen fr + 1 < m_recmax m -> 0 <= target <= zlen fr ->
  iterated_by (fun i d d1 => segment_does m target b blen ((w, p + 1) :: fr) (mkDo (zlen fr + 1) true stop i :: ds) d d1
                             /\ forall step d2, d1 = push_data step d2 -> fits 64 (i + step) = true) stop start (st, vs, ii, oo) d' ->
  forall s, data s = (start :: stop :: st, vs, ii, oo) -> frames s = (w, p) :: fr -> dos s = ds -> exists s',
  leads m target s s' /\ data s' = d' /\ frames s' = (w, p + 2) :: fr /\ dos s' = ds /\ status s' = status s.
Proof.
  intros m target w p b ba blen fr ds start stop st vs ii oo d' C Hb SB O R1 R2 T It s D F E.
  destruct (start_loop m true target w p fr ds b start stop st vs ii oo s C O R1 D F E) as (s1 & L1 & D1 & F1 & E1 & X1).
  destruct (steploop_runs m target w p fr ds b blen ba stop start (st, vs, ii, oo) d') with (s := s1) as (s2 & L2 & D2 & F2 & E2 & X2); auto.
  { destruct C as (a & n & SG & P & _ & C2). exists a, n. auto. }
  exists s2. split; [ | split; [ exact D2 | split; [ rewrite F2; do 2 f_equal; lia | split; [ exact E2 | congruence ] ] ] ].
  eapply leads_trans; [ | exact L1 | exact L2 ]. unfold depth. rewrite F1, zlen_cons. lia.
Qed.
Print Assumptions C33_do_step_loop.

(** ** The words i, j and k push the index of the first, second and third enclosing loop, if it has 32 bits *)
Theorem C33_indices_partial : forall m w p fr a n (level : nat) e s target,
  (level < 3)%nat -> segment m w a n -> p < n -> nthZ (m_code m) (a + p) = Some (nth level [29; 30; 31] 0) ->
  frames s = (w, p) :: fr -> outside_loop fr (dos s) -> nth_error (dos s) level = Some e -> - 2^31 <= d_i e < 2^31 ->
  zlen (stk s) < m_stackmax m -> exists s',
  leads m target s s' /\ data s' = push_data (d_i e) (data s) /\ frames s' = (w, p + 1) :: fr /\ dos s' = dos s /\ status s' = status s.
Proof.
  intros m w p fr a n level e s target L SG P C F O E B R.
  exists (count_instr (set_stk (d_i e :: stk s) (where_add 1 s))).
  assert (Hs : stk (where_add 1 s) = stk s) by (unfold where_add; rewrite F; reflexivity).
  assert (Hd : dos (where_add 1 s) = dos s) by (unfold where_add; rewrite F; reflexivity).
  split.
  - apply (go_plain m target s w p fr (nth level [29; 30; 31] 0)).
    + split; [ exact F | ]. exists a, n. auto.
    + eapply outside_in_do; [ exact F | exact O ].
    + assert (X : forall k, stack_push m (wrapS 32 (d_i e)) (where_add 1 s) k = k (set_stk (d_i e :: stk s) (where_add 1 s))).
      { intros k. unfold stack_push. rewrite Hs. destruct (Z.ltb_spec (zlen (stk s)) (m_stackmax m)); [ | lia ].
        rewrite wrapS32_id by exact B. reflexivity. }
      assert (Y : stack_cannot_push m (where_add 1 s) = false).
      { unfold stack_cannot_push. rewrite Hs. apply Z.eqb_neq. lia. }
      assert (Z0 : do_at (Z.of_nat level) (where_add 1 s) = Some (d_i e)).
      { unfold do_at. rewrite Hd. unfold nthZ. destruct (Z.ltb_spec (Z.of_nat level) 0); [ lia | ]. rewrite Nat2Z.id, E. reflexivity. }
      destruct level as [ | [ | [ | ? ] ] ]; [ | | | lia ]; unfold exec; cbn [nth Z.ltb Z.compare Z.leb Pos.compare Pos.compare_cont exec_code BOUND_DICTIONARY];
        cbn [Z.of_nat Pos.of_succ_nat Pos.succ] in Z0; rewrite Y, Z0; apply X.
  - unfold data, where_add. rewrite F. cbn. auto.
Qed.
Print Assumptions C33_indices_partial.

(** ** exit returns from the current word, however many blocks deep (n), when no loop is under way.
    fr is the calling word's frame, past the call, and its callers'. *)
Theorem C33_exit_returns_partial : forall m w p n inner word q fr s target,
  coded m w p CODE_EXIT n -> frames s = ((w, p) :: inner) ++ (word, q) :: fr -> zlen ((w, p) :: inner) = n -> dos s = [] ->
  exists s', leads m target s s' /\ data s' = data s /\ frames s' = fr /\ dos s' = [] /\ status s' = status s.
Proof.
  intros m w p n inner word q fr s target (a & k & SG & P & C1 & C2) F N D.
  exists (set_frames fr (count_instr (set_dos [] (set_frames ((word, q) :: fr) (where_add 1 (where_add 1 s)))))). split.
  - assert (H : here m s w p (inner ++ (word, q) :: fr) CODE_EXIT).
    { split; [ exact F | ]. exists a, k. split; [ exact SG | split; [ lia | exact C1 ] ]. }
    destruct (here_get m s w p _ _ H) as [ G E ]. apply (leads_tick m target true false). unfold tick. cbn [negb andb]. rewrite E.
    unfold one_instruction. rewrite G. assert (I : in_do s = None) by (unfold in_do; rewrite D; reflexivity). rewrite I. cbn zeta.
    assert (F1 : frames (where_add 1 s) = (w, p + 1) :: inner ++ (word, q) :: fr) by (unfold where_add; rewrite F; reflexivity).
    assert (F2 : frames (where_add 1 (where_add 1 s)) = ((w, p + 2) :: inner) ++ (word, q) :: fr).
    { rewrite where_add_plus. unfold where_add. rewrite F. reflexivity. }
    unfold exec. cbn [CODE_EXIT Z.ltb Z.compare Z.leb Pos.compare Pos.compare_cont exec_code BOUND_DICTIONARY].
    unfold operand, bytecode_get, which_where. rewrite F1. destruct SG as [ A B ]. rewrite A, C2.
    unfold depth at 1. rewrite F2. rewrite zlen_app, !zlen_cons. rewrite zlen_cons in N.
    pose proof (zlen_nonneg inner). pose proof (zlen_nonneg fr).
    destruct (Z.leb_spec 0 n); [ | lia ]. destruct (Z.leb_spec n (zlen inner + 1 + (zlen fr + 1))); [ | rewrite ?zlen_cons in *; lia ].
    cbn [andb]. replace (Z.to_nat n) with (Datatypes.length ((w, p + 2) :: inner)) by (cbn [Datatypes.length]; unfold zlen in *; lia).
    rewrite skipn_app, skipn_all, Nat.sub_diag. cbn [app skipn]. unfold end_of_segment, bytecodes_pointer_pop. cbn. unfold where_add. rewrite F. cbn.
    rewrite D. cbn. unfold do_advance. cbn. reflexivity.
  - unfold where_add, data, status. rewrite F. cbn. auto.
Qed.
Print Assumptions C33_exit_returns_partial.

(** ** Where loops and exit go wrong *)
Definition opts (width : Z) : options :=
  mkOptions width 1024 1024 1024 (fun r => r + r) (fun _ => None) (fun _ _ => None) (fun _ v => v) (fun _ a b => a + b).
Definition program (width : Z) (source : string) : machine :=
  match compile (opts width) source with Ok (_, m) => m | _ => mkMachine 0 [] [] [] 0 [] 0 0 0 0 (fun r => r) (fun _ => None) (fun _ _ => None) (fun _ v => v) (fun _ a b => a) end.

(** The index is pushed with 32 bits also on the 64-bit machine: the only index of this loop is 2^32, i pushes 0 *)
Theorem C33_wide_index_refuted : let m := program 64 "65536 65536 * dup 1 + swap do i loop" in
  exists s, run_ m [] 100 (initial m) = Some (ARet e_none s) /\ is_done s = true /\ stk s = [0].
Proof. eexists. split; [ vm_compute; reflexivity | split; reflexivity ]. Qed.
Print Assumptions C33_wide_index_refuted.

(** exit in a word called from a loop: the caller's loop is forgotten (the first program should leave 7 7 7, as the
    second does); if the loop index is used, it is read from an empty array *)
Theorem C33_callers_loop_refuted :
  (let m := program 64 ": foo exit ; 3 0 do foo 7 loop" in
   exists s, run_ m [] 100 (initial m) = Some (ARet e_none s) /\ is_done s = true /\ stk s = [7; 7])
  /\ (let m := program 64 ": foo ; 3 0 do foo 7 loop" in
   exists s, run_ m [] 100 (initial m) = Some (ARet e_none s) /\ is_done s = true /\ stk s = [7; 7; 7])
  /\ (let m := program 64 ": foo exit ; 3 0 do foo i loop" in run_ m [] 100 (initial m) = Some (ABad Memory)).
Proof. split; [ | split ]; [ eexists; split; [ vm_compute; reflexivity | split; reflexivity ] .. | vm_compute; reflexivity ]. Qed.
Print Assumptions C33_callers_loop_refuted.

(** exit inside a loop of its own word: the loop stays on the loop stack, and the next word called at that depth is taken
    for its body *)
Theorem C33_own_loop_refuted :
  (let m := program 64 ": f 3 0 do exit loop ; f" in
   exists s, run_ m [] 100 (initial m) = Some (ARet e_none s) /\ is_done s = true /\ dos s = [mkDo 2 false 3 0])
  /\ (let m := program 64 ": f 1 0 do exit loop ; : g 1000 ; f g" in run_ m [] 100 (initial m) = Some (ABad Memory)).
Proof. split; [ eexists; split; [ vm_compute; reflexivity | split; reflexivity ] | vm_compute; reflexivity ]. Qed.
Print Assumptions C33_own_loop_refuted.

(** ** The theorems apply: "do i loop" with any two numbers on the stack leaves the indices, in order *)
Definition counting := program 64 "do i loop".

Lemma counting_body : forall st stop i, - 2^31 <= i < 2^31 -> zlen st < 1024 ->
  segment_does counting 0 1 1 [(0, 1)] [mkDo 1 false stop i] (st, [], [], []) (i :: st, [], [], []).
Proof.
  intros st stop i B R s D F E. destruct (data_inv _ _ _ _ _ D) as (D1 & _).
  destruct (C33_indices_partial counting 1 0 [(0, 1)] 2 1 0 (mkDo 1 false stop i) s 0) as (s' & L & D' & F' & E' & X); auto.
  - split; reflexivity.
  - lia.
  - rewrite E. vm_compute. discriminate.
  - rewrite E. reflexivity.
  - rewrite D1. exact R.
  - exists s'. rewrite D', D. rewrite E in E'. auto.
Qed.

Lemma counting_iterated : forall n st start, - 2^31 <= start -> start + Z.of_nat n <= 2^31 -> zlen st + Z.of_nat n <= 1024 ->
  iterated (fun i => segment_does counting 0 1 1 [(0, 1)] [mkDo 1 false (start + Z.of_nat n) i]) (start + Z.of_nat n) start
    (st, [], [], []) (rev (zseq start (start + Z.of_nat n)) ++ st, [], [], []).
Proof.
  intros n st start. remember (start + Z.of_nat n) as stop eqn:Es. revert st start Es.
  induction n as [ | n IH ]; intros st start Es A B C.
  - replace stop with start by lia. rewrite zseq_nil by lia. apply iterated_end. lia.
  - rewrite (zseq_cons start stop) by lia. cbn [rev]. rewrite <- app_assoc. cbn [app].
    eapply iterated_next; [ lia | apply counting_body; lia | ]. apply IH; try lia. rewrite zlen_cons. lia.
Qed.

Example C33_counting : forall start stop, - 2^31 <= start <= stop -> stop <= 2^31 -> stop - start <= 1024 ->
  exists fuel s, resume_ counting fuel (set_stk [start; stop] (begin_ counting [] (initial counting))) = Some (ARet e_none s)
                 /\ is_done s = true /\ stk s = rev (zseq start stop).
Proof.
  intros start stop A B C. set (s0 := set_stk [start; stop] (begin_ counting [] (initial counting))).
  pose proof (counting_iterated (Z.to_nat (stop - start)) [] start ltac:(lia) ltac:(lia)) as It. change (zlen []) with 0 in It.
  replace (start + Z.of_nat (Z.to_nat (stop - start))) with stop in It by lia.
  assert (W : exists s', leads counting 0 s0 s' /\ data s' = (rev (zseq start stop) ++ [], [], [], [])
                 /\ frames s' = [(0, 2)] /\ dos s' = [] /\ status s' = status s0).
  { apply (C33_do_loop counting 0 0 0 1 2 1 [] [] start stop [] [] [] [] (rev (zseq start stop) ++ [], [], [], [])); try reflexivity; try lia; try exact I.
    - exists 0, 2. repeat split.
    - split; reflexivity.
    - vm_compute. split; discriminate.
    - apply It. lia. }
  destruct W as (s' & (n & i & j & L) & D & F & E & X).
  assert (L' : trips counting false 0 n false s0 = TGo j s').
  { destruct n as [ | n ].
    - cbn [trips] in *. injection L as _ <-. discriminate F.
    - rewrite <- L. cbn [trips]. rewrite (tick_any counting 0 false i s0); [ reflexivity | vm_compute; discriminate ]. }
  destruct (data_inv _ _ _ _ _ D) as (D1 & _). unfold status in X. injection X as X1 X2 X3.
  exists (n + 2)%nat, (set_targets [] (set_frames [] s')). split; [ | split; [ reflexivity | cbn; rewrite D1; apply app_nil_r ] ].
  unfold resume_, step_or_resume. change (ready s0) with true. change (targets s0) with [0]. change (err s0) with e_none. cbn [negb is_none].
  unfold internal_run. rewrite trips_plus, L'. cbn [trips].
  assert (T1 : tick counting false 0 j s' = TGo false (set_frames [] s')).
  { rewrite (tick_any counting 0 j true) by (unfold depth; rewrite F; discriminate).
    unfold tick. cbn [negb andb]. unfold is_segment_done, seg_len, which_where. rewrite F.
    change (nthZ (m_offs counting) 0) with (Some 0). change (nthZ (m_offs counting) (0 + 1)) with (Some 2). cbn.
    unfold end_of_segment, bytecodes_pointer_pop. rewrite F. unfold do_advance. cbn. rewrite E. reflexivity. }
  rewrite T1. change (tick counting false 0 false (set_frames [] s')) with (TRet (set_frames [] s')). cbn [pop_target]. unfold pop_target. change (targets (set_frames [] s')) with (targets s'). rewrite X2. change (depth (set_frames [] s') =? 0) with true. cbv iota zeta. change (err (set_targets [] (set_frames [] s'))) with (err s'). rewrite X1. reflexivity.
Qed.
