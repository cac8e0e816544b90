(** C31: the arithmetic, comparison, bit and stack words of the Forth machine compute what standard Forth says *)
From Verif Require Import Base BaseLemmas Forth ForthParse SpecForth PForthRun PForthArith.
Local Open Scope string_scope.
Local Open Scope list_scope.
Local Open Scope Z_scope.

(** A program made of these words, started on any stack, leaves the stack the words leave one after the other *)
Theorem C31_programs_compute : forall o ws st st',
  o_width o = 32 \/ o_width o = 64 ->
  Forall (cell (o_width o)) st -> words_run (o_width o) (o_stackmax o) ws st st' ->
  exists p, compile_tokens ws = Ok p /\
  forall s0, exists fuel s',
    resume_ (machine_of o p) fuel (set_stk st (begin_ (machine_of o p) [] s0)) = Some (ARet e_none s')
    /\ stk s' = st' /\ is_done s' = true.
Proof.
  intros o ws st st' Hw Hst Hr.
  destruct (parse_words _ _ _ _ _ Hr (S (List.length ws)) [] ltac:(lia)) as (cs & P & F2).
  exists (set_segs [cs] p_empty). split.
  { unfold compile_tokens. unfold p_empty in P. rewrite P. reflexivity. }
  intros s0. set (m := machine_of o (set_segs [cs] p_empty)).
  destruct (run_words _ _ _ _ _ Hr m eq_refl eq_refl ltac:(lia) cs [] F2) with
    (s := set_stk st (begin_ m [] s0)) (inner := false) as (s' & T & R1 & R2 & R3 & R4 & R5 & R6).
  1: { cbn. apply app_nil_r. }
  1: { cbn. rewrite app_nil_r. reflexivity. }
  1: assumption.
  1-3: reflexivity.
  exists (List.length ws + 2)%nat. eexists.
  unfold resume_, step_or_resume. cbn [ready begin_ set_stk negb targets is_none err reset].
  unfold internal_run.
  replace (mkState st _ _ _ _ _ _ _ _ _ _ _) with (set_stk st (begin_ m [] s0)) by reflexivity.
  change (begin_ m [] s0) with (begin_ m [] s0) in T.
  rewrite trips_plus.
  match type of T with ?a = _ => match goal with |- context [ match ?b with TGo _ _ => trips _ _ _ _ _ _ | _ => _ end ] =>
     change b with a end end.
  rewrite T.
  assert (E : tick m false 0 (match ws with [] => false | _ :: _ => true end) s' = TGo false (set_frames [] s')).
  { unfold tick. assert (depth s' = 1) as -> by (unfold depth; rewrite R2; reflexivity).
    rewrite andb_false_r. unfold is_segment_done, seg_len, which_where. rewrite R2.
    replace (m_offs m) with [0; zlen (m_code m)] by (cbn; rewrite app_nil_r; reflexivity).
    cbn [nthZ]. change (nthZ [0; zlen (m_code m)] 0) with (Some 0). change (nthZ [0; zlen (m_code m)] (0 + 1)) with (Some (zlen (m_code m))).
    cbv iota beta. rewrite Z.sub_0_r, Z.ltb_irrefl. cbn [negb]. unfold end_of_segment, bytecodes_pointer_pop. rewrite R2.
    unfold do_advance. cbn [dos set_frames]. rewrite R3. reflexivity. }
  cbn [trips]. rewrite E. unfold tick at 1. cbn [negb andb]. change (depth (set_frames [] s')) with 0. cbn [Z.eqb].
  unfold pop_target. cbn [targets set_frames]. rewrite R6. change (depth (set_frames [] s')) with 0. cbn.
  rewrite R4. split; [ reflexivity | split; [ exact R1 | reflexivity ] ].
Qed.
Print Assumptions C31_programs_compute.

(** One word, in any state of any program *)
Theorem C31_word_computes : forall m single w f c s st',
  m_width m = 32 \/ m_width m = 64 -> In (w, f) (word_specs (m_width m)) -> assoc w generic_builtin_words = Some c ->
  Forall (cell (m_width m)) (stk s) -> f (stk s) = Some st' ->
  Forall (cell (m_width m)) st' -> zlen st' <= m_stackmax m -> tame (m_width m) w (stk s) ->
  exec m single c s = XNext (set_stk st' s).
Proof. intros. eapply exec_word; eauto. lia. Qed.
Print Assumptions C31_word_computes.

(** Too short a stack is reported, and the stack is left as it was *)
Theorem C31_underflow_reported : forall m single w n c s,
  In (w, n) word_needs -> assoc w generic_builtin_words = Some c -> zlen (stk s) < n ->
  exec m single c s = XRet (set_err e_stack_underflow s).
Proof.
  intros m single w n c s Hin Hc Hn. pose proof (zlen_nonneg (stk s)) as Hz. cbn [In word_needs] in Hin.
  repeat destruct Hin as [ Hin | Hin ]; try contradiction; injection Hin as <- <-; cbn in Hc; injection Hc as <-;
    try lia; unfold exec; cbn;
    unfold pop_or_fail, unary, binary, divide, stack_cannot_pop, stack_cannot_pop2, stack_cannot_pop3;
    first [ rewrite (proj2 (Z.ltb_lt _ _) Hn); reflexivity
          | rewrite (proj2 (Z.eqb_eq (zlen (stk s)) 0) ltac:(lia)); reflexivity ].
Qed.
Print Assumptions C31_underflow_reported.

(** A full stack is reported by the words which need one more cell *)
Theorem C31_overflow_reported : forall m single w c s,
  In (w, c) [("dup", 32); ("over", 35); ("tuck", 38); ("false", 64); ("true", 65)] ->
  2 <= zlen (stk s) -> zlen (stk s) = m_stackmax m ->
  assoc w generic_builtin_words = Some c /\ exec m single c s = XRet (set_err e_stack_overflow s).
Proof.
  intros m single w c s Hin H2 Hm. cbn [In] in Hin.
  repeat destruct Hin as [ Hin | Hin ]; try contradiction; injection Hin as <- <-; (split; [ reflexivity | ]);
    unfold exec; cbn; unfold push_or_fail, stack_cannot_pop, stack_cannot_pop2, stack_cannot_push;
    rewrite ?Hm, ?Z.eqb_refl; try reflexivity; rewrite <- Hm.
  - destruct (Z.eqb_spec (zlen (stk s)) 0); [ lia | reflexivity ].
  - destruct (Z.ltb_spec (zlen (stk s)) 2); [ lia | reflexivity ].
  - destruct (Z.ltb_spec (zlen (stk s)) 2); [ lia | reflexivity ].
Qed.
Print Assumptions C31_overflow_reported.

(** Division by zero is reported.  / and mod have then taken the divisor off the stack; /mod has not. *)
Theorem C31_zero_divisor_reported : forall m single s a r, stk s = 0 :: a :: r ->
  exec m single 42 s = XRet (set_err e_division_by_zero (set_stk (a :: r) s))
  /\ exec m single 43 s = XRet (set_err e_division_by_zero (set_stk (a :: r) s))
  /\ exec m single 44 s = XRet (set_err e_division_by_zero s).
Proof.
  intros m single s a r E. split; [ | split ]; unfold exec; cbn.
  - rewrite (divide_eq _ _ _ _ _ _ E). reflexivity.
  - rewrite (divide_eq _ _ _ _ _ _ E). reflexivity.
  - unfold stack_cannot_pop2. rewrite E. szlen. pose proof (zlen_nonneg r).
    destruct (Z.ltb_spec (zlen r + 1 + 1) 2); [ lia | reflexivity ].
Qed.
Print Assumptions C31_zero_divisor_reported.

(** A result which is not a number of the stack type is signed overflow in the C++ *)
Theorem C31_overflow_undefined : forall m single s a b r, stk s = b :: a :: r ->
  (~ cell (m_width m) (a + b) -> exec m single 39 s = XBad Arith)
  /\ (~ cell (m_width m) (a - b) -> exec m single 40 s = XBad Arith)
  /\ (~ cell (m_width m) (a * b) -> exec m single 41 s = XBad Arith).
Proof.
  intros m single s a b r E. split; [ | split ]; intros H; unfold exec; cbn;
    rewrite (binary_eq _ _ _ _ _ _ E); apply arith_bad, H.
Qed.
Print Assumptions C31_overflow_undefined.

(** ** Where the code is not standard Forth *)
Definition opts (width : Z) : options :=
  mkOptions width 1024 1024 1024 (fun r => r + r / 2) (fun _ => None) (fun _ _ => None) (fun _ v => v) (fun _ a b => a + b).

Definition run_on (width : Z) (ws : list string) (st : list Z) : option ares :=
  match compile_tokens ws with
  | Ok p => let m := machine_of (opts width) p in resume_ m 100 (set_stk st (begin_ m [] (initial m)))
  | _ => None
  end.

(** mod: the result 2^63-2 is a 64-bit number, but the code computes divisor + remainder first *)
Theorem C31_mod_of_large_numbers_refuted :
  cell 64 ((2^63 - 2) mod (2^63 - 1)) /\ run_on 64 ["mod"] [2^63 - 1; 2^63 - 2] = Some (ABad Arith).
Proof. split; [ unfold cell; cbn; lia | vm_compute; reflexivity ]. Qed.
Print Assumptions C31_mod_of_large_numbers_refuted.

(** mod: the least number modulo -1 is 0, but % overflows *)
Theorem C31_mod_of_least_refuted : (-2^63) mod (-1) = 0 /\ run_on 64 ["mod"] [-1; -2^63] = Some (ABad Arith).
Proof. split; [ reflexivity | vm_compute; reflexivity ]. Qed.
Print Assumptions C31_mod_of_least_refuted.

(** rshift brings in copies of the sign, not zeros: -1 1 rshift is -1, not 2^63-1 *)
Theorem C31_rshift_of_negative_refuted :
  spec_shift 64 (fun a b => to_cell 64 (a mod 2^64 / 2^b)) [1; -1] = Some [2^63 - 1]
  /\ exists s, run_on 64 ["rshift"] [1; -1] = Some (ARet e_none s) /\ stk s = [-1].
Proof. split; [ reflexivity | eexists; split; [ vm_compute; reflexivity | reflexivity ] ]. Qed.
Print Assumptions C31_rshift_of_negative_refuted.

(** Shifting by the width of the cell, or by a negative number, is undefined *)
Theorem C31_shift_amount_refuted :
  run_on 64 ["lshift"] [64; 1] = Some (ABad Arith) /\ run_on 64 ["rshift"] [-1; 1] = Some (ABad Arith).
Proof. split; vm_compute; reflexivity. Qed.
Print Assumptions C31_shift_amount_refuted.

(** ** The hypotheses can be met *)
Example C31_example :
  words_run 64 1024 ["/mod"; "rot"; "swap"; "-"; "over"; "abs"; "lshift"] [2; -7; 10] [28; 1]
  /\ exists s, run_on 64 ["/mod"; "rot"; "swap"; "-"; "over"; "abs"; "lshift"] [2; -7; 10] = Some (ARet e_none s)
               /\ stk s = [28; 1].
Proof.
  split; [ | eexists; split; [ vm_compute; reflexivity | reflexivity ] ].
  Local Ltac one := eapply run_cons;
    [ cbn [In word_specs]; repeat (first [ left; reflexivity | right ]) | reflexivity
    | repeat (apply Forall_cons; [ vm_compute; split; [ discriminate | reflexivity ] | ]); apply Forall_nil | vm_compute; discriminate
    | split; intros H; try (destruct H as [ H | H ]; try discriminate H); try discriminate H; unfold cell; cbn; lia | ].
  do 7 one. apply run_nil.
Qed.
