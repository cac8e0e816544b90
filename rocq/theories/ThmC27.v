(** C27: running, stepping, pausing, resuming and calling words only touches memory inside the stacks, the inputs and the outputs. *)
From Coq Require Import String List.
From Verif Require Import Base BaseLemmas Forth ForthParse SpecForth SpecForthRun SpecForthSafe PForthOut PForthSafe1 PForthSafe2 PForthSafe3 PForthSafe4.
Import ListNotations.
Local Open Scope string_scope.
Local Open Scope list_scope.
Local Open Scope Z_scope.

Definition every_word : feats := mkFeats true true true true.
Lemma every_word_allowed : forall ts, Forall (allowed every_word) ts.
Proof. intros ts. apply Forall_forall. intros w _. unfold allowed. cbn. auto. Qed.

(** ** Any program, as long as the three unguarded instructions are used with care.
    What is missing: exit inside a do-loop, rewind by a negative number, a repeated read of a negative number of items
    (all refuted below), call() with a full call stack (refuted below); signed overflow and resizing that never ends
    are other outcomes. *)
Theorem C27_executions_partial : forall o source ts p m e s,
  tokens source = Ok ts -> zlen ts < 2 ^ 31 -> compile o source = Ok (p, m) -> 1 <= o_recmax o -> 0 <= o_stackmax o ->
  history p m (careful m) s -> proper p m e s -> careful m e s -> do_event m e s <> Some (ABad Memory).
Proof.
  intros o source ts p m e s Hts Hlen Hc Hrec Hst Hh Hp Hca Hbad.
  destruct (compile_tabled every_word o source ts p m Hts Hlen (every_word_allowed ts) Hc Hrec Hst) as (T & HT & Em).
  assert (Hnv : 0 <= m_nvars m) by (subst m; apply zlen_nonneg).
  pose proof (history_vok m (envp every_word p T) T HT p (careful m) eq_refl Hnv (careful_guarded m _ T) s Hh) as Hv.
  pose proof (event_aok m (envp every_word p T) T HT e s Hv (proper_args m (envp every_word p T) p e s eq_refl Hp) (careful_guarded m _ T e s Hca)) as Ha.
  rewrite Hbad in Ha. exact Ha.
Qed.
Print Assumptions C27_executions_partial.

Definition has (w : string) (ts : list string) : bool := existsb (String.eqb w) ts.
Lemma has_in : forall w ts, has w ts = true <-> In w ts.
Proof.
  intros w ts. unfold has. rewrite existsb_exists. split; [ intros (x & H & E); apply String.eqb_eq in E; subst; exact H | intros H; exists w; split; [ exact H | apply String.eqb_refl ] ].
Qed.

(** ** Programs without the unguarded instructions: no call of the API, in any history, leaves the arrays. *)
Theorem C27_programs_partial : forall o source ts p m e s,
  tokens source = Ok ts -> zlen ts < 2 ^ 31 -> riskless ts -> compile o source = Ok (p, m) -> 1 <= o_recmax o -> 0 <= o_stackmax o ->
  history p m (fun _ _ => True) s -> proper p m e s -> do_event m e s <> Some (ABad Memory).
Proof.
  intros o source ts p m e s Hts Hlen (R1 & R2 & R3) Hc Hrec Hst Hh Hp Hbad.
  set (F := mkFeats (has "exit" ts) (has "do" ts) false false).
  assert (Ha : Forall (allowed F) ts).
  { rewrite Forall_forall in R2. apply Forall_forall. intros w Hw. unfold allowed, F. cbn [fe fd fw fr]. split; [ intros ->; apply has_in; exact Hw | ].
    split; [ intros ->; apply has_in; exact Hw | ]. split; [ intros ->; contradiction | ]. intros Hb. destruct (R2 w Hw Hb). }
  destruct (compile_tabled F o source ts p m Hts Hlen Ha Hc Hrec Hst) as (T & HT & Em).
  assert (Hnv : 0 <= m_nvars m) by (subst m; apply zlen_nonneg).
  assert (Hx : fe F = false \/ fd F = false).
  { unfold F. cbn [fe fd]. destruct (has "exit" ts) eqn:E1; [ | auto ]. destruct (has "do" ts) eqn:E2; [ | auto ]. exfalso. apply R3. split; apply has_in; assumption. }
  pose proof (riskless_guarded m (envp F p T) T HT eq_refl eq_refl Hx) as Hg.
  pose proof (history_vok m (envp F p T) T HT p (fun _ _ => True) eq_refl Hnv (fun e s _ single t fuel s0 _ => Hg single t fuel s0) s Hh) as Hv.
  pose proof (event_aok m (envp F p T) T HT e s Hv (proper_args m (envp F p T) p e s eq_refl Hp) (fun single t fuel s0 _ => Hg single t fuel s0)) as Hk.
  rewrite Hbad in Hk. exact Hk.
Qed.
Print Assumptions C27_programs_partial.

(** ** The sizes: between calls of a machine that is running, everything is within its array. *)
Theorem C27_sizes_partial : forall o source ts p m s,
  tokens source = Ok ts -> zlen ts < 2 ^ 31 -> compile o source = Ok (p, m) -> 1 <= o_recmax o -> 0 <= o_stackmax o ->
  history p m (careful m) s -> ready s = true -> err s = e_none ->
  zlen (stk s) <= m_stackmax m /\ depth s <= m_recmax m /\ zlen (dos s) <= depth s /\ zlen (vars s) = zlen (p_vars p)
  /\ zlen (ins s) = zlen (p_ins p) /\ Forall (fun b => 0 <= ipos b <= zlen (idata b)) (ins s)
  /\ zlen (outs s) = zlen (p_outs p) /\ Forall (fun b => 0 <= olen b <= zlen (cells b)) (outs s)
  /\ (forall w pos, In (w, pos) (frames s) -> exists a n, segment m w a n /\ 0 <= pos <= n /\ (pos < n -> exists c, nthZ (m_code m) (a + pos) = Some c)).
Proof.
  intros o source ts p m s Hts Hlen Hc Hrec Hst Hh Hr He.
  destruct (compile_tabled every_word o source ts p m Hts Hlen (every_word_allowed ts) Hc Hrec Hst) as (T & HT & Em).
  assert (Hnv : 0 <= m_nvars m) by (subst m; apply zlen_nonneg).
  pose proof (history_vok m (envp every_word p T) T HT p (careful m) eq_refl Hnv (careful_guarded m _ T) s Hh) as Hv.
  destruct (proj2 Hv Hr He) as (Hd & Hs & Htg & Hdep). destruct Hd as [D1 D2 D3 D4 D5 D6].
  split; [ exact D1 | ]. split; [ exact Hdep | ]. split; [ eapply stack_loops; exact Hs | ].
  split; [ rewrite D2; subst m; reflexivity | ]. split; [ exact D3 | ].
  split; [ eapply Forall_impl; [ | exact D4 ]; intros b [H _]; exact H | ].
  split; [ rewrite D5; subst m; apply zlen_map | ].
  split.
  { eapply Forall_impl; [ | exact D6 ]. intros b (vs & [G1 G2 G3]). unfold reserved in G2. rewrite G1. pose proof (zlen_nonneg vs). lia. }
  clear - Hs HT. intros w pos Hin.
  assert (Hspot : exists sg x, nthZ T w = Some sg /\ at_spot (body sg) pos x).
  { induction Hs as [|w0 p0 fr0 ds sg x H IH H1 H2 H3 H4 H5|w0 p0 fr0 ds sg b d H IH H1 H2 H3 H4 H5]; [ destruct Hin | | ];
      (destruct Hin as [Ein|Hin]; [ inversion Ein; subst; eauto | eauto ]). }
  destruct Hspot as (sg & x & H1 & H2). destruct (b_code _ _ _ HT _ _ H1) as (a & A1 & A2). exists a, (zlen (code (body sg))). split; [ exact A1 | ].
  pose proof (spot_pos _ _ _ H2) as H0. split.
  - destruct (spot_room _ _ _ H2) as [[_ ->]|(_ & Hp & _)]; lia.
  - intros Hlt. destruct (nthZ_some (code (body sg)) pos ltac:(lia)) as (c & Hc). eauto.
Qed.
Print Assumptions C27_sizes_partial.

(** ** Examples *)
Definition opts : options :=
  mkOptions 64 64 16 8 (fun r => r + r) (fun _ => None) (fun _ _ => None) (fun _ v => v) (fun _ a b => a + b).
Definition program (source : string) : pst * machine :=
  match compile opts source with Ok r => r | _ => (mkPst [] [] [] [] [] [], machine_of opts (mkPst [] [] [] [] [] [])) end.
Definition after (r : option ares) (s : state) : state := match r with Some (ARet _ s') => s' | _ => s end.

(** a do-loop with a pause, a word called in it, reading and writing: run, resume, step, call *)
Definition source1 := "input x output y int32 variable v : f x i-> y v @ 1 + dup v ! ; 3 0 do f pause i drop loop v @".
Definition p1 := fst (program source1).
Definition m1 := snd (program source1).
Definition input1 : inbuf := mkIn [1; 0; 0; 0; 2; 0; 0; 0; 3; 0; 0; 0; 4; 0; 0; 0] 0.
Definition a1 := after (run_ m1 [input1] 200 (initial m1)) (initial m1).
Definition a2 := after (resume_ m1 200 a1) a1.
Definition a3 := after (step_ m1 200 a2) a2.
Definition a4 := after (call_ m1 0 200 a3) a3.

Example C27_example_program : 
  compile opts source1 = Ok (p1, m1) /\ (exists ts, tokens source1 = Ok ts /\ riskless ts)
  /\ run_ m1 [input1] 200 (initial m1) = Some (ARet e_none a1) /\ resume_ m1 200 a1 = Some (ARet e_none a2)
  /\ step_ m1 200 a2 = Some (ARet e_none a3) /\ call_ m1 0 200 a3 = Some (ARet e_none a4)
  /\ stk a4 = [3; 1; 2; 1] /\ map ipos (ins a4) = [12] /\ history p1 m1 (fun _ _ => True) a4.
Proof.
  assert (E1 : run_ m1 [input1] 200 (initial m1) = Some (ARet e_none a1)) by (vm_compute; reflexivity).
  assert (E2 : resume_ m1 200 a1 = Some (ARet e_none a2)) by (vm_compute; reflexivity).
  assert (E3 : step_ m1 200 a2 = Some (ARet e_none a3)) by (vm_compute; reflexivity).
  assert (E4 : call_ m1 0 200 a3 = Some (ARet e_none a4)) by (vm_compute; reflexivity).
  split; [ vm_compute; reflexivity | ]. split.
  { eexists. split; [ vm_compute; reflexivity | ].
    split; [ intros H; repeat destruct H as [H|H]; try discriminate H; exact H | ]. split; [ repeat constructor; intros H; discriminate H | ].
    intros [_ H]. repeat destruct H as [H|H]; try discriminate H; exact H. }
  repeat (split; [ assumption | ]). split; [ vm_compute; reflexivity | ]. split; [ vm_compute; reflexivity | ].
  apply history_event with (Op (Call 0 200)) a3 e_none; [ | split; [ split; [ | vm_compute ] | vm_compute ]; first [ reflexivity | discriminate ] | exact I | exact E4 ].
  apply history_event with (Op (Step 200)) a2 e_none; [ | exact I | exact I | exact E3 ].
  apply history_event with (Op (Resume 200)) a1 e_none; [ | exact I | exact I | exact E2 ].
  apply history_event with (Fresh (Run [input1] 200)) (initial m1) e_none; [ constructor | | exact I | exact E1 ].
  split; [ reflexivity | ]. constructor; [ | constructor ]. split; [ reflexivity | ]. repeat constructor; unfold is_byte; lia.
Qed.

(** the three instructions, used with care *)
Definition riskyb (m : machine) (s : state) : bool :=
  match is_segment_done m s, bytecode_get m s with
  | Some false, Some c =>
      ((c =? CODE_EXIT) && negb (match dos s with [] => true | _ => false end))
      || ((c =? CODE_REWIND) && match stk s with n :: _ => n <? 0 | [] => false end)
      || ((c <? 0) && match stk s with n :: _ => n <? 0 | [] => false end)
  | _, _ => false
  end%bool.
Lemma riskyb_ok : forall m s, riskyb m s = false -> ~ risky m s.
Proof.
  intros m s H (D & c & G & R). unfold riskyb in H. rewrite D, G in H. apply Bool.orb_false_iff in H. destruct H as [H H3]. apply Bool.orb_false_iff in H. destruct H as [H1 H2].
  destruct R as [[-> Hd]|[[-> (n & r & Hs & Hn)]|(Hc & _ & _ & n & r & Hs & Hn)]].
  - destruct (dos s); [ congruence | discriminate ].
  - rewrite Hs in H2. cbn in H2. lia.
  - rewrite Hs in H3. apply Z.ltb_lt in Hc. rewrite Hc in H3. cbn in H3. lia.
Qed.
Lemma careful_run : forall m inputs fuel s, 
  forallb (fun n => match trips m false 0 n false (begin_ m inputs s) with TGo _ s1 => negb (riskyb m s1) | _ => true end) (seq 0 fuel) = true ->
  careful m (Fresh (Run inputs fuel)) s.
Proof.
  intros m inputs fuel s H n i s1 Hn Ht. rewrite forallb_forall in H. specialize (H n). rewrite Ht in H. apply riskyb_ok. apply Bool.negb_true_iff, H. apply in_seq. lia.
Qed.

Definition source2 := "input x output y int32 : f if x pos exit then 5 ; 3 x #i-> y 1 y rewind 7 y <- stack 1 f 0 f".
Definition p2 := fst (program source2).
Definition m2 := snd (program source2).
Definition b1 := after (run_ m2 [input1] 100 (initial m2)) (initial m2).
Example C27_example_careful :
  compile opts source2 = Ok (p2, m2) /\ (exists ts, tokens source2 = Ok ts /\ zlen ts < 2 ^ 31)
  /\ proper p2 m2 (Fresh (Run [input1] 100)) (initial m2) /\ careful m2 (Fresh (Run [input1] 100)) (initial m2)
  /\ run_ m2 [input1] 100 (initial m2) = Some (ARet e_none b1) /\ stk b1 = [5; 12] /\ map contents (outs b1) = [[Some 1; Some 2; Some 7]].
Proof.
  split; [ vm_compute; reflexivity | ]. split; [ eexists; split; [ vm_compute; reflexivity | reflexivity ] | ].
  split. { split; [ reflexivity | ]. constructor; [ | constructor ]. split; [ reflexivity | ]. repeat constructor; unfold is_byte; lia. }
  split; [ apply careful_run; vm_compute; reflexivity | ]. split; [ vm_compute; reflexivity | ]. split; vm_compute; reflexivity.
Qed.

(** ** What is not guarded *)

(** exit leaves a word called in a do-loop and takes the loop with it: the next i reads before the loop stack. *)
Theorem C27_exit_in_loop_refuted : exists p m, compile opts ": f exit ; 3 0 do f i loop" = Ok (p, m)
  /\ proper p m (Fresh (Run [] 100)) (initial m) /\ do_event m (Fresh (Run [] 100)) (initial m) = Some (ABad Memory).
Proof. eexists _, _. split; [ vm_compute; reflexivity | ]. split; [ split; [ reflexivity | constructor ] | vm_compute; reflexivity ]. Qed.
Print Assumptions C27_exit_in_loop_refuted.

(** rewind by a negative number moves the end of the output past its memory. *)
Theorem C27_negative_rewind_refuted : exists p m, compile opts "output y int32 1 y <- stack -100 y rewind 1 y +<- stack" = Ok (p, m)
  /\ proper p m (Fresh (Run [] 100)) (initial m) /\ do_event m (Fresh (Run [] 100)) (initial m) = Some (ABad Memory).
Proof. eexists _, _. split; [ vm_compute; reflexivity | ]. split; [ split; [ reflexivity | constructor ] | vm_compute; reflexivity ]. Qed.
Print Assumptions C27_negative_rewind_refuted.

(** a repeated read of a negative number of items moves the input to before its beginning; the next read starts there. *)
Theorem C27_negative_count_refuted : exists p m, compile opts "input x -2 x #i-> stack x i-> stack" = Ok (p, m)
  /\ proper p m (Fresh (Run [input1] 100)) (initial m) /\ do_event m (Fresh (Run [input1] 100)) (initial m) = Some (ABad Memory).
Proof.
  eexists _, _. split; [ vm_compute; reflexivity | ]. split; [ | vm_compute; reflexivity ].
  split; [ reflexivity | ]. constructor; [ | constructor ]. split; [ reflexivity | ]. repeat constructor; unfold is_byte; lia.
Qed.
Print Assumptions C27_negative_count_refuted.

(** call() does not check that the call stack has room. *)
Definition small : options := mkOptions 64 64 1 8 (fun r => r + r) (fun _ => None) (fun _ _ => None) (fun _ v => v) (fun _ a b => a + b).
Theorem C27_call_when_full_refuted : exists p m s, compile small ": f 1 ; pause 2" = Ok (p, m)
  /\ run_ m [] 100 (initial m) = Some (ARet e_none s) /\ history p m (fun _ _ => True) s /\ do_event m (Op (Call 0 100)) s = Some (ABad Memory).
Proof.
  eexists _, _, _. split; [ vm_compute; reflexivity | ]. split; [ vm_compute; reflexivity | ]. split; [ | vm_compute; reflexivity ].
  eapply history_event with (e := Fresh (Run [] 100)); [ constructor | split; [ reflexivity | constructor ] | exact I | vm_compute; reflexivity ].
Qed.
Print Assumptions C27_call_when_full_refuted.
