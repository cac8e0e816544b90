(** What the calls of the Forth machine do to its error, its targets and its loop stack *)
From Verif Require Import Base BaseLemmas Forth SpecForthRun PForthStep.
Local Open Scope list_scope.
Local Open Scope Z_scope.

(** ** Which states errors are reported in *)
Definition loops_ok (s : state) : Prop := Forall (fun d => 1 <= d_depth d) (dos s).

(** nothing but the data and the position changed; or stopped by an error with the program still under way;
    or halted *)
Definition stays (s s' : state) : Prop :=
  targets s' = targets s /\ ready s' = ready s /\ err s' = err s /\ loops_ok s'.
Definition stopped (s s' : state) : Prop :=
  targets s' = targets s /\ ready s' = ready s /\ execution_error (err s') /\ 1 <= depth s' /\ loops_ok s'.
Definition halted (s s' : state) : Prop :=
  err s' = e_user_halt /\ loops_ok s' /\ targets s' = skipn (Nat.pred (List.length (targets s))) (targets s).

Definition xgood (s : state) (r : xres) : Prop :=
  match r with
  | XNext s' | XExit s' => stays s s'
  | XRet s' => stays s s' \/ stopped s s' \/ halted s s'
  | XBad _ => True
  end.
Definition tgood (s : state) (r : tres) : Prop :=
  match r with
  | TGo _ s' => stays s s'
  | TRet s' => stays s s' \/ stopped s s' \/ halted s s'
  | TBad _ => True
  end.

Lemma depth_where : forall k s, depth (where_add k s) = depth s.
Proof. intros k s. unfold depth, where_add. destruct (frames s) as [ | [ w p ] r ] eqn:F; cbn; [ rewrite F; reflexivity | rewrite !zlen_cons; reflexivity ]. Qed.
Lemma dos_where : forall k s, dos (where_add k s) = dos s.
Proof. intros k s. unfold where_add. destruct (frames s) as [ | [ w p ] r ]; reflexivity. Qed.
Lemma ctl_where : forall k s, targets (where_add k s) = targets s /\ ready (where_add k s) = ready s /\ err (where_add k s) = err s.
Proof. intros k s. unfold where_add. destruct (frames s) as [ | [ w p ] r ]; auto. Qed.

Lemma stays_refl : forall s, loops_ok s -> stays s s.
Proof. intros s H. repeat split; assumption. Qed.
Lemma stays_trans : forall a b c, stays a b -> stays b c -> stays a c.
Proof. intros a b c (A & B & C & D) (A' & B' & C' & D'). repeat split; congruence || assumption. Qed.
Lemma tgood_stays : forall a b r, stays a b -> tgood b r -> tgood a r.
Proof.
  intros a b r S. destruct r; cbn; [ intros; eapply stays_trans; eassumption | | tauto ].
  destruct S as (A & B & C & D). intros [ H | [ H | H ] ].
  - left. destruct H as (A' & B' & C' & D'). repeat split; congruence || assumption.
  - right; left. destruct H as (A' & B' & H). split; [ congruence | split; [ congruence | exact H ] ].
  - right; right. unfold halted in *. rewrite <- A. exact H.
Qed.
Lemma stays_where : forall k s, loops_ok s -> stays s (where_add k s).
Proof. intros k s H. destruct (ctl_where k s) as (A & B & C). repeat split; try assumption. unfold loops_ok. rewrite dos_where. exact H. Qed.

Lemma xgood_ends : forall k s r, loops_ok s -> 1 <= depth s -> ends k s r -> xgood s r.
Proof.
  intros k s r L D H. destruct r as [ t | t | t | b ]; cbn in H; [ | | contradiction | exact I ].
  - pose proof (stays_where k s L) as S. destruct S as (S1 & S2 & S3 & S4).
    unfold ctl in H. injection H as A B C E F. cbn. unfold stays, loops_ok in *. repeat split; congruence.
  - destruct H as (X & j & J & E). cbn. right; left.
    pose proof (stays_where j s L) as S. destruct S as (S1 & S2 & S3 & S4). pose proof (depth_where j s) as Dp.
    unfold ctl in E. cbn in E. injection E as A B C E. unfold stopped, loops_ok, depth in *. repeat split; congruence || lia || assumption.
Qed.

Lemma fail_good : forall e s, execution_error e -> loops_ok s -> 1 <= depth s -> xgood s (fail e s).
Proof. intros e s E L D. cbn. right; left. repeat split; assumption. Qed.

(** one more step of the loop of the segment returned to *)
Lemma do_advance_good : forall m s s0 f, stays s0 s -> (forall t, stays s0 t -> xgood s0 (f t)) -> xgood s0 (do_advance m s f).
Proof.
  intros m s s0 f S H. unfold do_advance. destruct (dos s) as [ | d r ] eqn:E; [ apply H, S | ].
  pose proof S as (S1 & S2 & S3 & S4). unfold loops_ok in S4. rewrite E in S4. apply Forall_cons_iff in S4. destruct S4 as [ P Q ].
  destruct (Z.eqb_spec (d_depth d) (depth s)) as [ N | _ ]; [ | apply H, S ].
  assert (K : forall x v, stays s0 (set_dos (mkDo (d_depth d) v (d_stop d) x :: r) s)).
  { intros x v. repeat split; try assumption. unfold loops_ok. cbn. constructor; assumption. }
  destruct (d_step d).
  - unfold pop_or_fail. destruct (stack_cannot_pop s).
    + cbn. right; left. unfold stopped. cbn. repeat split; try assumption; [ unfold depth in *; cbn; lia | ].
      unfold loops_ok. cbn. rewrite E. constructor; assumption.
    + unfold stack_pop. destruct (stk s); [ exact I | ]. destruct (fits _ _); [ | exact I ]. apply H.
      specialize (K (d_i d + z) true). exact K.
  - destruct (fits _ _); [ apply H, K | exact I ].
Qed.

Lemma pop_good : forall s s0 f, stays s0 s -> (forall t, stays s0 t -> xgood s0 (f t)) -> xgood s0 (bytecodes_pointer_pop s f).
Proof.
  intros s s0 f S H. unfold bytecodes_pointer_pop. destruct (frames s) as [ | x r ]; [ exact I | ]. apply H.
  destruct S as (S1 & S2 & S3 & S4). repeat split; assumption.
Qed.

Lemma set_stk_stays : forall r s, loops_ok s -> stays s (set_stk r s).
Proof. intros r s L. repeat split; assumption. Qed.

Lemma pop_or_fail_good : forall s f, loops_ok s -> 1 <= depth s -> (forall x t, stays s t -> 1 <= depth t -> xgood s (f x t)) -> xgood s (pop_or_fail s f).
Proof.
  intros s f L D H. unfold pop_or_fail. destruct (stack_cannot_pop s); [ apply fail_good; [ exact I | assumption | assumption ] | ].
  unfold stack_pop. destruct (stk s); [ exact I | ]. apply H; [ apply set_stk_stays; exact L | exact D ].
Qed.

Lemma xgood_stays : forall a b r, stays a b -> xgood b r -> xgood a r.
Proof.
  intros a b r S. destruct r; cbn; [ intros; eapply stays_trans; eassumption | | intros; eapply stays_trans; eassumption | tauto ].
  destruct S as (A & B & C & D). intros [ H | [ H | H ] ].
  - left. destruct H as (A' & B' & C' & D'). repeat split; congruence || assumption.
  - right; left. destruct H as (A' & B' & H). split; [ congruence | split; [ congruence | exact H ] ].
  - right; right. unfold halted in *. rewrite <- A. exact H.
Qed.

Lemma push_segment_good : forall m w s f, loops_ok s -> 1 <= depth s -> (forall t, stays s t -> xgood s (f t)) -> xgood s (push_segment_or_fail m w s f).
Proof.
  intros m w s f L D H. unfold push_segment_or_fail. destruct (_ =? _); [ apply fail_good; [ exact I | assumption | assumption ] | ].
  unfold bytecodes_pointer_push. destruct (_ <? _); [ | exact I ]. apply H. repeat split; assumption.
Qed.

Lemma drop_dos_ok : forall d l, Forall (fun d => 1 <= d_depth d) l -> Forall (fun d => 1 <= d_depth d) (drop_dos d l).
Proof. intros d l H. induction H; cbn; [ constructor | destruct (_ =? _); [ constructor; assumption | assumption ] ]. Qed.

Lemma exec_good : forall m single c s, loops_ok s -> 1 <= depth s -> xgood s (exec m single c s).
Proof.
  intros m single c s L D. destruct (control_code c) eqn:C; [ | eapply xgood_ends; try assumption; apply exec_data, C ].
  unfold exec. destruct (Z.ltb_spec c 0). { unfold control_code in C. cbn in C. 
    repeat (apply orb_true_iff in C; destruct C as [ C | C ]); rewrite ?Z.eqb_eq, ?Z.leb_le in C; unfold BOUND_DICTIONARY in C; lia. }
  destruct (BOUND_DICTIONARY <=? c) eqn:B.
  { apply push_segment_good; try assumption. intros t S. exact S. }
  unfold control_code in C. rewrite B, orb_false_r in C.
  assert (DW : forall k t, 1 <= depth t -> 1 <= depth (where_add k t)) by (intros; rewrite depth_where; assumption).
  assert (SW : forall k t, stays s t -> stays s (where_add k t)).
  { intros k t S. eapply stays_trans; [ exact S | apply stays_where; apply S ]. }
  repeat (apply orb_true_iff in C; destruct C as [ C | C ]); rewrite Z.eqb_eq in C; subst c; cbn [exec_code].
  - cbn. right; right. repeat split. constructor.
  - destruct (is_segment_done m s) as [ [ | ] | ]; [ | | exact I ].
    + apply pop_good; [ apply stays_refl, L | ]. intros t S. apply do_advance_good; [ exact S | ]. intros u U. cbn. left. exact U.
    + cbn. left. repeat split; assumption.
  - apply pop_or_fail_good; try assumption. intros x t S Dt. destruct (x =? 0); [ apply SW, S | exact S ].
  - apply pop_or_fail_good; try assumption. intros x t S Dt. destruct (x =? 0); [ apply SW, S | ].
    destruct (bytecode_get m t); [ | exact I ]. apply (xgood_stays s (where_add 2 t)); [ apply SW, S | ].
    apply push_segment_good; [ apply (SW 2 t S) | apply DW, Dt | ]. intros u U. exact U.
  - unfold pop2_or_fail. destruct (stack_cannot_pop2 s); [ apply fail_good; [ exact I | assumption | assumption ] | ].
    unfold stack_pop2. destruct (stk s) as [ | a [ | b r ] ]; [ exact I | exact I | ].
    destruct (_ =? _). { cbn. right; left. repeat split; assumption. } 
    unfold do_push. destruct (_ <? _); [ | exact I ]. repeat split; try assumption. unfold loops_ok. cbn. constructor; [ exact D | exact L ].
  - unfold pop2_or_fail. destruct (stack_cannot_pop2 s); [ apply fail_good; [ exact I | assumption | assumption ] | ].
    unfold stack_pop2. destruct (stk s) as [ | a [ | b r ] ]; [ exact I | exact I | ].
    destruct (_ =? _). { cbn. right; left. repeat split; assumption. }
    unfold do_push. destruct (_ <? _); [ | exact I ]. repeat split; try assumption. unfold loops_ok. cbn. constructor; [ exact D | exact L ].
  - apply SW, stays_refl, L.
  - apply pop_or_fail_good; try assumption. intros x t S Dt. destruct (x =? 0); [ apply SW, S | exact S ].
  - apply pop_or_fail_good; try assumption. intros x t S Dt. destruct (x =? 0); [ apply SW, S | ].
    destruct (bytecode_get m t); [ | exact I ]. apply (xgood_stays s (where_add (-2) t)); [ apply SW, S | ].
    apply push_segment_good; [ apply (SW (-2) t S) | apply DW, Dt | ]. intros u U. exact U.
  - unfold operand. destruct (bytecode_get m s) as [ n | ]; [ | exact I ].
    destruct (_ && _); [ | exact I ]. cbn zeta.
    match goal with |- xgood s (if single then (match is_segment_done m ?u with _ => _ end) else _) => assert (S : stays s u) end.
    { destruct (ctl_where 1 s) as (W1 & W2 & W3). repeat split; try assumption. unfold loops_ok. cbn. apply drop_dos_ok. rewrite dos_where. exact L. }
    destruct single; [ | exact S ]. destruct (is_segment_done m _) as [ [ | ] | ]; [ | cbn; left; exact S | exact I ].
    apply pop_good; [ exact S | ]. intros t T. cbn. left. exact T.
Qed.

Lemma tick_good : forall m single target inner s, loops_ok s -> tgood s (tick m single target inner s).
Proof.
  intros m single target inner s L. unfold tick. destruct (_ && _); [ cbn; left; apply stays_refl, L | ].
  assert (EOS : forall s0 s, stays s0 s -> tgood s0 (end_of_segment m s)).
  { intros s0 t S. unfold end_of_segment.
    pose proof (pop_good t s0 (fun s => do_advance m s XNext) S) as P.
    destruct (bytecodes_pointer_pop t (fun s => do_advance m s XNext)); cbn in *; try exact I;
      (apply P; intros; apply do_advance_good; [ assumption | intros; assumption ]) || left; 
      apply P; intros; apply do_advance_good; [ assumption | intros; assumption ]. }
  destruct (is_segment_done m s) as [ [ | ] | ] eqn:SD; [ apply EOS, stays_refl, L | | exact I ].
  unfold one_instruction. destruct (bytecode_get m s) as [ c | ]; [ | exact I ]. cbn zeta.
  assert (D : 1 <= depth s).
  { unfold is_segment_done, which_where in SD. unfold depth. destruct (frames s); [ discriminate SD | ]. rewrite zlen_cons. pose proof (zlen_nonneg l). lia. }
  assert (GO : forall t, stays s t -> 1 <= depth t -> tgood s match exec m single c t with XNext u => after_instruction m single u | XRet u => TRet u | XExit u => end_of_segment m u | XBad b => TBad b end).
  { intros t S Dt. pose proof (exec_good m single c t (proj2 (proj2 (proj2 S))) Dt) as X.
    apply (xgood_stays s t _ S) in X. destruct (exec m single c t) as [ u | u | u | b ]; [ | exact X | apply EOS, X | exact I ].
    unfold after_instruction. cbn zeta. cbn in X.
    assert (X' : stays s (count_instr u)) by (destruct X as (X1 & X2 & X3 & X4); repeat split; assumption).
    destruct single; [ | exact X' ].
    destruct (is_segment_done m (count_instr u)) as [ [ | ] | ]; [ | cbn; left; exact X' | exact I ].
    pose proof (pop_good (count_instr u) s XNext X') as P.
    unfold bytecodes_pointer_pop in *. destruct (frames (count_instr u)); [ exact I | ]. cbn. left. apply P. intros; assumption. }
  destruct (in_do s) as [ d | ].
  - destruct (_ <=? _); [ | apply GO; [ apply stays_refl, L | exact D ] ]. cbn.
    eapply stays_trans; [ | apply stays_where ].
    + repeat split; try assumption. unfold loops_ok in *. cbn. destruct (dos s); [ exact L | apply Forall_inv_tail in L; exact L ].
    + unfold loops_ok in *. cbn. destruct (dos s); [ exact L | apply Forall_inv_tail in L; exact L ].
  - apply GO; [ apply stays_where, L | rewrite depth_where; exact D ].
Qed.

Lemma trips_good : forall m single target n inner s, loops_ok s -> tgood s (trips m single target n inner s).
Proof.
  induction n as [ | n IH ]; intros inner s L; cbn [trips]; [ apply stays_refl, L | ].
  pose proof (tick_good m single target inner s L) as T. destruct (tick m single target inner s) as [ i t | t | b ]; [ | exact T | exact I ].
  cbn in T. eapply tgood_stays; [ exact T | apply IH, T ].
Qed.

(** Between calls: the lowest target is 0, the loops are all above some frame, and after an error of execution
    the program is still under way *)
Definition between (s : state) : Prop :=
  loops_ok s /\ (targets s = [] /\ frames s = [] \/ last (targets s) 1 = 0) /\ (stopped_by (err s) = true -> ready s = true /\ targets s <> []).

Lemma last_tail : forall s (t : Z) r, last (t :: r) 1 = 0 -> depth s = t -> r = [] /\ frames s = [] \/ last r 1 = 0.
Proof.
  intros s t [ | a r ] H D; [ | right; exact H ]. left. split; [ reflexivity | ]. cbn in H. unfold depth in D.
  destruct (frames s); [ reflexivity | ]. rewrite zlen_cons in D. pose proof (zlen_nonneg l). lia.
Qed.

Lemma last_skipn : forall (l : list Z), last l 1 = 0 -> last (skipn (Nat.pred (List.length l)) l) 1 = 0.
Proof.
  induction l as [ | a [ | b l ] IH ]; intros H; [ exact H | exact H | ].
  change (Nat.pred (List.length (a :: b :: l))) with (S (Nat.pred (List.length (b :: l)))). cbn [skipn]. apply IH, H.
Qed.

Lemma internal_good : forall m single fuel s t r e s', loops_ok s -> targets s = t :: r -> last (t :: r) 1 = 0 -> err s = e_none -> ready s = true ->
  internal_run m single t fuel s pop_target = Some (ARet e s') ->
  between s' /\ e = err s'.
Proof.
  intros m single fuel s t r e s' L T Lt E R H. unfold internal_run in H.
  pose proof (trips_good m single t fuel false s L) as G.
  destruct (trips m single t fuel false s) as [ i u | u | b ]; [ discriminate H | | discriminate H ].
  injection H as H. unfold pop_target in H.
  cbn in G. destruct G as [ (G1 & G2 & G3 & G4) | [ (G1 & G2 & G3 & G4 & G5) | (G1 & G2 & G3) ] ].
  - rewrite G1, T in H. destruct (Z.eqb_spec (depth u) t) as [ Dt | _ ]; injection H as <- <-.
    + split; [ | reflexivity ]. split; [ exact G4 | ]. split; [ apply (last_tail u t); assumption | ]. cbn. rewrite G3, E. discriminate.
    + split; [ | reflexivity ]. split; [ exact G4 | ]. split; [ right; rewrite G1, T; exact Lt | ]. cbn. rewrite G3, E. discriminate.
  - rewrite G1, T in H. destruct (Z.eqb_spec (depth u) t) as [ Dt | _ ]; injection H as <- <-.
    + assert (NE : r <> []). { intros ->. cbn in Lt. lia. }
      split; [ | reflexivity ]. split; [ exact G5 | ]. split; [ apply (last_tail u t); assumption | ]. cbn. split; [ congruence | exact NE ].
    + split; [ | reflexivity ]. split; [ exact G5 | ]. split; [ right; rewrite G1, T; exact Lt | ]. split; [ congruence | rewrite G1, T; discriminate ].
  - assert (Lu : last (targets u) 1 = 0) by (rewrite G3, T; apply last_skipn, Lt).
    destruct (targets u) as [ | t' r' ] eqn:Tu; [ discriminate H | ].
    destruct (Z.eqb_spec (depth u) t') as [ Dt | _ ]; injection H as <- <-.
    + split; [ | reflexivity ]. split; [ exact G2 | ]. split; [ apply (last_tail u t'); assumption | ]. cbn. rewrite G1. discriminate.
    + split; [ | reflexivity ]. split; [ exact G2 | ]. split; [ right; rewrite Tu; exact Lu | ]. rewrite G1. discriminate.
Qed.

Lemma is_none_eq : forall e, is_none e = true -> e = e_none.
Proof. intros [ ]; cbn; congruence. Qed.

Lemma do_op_good : forall m o s e s', between s -> do_op m o s = Some (ARet e s') -> between s' /\ e = err s'.
Proof.
  intros m o s e s' B H.
  assert (NR : forall x, stopped_by x = false -> between (set_err x s)).
  { intros x X. destruct B as (B1 & B2 & B3). split; [ exact B1 | split; [ exact B2 | cbn; congruence ] ]. }
  assert (SR : forall single fuel, step_or_resume m single fuel s = Some (ARet e s') -> between s' /\ e = err s').
  { clear H. intros single fuel H. unfold step_or_resume in H. destruct (ready s) eqn:R; cbn [negb] in H.
    2:{ injection H as <- <-. split; [ apply NR; reflexivity | reflexivity ]. }
    destruct (targets s) as [ | t r ] eqn:T.
    { injection H as <- <-. split; [ apply NR; reflexivity | reflexivity ]. }
    destruct (is_none (err s)) eqn:E; cbn [negb] in H.
    - apply is_none_eq in E. eapply internal_good; [ apply B | exact T | | exact E | exact R | exact H ].
      destruct B as (_ & [ (B & _) | B ] & _); [ congruence | rewrite <- T; exact B ].
    - injection H as <- <-. auto. }
  destruct o as [ fuel | fuel | w fuel ]; cbn [do_op] in H; [ eapply SR, H | eapply SR, H | ].
  unfold call_ in H. destruct (ready s) eqn:R; cbn [negb] in H.
  2:{ injection H as <- <-. split; [ apply NR; reflexivity | reflexivity ]. }
  destruct (is_none (err s)) eqn:E; cbn [negb] in H.
  2:{ injection H as <- <-. auto. }
  apply is_none_eq in E. destruct (nthZ (m_words m) w) as [ x | ]; [ | discriminate H ].
  unfold bytecodes_pointer_push in H. destruct (_ <? _); [ | discriminate H ].
  refine (internal_good _ _ _ _ _ _ _ _ _ _ _ _ _ H); [ apply B | reflexivity | | exact E | exact R ].
  destruct B as (_ & [ (B & F) | B ] & _).
  - rewrite B. unfold depth. rewrite F. reflexivity.
  - destruct (targets s); [ discriminate B | exact B ].
Qed.

Lemma do_fresh_good : forall m o s e s', between s -> do_fresh m o s = Some (ARet e s') -> between s' /\ e = err s'.
Proof.
  intros m o s e s' B H. destruct o as [ inputs | inputs fuel | | st ]; cbn [do_fresh] in H.
  - injection H as <- <-. split; [ | reflexivity ]. split; [ constructor | split; [ right; reflexivity | discriminate ] ].
  - unfold run_ in H.
    refine (internal_good _ _ _ _ _ _ _ _ _ _ _ _ _ H); [ constructor | reflexivity | reflexivity | reflexivity | reflexivity ].
  - injection H as <- <-. split; [ | reflexivity ]. split; [ constructor | split; [ left; split; reflexivity | discriminate ] ].
  - injection H as <- <-. split; [ exact B | reflexivity ].
Qed.

Lemma reached_between : forall m s, reached m s -> between s.
Proof.
  intros m s H. induction H as [ | o s e s' _ IH H | o s e s' _ IH H ].
  - split; [ constructor | split; [ left; split; reflexivity | discriminate ] ].
  - eapply do_op_good; eassumption.
  - eapply do_fresh_good; eassumption.
Qed.

