(** Pauses of the Forth machine *)
From Verif Require Import Base BaseLemmas Forth SpecForthRun PForthRun PForthStep PForthCtl.
Local Open Scope list_scope.
Local Open Scope Z_scope.

(** Without pause, an instruction which returns reports an error *)
Definition loud (r : xres) : Prop := match r with XRet s => err s <> e_none | _ => True end.

Lemma execution_error_some : forall e, execution_error e -> e <> e_none.
Proof. intros [ ] H; cbn in H; congruence || contradiction. Qed.

Lemma loud_fail : forall e s, execution_error e -> loud (fail e s).
Proof. intros e s H. cbn. apply execution_error_some, H. Qed.
Lemma loud_pop : forall s f, (forall x t, loud (f x t)) -> loud (pop_or_fail s f).
Proof.
  intros s f H. unfold pop_or_fail. destruct (stack_cannot_pop s); [ apply loud_fail; exact I | ].
  unfold stack_pop. destruct (stk s); [ exact I | apply H ].
Qed.
Lemma loud_push_segment : forall m w s f, (forall t, loud (f t)) -> loud (push_segment_or_fail m w s f).
Proof.
  intros m w s f H. unfold push_segment_or_fail. destruct (_ =? _); [ apply loud_fail; exact I | ].
  unfold bytecodes_pointer_push. destruct (_ <? _); [ apply H | exact I ].
Qed.

Lemma exec_loud : forall m c s, c <> CODE_PAUSE -> loud (exec m false c s).
Proof.
  intros m c s N. destruct (control_code c) eqn:C.
  2:{ pose proof (exec_data m false c s C) as E. destruct (exec m false c s); cbn in *; try exact I. apply execution_error_some, E. }
  unfold exec. destruct (Z.ltb_spec c 0). { unfold control_code in C.
    repeat (apply orb_true_iff in C; destruct C as [ C | C ]); rewrite ?Z.eqb_eq, ?Z.leb_le in C; unfold BOUND_DICTIONARY in C; lia. }
  destruct (BOUND_DICTIONARY <=? c) eqn:B.
  { apply loud_push_segment. intros; exact I. }
  unfold control_code in C. rewrite B, orb_false_r in C.
  repeat (apply orb_true_iff in C; destruct C as [ C | C ]); rewrite Z.eqb_eq in C; subst c; cbn [exec_code].
  - discriminate.
  - contradiction N; reflexivity.
  - apply loud_pop. intros; exact I.
  - apply loud_pop. intros. destruct (_ =? _); [ exact I | ]. destruct (bytecode_get _ _); [ | exact I ]. apply loud_push_segment. intros; exact I.
  - unfold pop2_or_fail. destruct (stack_cannot_pop2 s); [ apply loud_fail; exact I | ]. unfold stack_pop2.
    destruct (stk s) as [ | a [ | b r ] ]; [ exact I | exact I | ]. destruct (_ =? _); [ apply loud_fail; exact I | ].
    unfold do_push. destruct (_ <? _); exact I.
  - unfold pop2_or_fail. destruct (stack_cannot_pop2 s); [ apply loud_fail; exact I | ]. unfold stack_pop2.
    destruct (stk s) as [ | a [ | b r ] ]; [ exact I | exact I | ]. destruct (_ =? _); [ apply loud_fail; exact I | ].
    unfold do_push. destruct (_ <? _); exact I.
  - exact I.
  - apply loud_pop. intros; exact I.
  - apply loud_pop. intros. destruct (_ =? _); [ exact I | ]. destruct (bytecode_get _ _); [ | exact I ]. apply loud_push_segment. intros; exact I.
  - unfold operand. destruct (bytecode_get m s); [ | exact I ]. destruct (_ && _); exact I.
Qed.

Lemma loud_advance : forall m s, loud (do_advance m s XNext).
Proof.
  intros m s. unfold do_advance. destruct (dos s) as [ | d r ]; [ exact I | ]. destruct (_ =? _); [ | exact I ].
  destruct (d_step d); [ apply loud_pop; intros | ]; destruct (fits _ _); exact I.
Qed.

Lemma end_loud : forall m s s', end_of_segment m s = TRet s' -> err s' <> e_none.
Proof.
  intros m s s' H. unfold end_of_segment, bytecodes_pointer_pop in H. destruct (frames s); [ discriminate H | ].
  pose proof (loud_advance m (set_frames l s)) as L.
  assert (NX : forall u, do_advance m (set_frames l s) XNext <> XExit u).
  { intros u. unfold do_advance. destruct (dos _) as [ | d r ]; [ discriminate | ]. destruct (_ =? _); [ | discriminate ].
    destruct (d_step d); [ unfold pop_or_fail, stack_pop; destruct (stack_cannot_pop _); [ discriminate | ]; destruct (stk _); [ discriminate | ] | ];
    destruct (fits _ _); discriminate. }
  destruct (do_advance m (set_frames l s) XNext) eqn:E; try discriminate H.
  - injection H as <-. exact L.
  - exfalso. eapply NX. reflexivity.
Qed.

(** a trip which is not a pause and returns: the program is at its end, or there is an error *)
Lemma tick_loud : forall m inner s s', at_pause m inner s = false -> tick m false 0 inner s = TRet s' ->
  (s' = s /\ depth s = 0) \/ err s' <> e_none.
Proof.
  intros m inner s s' P H. unfold tick in H.
  destruct (negb inner && (depth s =? 0)) eqn:D.
  { injection H as <-. left. split; [ reflexivity | ]. apply andb_true_iff in D. apply Z.eqb_eq, D. }
  right. unfold at_pause in P.
  replace (inner || negb (depth s =? 0)) with true in P by (destruct inner, (depth s =? 0); reflexivity || discriminate D).
  cbn [andb] in P. destruct (is_segment_done m s) as [ [ | ] | ]; [ eapply end_loud, H | | discriminate H ].
  cbn [andb] in P. unfold one_instruction in H. destruct (bytecode_get m s) as [ c | ]; [ | discriminate H ]. cbn zeta in H.
  assert (GO : forall t, c <> CODE_PAUSE -> match exec m false c t with XNext u => after_instruction m false u | XRet u => TRet u | XExit u => end_of_segment m u | XBad b => TBad b end = TRet s' -> err s' <> e_none).
  { intros t N E. pose proof (exec_loud m c t N) as L. destruct (exec m false c t); [ discriminate E | | eapply end_loud, E | discriminate E ].
    injection E as <-. exact L. }
  destruct (in_do s) as [ d | ].
  - destruct (Z.leb_spec (d_stop d) (d_i d)); [ discriminate H | ].
    rewrite (proj2 (Z.ltb_lt (d_i d) (d_stop d))), andb_true_r in P by lia. apply Z.eqb_neq in P. eapply GO; eassumption.
  - rewrite andb_true_r in P. apply Z.eqb_neq in P. eapply GO; eassumption.
Qed.

(** what tick does at a pause *)
Lemma tick_pause : forall m inner s, at_pause m inner s = true ->
  tick m false 0 inner s =
  match is_segment_done m (pass_pause s) with
  | Some false => TRet (pass_pause s)
  | Some true => match end_of_segment m (match in_do s with Some _ => s | None => where_add 1 s end) with
                 | TGo _ s => TRet (count_instr s)
                 | r => r
                 end
  | None => TBad Memory
  end.
Proof.
  intros m inner s P. unfold at_pause in P. apply andb_true_iff in P. destruct P as [ P Q ]. apply andb_true_iff in P. destruct P as [ P C ].
  apply andb_true_iff in P. destruct P as [ D E ].
  unfold tick. replace (negb inner && (depth s =? 0)) with false by (destruct inner, (depth s =? 0); reflexivity || discriminate D).
  destruct (is_segment_done m s) as [ [ | ] | ]; [ discriminate E | | discriminate E ].
  unfold one_instruction. destruct (bytecode_get m s) as [ c | ]; [ | discriminate C ]. cbn zeta. apply Z.eqb_eq in C. subst c.
  unfold pass_pause.
  assert (GO : forall t, match exec m false CODE_PAUSE t with XNext u => after_instruction m false u | XRet u => TRet u | XExit u => end_of_segment m u | XBad b => TBad b end
    = match is_segment_done m (count_instr t) with Some false => TRet (count_instr t)
      | Some true => match end_of_segment m t with TGo _ s => TRet (count_instr s) | r => r end | None => TBad Memory end).
  { intros t. cbn [exec CODE_PAUSE]. change (exec m false CODE_PAUSE t) with (exec_code m false 2 t). cbn [exec_code].
    change (is_segment_done m (count_instr t)) with (is_segment_done m t).
    destruct (is_segment_done m t) as [ [ | ] | ]; [ | reflexivity | reflexivity ].
    unfold end_of_segment, bytecodes_pointer_pop. destruct (frames t); [ reflexivity | ].
    unfold do_advance. destruct (dos _) as [ | d r ]; [ reflexivity | ]. destruct (d_depth d =? _); [ | reflexivity ].
    destruct (d_step d); [ unfold pop_or_fail, stack_pop; destruct (stack_cannot_pop _); [ reflexivity | ]; destruct (stk _); [ reflexivity | ] | ];
    destruct (fits _ _); reflexivity. }
  destruct (in_do s) as [ d | ]; [ | apply GO ].
  destruct (Z.leb_spec (d_stop d) (d_i d)); [ apply Z.ltb_lt in Q; lia | apply GO ].
Qed.

Lemma end_count : forall m s, match end_of_segment m s with
  | TGo i t => end_of_segment m (count_instr s) = TGo i (count_instr t)
  | TRet t => exists t', end_of_segment m (count_instr s) = TRet t' /\ uncounted t = uncounted t' /\ err t <> e_none
  | TBad b => end_of_segment m (count_instr s) = TBad b
  end.
Proof.
  intros m s. pose proof (end_loud m s) as L. unfold end_of_segment, bytecodes_pointer_pop in *.
  change (frames (count_instr s)) with (frames s). destruct (frames s); [ reflexivity | ].
  unfold do_advance in *. change (dos (set_frames l (count_instr s))) with (dos s) in *. change (dos (set_frames l s)) with (dos s) in *.
  change (depth (set_frames l (count_instr s))) with (depth (set_frames l s)).
  destruct (dos s) as [ | d r ]; [ reflexivity | ]. destruct (_ =? _); [ | reflexivity ].
  destruct (d_step d).
  - unfold pop_or_fail, stack_pop in *. change (stack_cannot_pop (set_frames l (count_instr s))) with (stack_cannot_pop (set_frames l s)).
    destruct (stack_cannot_pop (set_frames l s)).
    + eexists. split; [ reflexivity | ]. split; [ reflexivity | ]. apply (L _ eq_refl).
    + change (stk (set_frames l (count_instr s))) with (stk s). change (stk (set_frames l s)) with (stk s) in *.
      destruct (stk s); [ reflexivity | ]. destruct (fits _ _); reflexivity.
  - destruct (fits _ _); reflexivity.
Qed.

Lemma end_inner : forall m s i t, end_of_segment m s = TGo i t -> i = false.
Proof. intros m s i t H. unfold end_of_segment in H. destruct (bytecodes_pointer_pop _ _); congruence. Qed.

Lemma pass_depth : forall s, depth (pass_pause s) = depth s.
Proof. intros s. unfold pass_pause. destruct (in_do s); [ reflexivity | ]. apply (depth_where 1 s). Qed.
Lemma at_depth : forall m inner s, at_pause m inner s = true -> 1 <= depth s.
Proof.
  intros m inner s H. unfold at_pause in H. apply andb_true_iff in H. destruct H as [ H _ ]. apply andb_true_iff in H. destruct H as [ H _ ].
  apply andb_true_iff in H. destruct H as [ _ H ].
  unfold is_segment_done, which_where in H. unfold depth. destruct (frames s); [ discriminate H | ]. rewrite zlen_cons. pose proof (zlen_nonneg l). lia.
Qed.
Lemma pass_stays : forall s, loops_ok s -> stays s (pass_pause s).
Proof.
  intros s L. unfold pass_pause. destruct (in_do s); [ repeat split; assumption | ].
  destruct (stays_where 1 s L) as (A & B & C & D). repeat split; assumption.
Qed.

(** the flag only matters at depth 0 *)
Lemma tick_flag : forall m i j s, depth s <> 0 -> tick m false 0 i s = tick m false 0 j s.
Proof.
  intros m i j s D. unfold tick. apply Z.eqb_neq in D. rewrite D, !andb_false_r. reflexivity.
Qed.
Lemma at_flag : forall m i j s, depth s <> 0 -> at_pause m i s = at_pause m j s.
Proof. intros m i j s D. unfold at_pause. apply Z.eqb_neq in D. rewrite D. cbn [negb]. rewrite !orb_true_r. reflexivity. Qed.
Lemma through_flag : forall m n i j s, depth s <> 0 ->
  match trips_through m (S n) i s with TGo _ _ => True | r => trips_through m (S n) j s = r end.
Proof.
  intros m n i j s D. cbn [trips_through]. rewrite (at_flag m i j s D), (tick_flag m i j s D).
  destruct (if at_pause m j s then _ else _); [ destruct (trips_through m n inner s0); auto | reflexivity | reflexivity ].
Qed.

Lemma end_stays : forall m s0 s i t, stays s0 s -> end_of_segment m s = TGo i t -> stays s0 t.
Proof.
  intros m s0 s i t S H. unfold end_of_segment in H.
  pose proof (pop_good s s0 (fun s => do_advance m s XNext) S) as P.
  destruct (bytecodes_pointer_pop s _); try discriminate H. injection H as <- <-. apply P.
  intros u U. apply do_advance_good; [ exact U | intros; assumption ].
Qed.

Definition stops (r : tres) : Prop := match r with TGo _ _ => False | _ => True end.
Definition result (r : tres) : ares := match r with TRet s => pop_target s | TBad b => ABad b | TGo _ _ => ABad Hang end.

Definition sane (s : state) : Prop := loops_ok s /\ targets s = [0] /\ ready s = true /\ err s = e_none.
Lemma sane_stays : forall s t, sane s -> stays s t -> sane t.
Proof. intros s t (A & B & C & D) (A' & B' & C' & D'). repeat split; congruence || assumption. Qed.

Lemma through_plus : forall m n1 n2 inner s,
  trips_through m (n1 + n2) inner s = match trips_through m n1 inner s with TGo i t => trips_through m n2 i t | r => r end.
Proof.
  induction n1 as [ | n1 IH ]; intros n2 inner s; [ reflexivity | ]. cbn [Nat.add trips_through].
  destruct (if at_pause m inner s then _ else _); [ apply IH | reflexivity | reflexivity ].
Qed.

Lemma same_refl : forall r, same_result r r.
Proof. intros [ e s | b ]; cbn; auto. Qed.

Lemma pop_same : forall s s', uncounted s = uncounted s' -> same_result (pop_target s) (pop_target s').
Proof.
  intros s s' E. unfold uncounted in E. injection E as E1 E2 E3 E4 E5 E6 E7 E8 E9 E10 E11.
  unfold pop_target, depth. rewrite E7, E6. destruct (targets s') eqn:T; [ reflexivity | ].
  destruct (_ =? _); cbn; (split; [ congruence | ]); unfold uncounted; cbn; congruence.
Qed.

(** one call of internal_run *)
Lemma trips_cases : forall m fuel inner s R, sane s -> trips m false 0 fuel inner s = R -> stops R ->
  (exists n R', trips_through m n inner s = R' /\ stops R' /\ same_result (result R) (result R') /\
     (forall t, R = TRet t -> depth t = 0 \/ err t <> e_none))
  \/ (exists n i t, R = TRet t /\ trips_through m n inner s = TGo i t /\ sane t /\ (i = false \/ depth t <> 0)).
Proof.
  intros m fuel. induction fuel as [ | fuel IH ]; intros inner s R S H St; [ subst R; contradiction St | ].
  cbn [trips] in H. destruct (at_pause m inner s) eqn:P.
  - rewrite (tick_pause m inner s P) in H. pose proof (at_depth m inner s P) as D.
    pose proof (pass_stays s (proj1 S)) as PS.
    destruct (is_segment_done m (pass_pause s)) as [ [ | ] | ] eqn:SD.
    + set (s1 := match in_do s with Some _ => s | None => where_add 1 s end) in *.
      assert (PE : pass_pause s = count_instr s1) by reflexivity.
      pose proof (end_count m s1) as EC. pose proof (end_inner m s1) as EI.
      assert (T2 : trips_through m 2 inner s = end_of_segment m (count_instr s1)).
      { cbn [trips_through]. rewrite P. rewrite PE in *.
        assert (at_pause m true (count_instr s1) = false) as ->.
        { unfold at_pause. rewrite SD. reflexivity. }
        unfold tick. cbn [negb andb]. rewrite SD. destruct (end_of_segment m (count_instr s1)); reflexivity. }
      destruct (end_of_segment m s1) as [ i t | t | b ] eqn:E1; subst R.
      * right. exists 2%nat, i, (count_instr t). split; [ reflexivity | ].
        split; [ rewrite T2, EC; reflexivity | ]. split; [ | left; eapply EI; reflexivity ].
        apply (sane_stays s); [ exact S | ]. refine (end_stays m s (count_instr s1) i _ _ EC). exact PS.
      * left. destruct EC as (t' & E' & U & N). exists 2%nat, (TRet t'). rewrite T2, E'. split; [ reflexivity | ]. split; [ exact I | ].
        split; [ apply pop_same, U | ]. intros x X. injection X as <-. auto.
      * left. exists 2%nat, (TBad b). rewrite T2, EC. split; [ reflexivity | ]. split; [ exact I | ]. split; [ reflexivity | discriminate ].
    + subst R. right. exists 1%nat, true, (pass_pause s). split; [ reflexivity | ]. cbn [trips_through]. rewrite P. split; [ reflexivity | ].
      split; [ eapply sane_stays; eassumption | ]. right. rewrite pass_depth. lia.
    + subst R. exfalso. unfold at_pause in P. rewrite !andb_true_iff in P. destruct P as (((_ & P) & _) & _).
      unfold is_segment_done, seg_len, which_where, pass_pause in SD, P. 
      destruct (frames s) as [ | [ w p ] r ] eqn:F; [ discriminate P | ].
      assert (exists q, frames (count_instr (match in_do s with Some _ => s | None => where_add 1 s end)) = (w, q) :: r) as (q & Fq).
      { destruct (in_do s); [ exists p; exact F | exists (p + 1); cbn; unfold where_add; rewrite F; reflexivity ]. }
      rewrite Fq in SD. destruct (nthZ (m_offs m) w); [ | discriminate P ]. destruct (nthZ (m_offs m) (w + 1)); [ discriminate SD | discriminate P ].
  - pose proof (tick_good m false 0 inner s (proj1 S)) as G.
    destruct (tick m false 0 inner s) as [ i t | t | b ] eqn:E.
    + destruct (IH i t R (sane_stays s t S G) H St) as [ (n & R' & A & B & C & D) | (n & j & u & A & B & C & D) ].
      * left. exists (Datatypes.S n), R'. cbn [trips_through]. rewrite P, E. auto.
      * right. exists (Datatypes.S n), j, u. cbn [trips_through]. rewrite P, E. auto.
    + subst R. left. exists 1%nat, (TRet t). cbn [trips_through]. rewrite P, E. split; [ reflexivity | ]. split; [ exact I | ].
      split; [ apply same_refl | ]. intros u X. injection X as <-. destruct (tick_loud m inner s t P E) as [ (-> & D) | D ]; auto.
    + subst R. left. exists 1%nat, (TBad b). cbn [trips_through]. rewrite P, E. split; [ reflexivity | ]. split; [ exact I | ].
      split; [ reflexivity | discriminate ].
Qed.

Lemma resumed_bad_inv : forall m b r, resumed m (ABad b) r -> r = ABad b.
Proof. intros m b r H. inversion H. reflexivity. Qed.

(** a whole session of resumes *)
Lemma session_through : forall m r1 r, resumed m r1 r -> forall fuel inner s, sane s ->
  forall R, trips m false 0 fuel inner s = R -> stops R -> r1 = result R ->
  exists n R', trips_through m n inner s = R' /\ stops R' /\ same_result r (result R').
Proof.
  intros m r1 r H. induction H as [ e s0 E | s0 E | b | s0 fuel' r1 r' E HR _ IH ]; intros fuel inner s S R HT St HE.
  - destruct (trips_cases m fuel inner s R S HT St) as [ (n & R' & A & B & C & D) | (n & i & t & A & B & C & D) ].
    + exists n, R'. rewrite HE. auto.
    + rewrite A in HE. cbn in HE. unfold pop_target in HE. destruct C as (_ & C1 & _ & C2). rewrite C1 in HE. destruct (depth t =? 0); injection HE as -> _; cbn in E; congruence.
  - destruct (trips_cases m fuel inner s R S HT St) as [ (n & R' & A & B & C & D) | (n & i & t & A & B & C & D) ].
    + exists n, R'. rewrite HE. auto.
    + rewrite A in HE. cbn in HE. pose proof HE as HE'. unfold pop_target in HE. destruct C as (C0 & C1 & C3 & C2). rewrite C1 in HE.
      destruct (Z.eqb_spec (depth t) 0) as [ D0 | N ].
      * assert (i = false) as -> by (destruct D as [ D | D ]; [ exact D | congruence ]).
        exists (n + 1)%nat, (TRet t). rewrite through_plus, B. cbn [trips_through]. unfold at_pause. cbn [orb].
        unfold tick. rewrite D0. cbn. split; [ reflexivity | ]. split; [ exact I | ]. rewrite <- HE'. split; reflexivity.
      * injection HE as _ <-. unfold is_done in E. rewrite C1 in E. discriminate E.
  - destruct (trips_cases m fuel inner s R S HT St) as [ (n & R' & A & B & C & D) | (n & i & t & A & B & C & D) ].
    + exists n, R'. rewrite HE. auto.
    + rewrite A in HE. cbn in HE. unfold pop_target in HE. destruct C as (_ & C1 & _ & C2). rewrite C1 in HE. discriminate HE.
  - destruct (trips_cases m fuel inner s R S HT St) as [ (n & R' & A & B & C & D) | (n & i & t & A & B & C & D) ].
    + (* not a pause: then it was the end *)
      exfalso. destruct R as [ | t | ]; [ contradiction St | | discriminate HE ]. specialize (D t eq_refl).
      pose proof (trips_good m false 0 fuel inner s (proj1 S)) as G. rewrite HT in G. cbn in G. cbn [result] in HE.
      unfold pop_target in HE. destruct S as (S0 & S1 & S2 & S3).
      destruct G as [ (G1 & G2 & G3 & G4) | [ (G1 & G2 & G3 & G4 & G5) | (G1 & G2 & G3) ] ].
      * destruct D as [ D | D ]; [ | congruence ]. rewrite G1, S1, D in HE. cbn in HE. injection HE as HE1 ->. discriminate E.
      * rewrite G1, S1 in HE. destruct (depth t =? 0); injection HE as HE1 _; cbn in HE1; rewrite <- HE1 in G3; contradiction G3.
      * rewrite G3, S1 in HE. cbn in HE. destruct (depth t =? 0); injection HE as HE1 _; cbn in HE1; congruence.
    + rewrite A in HE. cbn in HE. unfold pop_target in HE. pose proof C as (C0 & C1 & C3 & C2). rewrite C1 in HE.
      destruct (Z.eqb_spec (depth t) 0) as [ D0 | N ]; injection HE as _ ->; [ discriminate E | ].
      unfold resume_, step_or_resume in HR. rewrite C3, C1, C2 in HR. cbn in HR. unfold internal_run in HR.
      destruct (trips m false 0 fuel' false t) as [ | u | b ] eqn:T; [ discriminate HR | | ].
      * injection HR as <-. destruct (IH fuel' false t C (TRet u) T I eq_refl) as (n' & R' & X & Y & Z).
        exists (n + n')%nat, R'. rewrite through_plus, B. split; [ | auto ].
        destruct n' as [ | n' ]; [ cbn in X; subst R'; contradiction Y | ].
        pose proof (through_flag m n' false i t N) as F. rewrite X in F. destruct R'; [ contradiction Y | exact F | exact F ].
      * injection HR as <-. destruct (IH fuel' false t C (TBad b) T I eq_refl) as (n' & R' & X & Y & Z).
        exists (n + n')%nat, R'. rewrite through_plus, B. split; [ | auto ].
        destruct n' as [ | n' ]; [ cbn in X; subst R'; contradiction Y | ].
        pose proof (through_flag m n' false i t N) as F. rewrite X in F. destruct R'; [ contradiction Y | exact F | exact F ].
Qed.

Lemma trips_flag : forall m n i j s R, depth s <> 0 -> trips m false 0 n i s = R -> stops R -> trips m false 0 n j s = R.
Proof.
  intros m [ | n ] i j s R D H St; [ subst R; contradiction St | ]. cbn [trips] in *. rewrite (tick_flag m j i s D). exact H.
Qed.

Lemma resumed_final : forall m t, targets t <> [] -> (depth t = 0 /\ targets t = [0] \/ err t <> e_none) ->
  resumed m (pop_target t) (pop_target t).
Proof.
  intros m t N H. unfold pop_target. destruct (targets t) as [ | x r ] eqn:T; [ contradiction N; reflexivity | ].
  set (u := if depth t =? x then set_targets r t else t).
  assert (Eu : err u = err t) by (unfold u; destruct (_ =? _); reflexivity). rewrite Eu.
  destruct H as [ (D & X) | H ]; [ | apply resumed_error, H ].
  injection X as -> ->. unfold u. rewrite D. cbn.
  destruct (err t) eqn:E; try (apply resumed_error; discriminate). apply resumed_done. reflexivity.
Qed.

Lemma resume_step : forall m t fuel R r, sane t -> depth t <> 0 -> trips m false 0 fuel false t = R -> stops R ->
  resumed m (result R) r -> resumed m (pop_target t) r.
Proof.
  intros m t fuel R r (C0 & C1 & C3 & C2) N T St H. unfold pop_target. rewrite C1. apply Z.eqb_neq in N. rewrite N, C2.
  apply (resumed_again m t fuel (result R)); [ unfold is_done; rewrite C1; reflexivity | | exact H ].
  unfold resume_, step_or_resume. rewrite C3, C1, C2. cbn. unfold internal_run. rewrite T.
  destruct R; [ contradiction St | reflexivity | reflexivity ].
Qed.

Lemma through_session : forall m n inner s R', sane s -> trips_through m n inner s = R' -> stops R' ->
  exists fuel R r, trips m false 0 fuel inner s = R /\ stops R /\ resumed m (result R) r /\ same_result r (result R').
Proof.
  intros m n. induction n as [ n IH ] using lt_wf_ind. intros inner s R' S H St.
  destruct n as [ | n ]; [ subst R'; contradiction St | ]. cbn [trips_through] in H.
  destruct (at_pause m inner s) eqn:P.
  - pose proof (tick_pause m inner s P) as TP. pose proof (at_depth m inner s P) as D.
    pose proof (pass_stays s (proj1 S)) as PS. pose proof (sane_stays _ _ S PS) as Sp.
    destruct (is_segment_done m (pass_pause s)) as [ [ | ] | ] eqn:SD.
    + set (s1 := match in_do s with Some _ => s | None => where_add 1 s end) in *.
      assert (PE : pass_pause s = count_instr s1) by reflexivity.
      pose proof (end_count m s1) as EC.
      destruct n as [ | n ]; [ cbn in H; subst R'; contradiction St | ]. cbn [trips_through] in H.
      assert (at_pause m true (pass_pause s) = false) as X by (unfold at_pause; rewrite SD; reflexivity).
      rewrite X in H. unfold tick in H. cbn [negb andb] in H. rewrite SD in H. rewrite PE in H.
      destruct (end_of_segment m s1) as [ i t | t | b ] eqn:E1.
      * rewrite EC in H. pose proof (end_inner m s1 i t E1) as ->.
        assert (St' : sane (count_instr t)).
        { apply (sane_stays s); [ exact S | ]. refine (end_stays m s (count_instr s1) false _ _ EC). exact PS. }
        destruct (Z.eq_dec (depth (count_instr t)) 0) as [ D0 | D0 ].
        -- destruct n as [ | n ]; [ cbn in H; subst R'; contradiction St | ]. cbn [trips_through] in H.
           assert (at_pause m false (count_instr t) = false) as Y by (unfold at_pause; rewrite D0; reflexivity).
           rewrite Y in H. unfold tick in H. rewrite D0 in H. cbn in H. subst R'.
           exists 1%nat, (TRet (count_instr t)), (pop_target (count_instr t)). cbn [trips]. rewrite TP. split; [ reflexivity | ]. split; [ exact I | ].
           split; [ | apply same_refl ]. apply resumed_final; [ | left ]; destruct St' as (_ & T & _); rewrite T; [ discriminate | auto ].
        -- destruct (IH n ltac:(lia) false (count_instr t) R' St' H St) as (fuel & R & r & A & B & C & E).
           exists 1%nat, (TRet (count_instr t)), r. cbn [trips]. rewrite TP. split; [ reflexivity | ]. split; [ exact I | ].
           split; [ | exact E ]. cbn [result]. eapply resume_step; eassumption.
      * destruct EC as (t' & EC & U & N). rewrite EC in H. subst R'.
        exists 1%nat, (TRet t), (pop_target t). cbn [trips]. rewrite TP. split; [ reflexivity | ]. split; [ exact I | ].
        split; [ | apply pop_same, U ]. cbn [result]. apply resumed_final; [ | auto ].
        pose proof (tick_good m false 0 inner s (proj1 S)) as G. rewrite TP in G. cbn in G. destruct S as (_ & S1 & _ & S3).
        destruct G as [ (G1 & _) | [ (G1 & _) | (_ & _ & G1) ] ]; rewrite G1, S1; discriminate.
      * rewrite EC in H. subst R'. exists 1%nat, (TBad b), (ABad b). cbn [trips]. rewrite TP. split; [ reflexivity | ]. split; [ exact I | ].
        split; [ apply resumed_bad | reflexivity ].
    + destruct (IH n ltac:(lia) true (pass_pause s) R' Sp H St) as (fuel & R & r & A & B & C & E).
      exists 1%nat, (TRet (pass_pause s)), r. cbn [trips]. rewrite TP. split; [ reflexivity | ]. split; [ exact I | ].
      split; [ | exact E ]. cbn [result].
      assert (Dp : depth (pass_pause s) <> 0) by (rewrite pass_depth; lia).
      eapply resume_step; [ exact Sp | exact Dp | eapply trips_flag; [ exact Dp | exact A | exact B ] | exact B | exact C ].
    + exists 1%nat, (TBad Memory), (ABad Memory). cbn [trips]. rewrite TP. split; [ reflexivity | ]. split; [ exact I | ].
      split; [ apply resumed_bad | ].
      exfalso. unfold at_pause in P. rewrite !andb_true_iff in P. destruct P as (((_ & P) & _) & _).
      unfold is_segment_done, seg_len, which_where, pass_pause in SD, P.
      destruct (frames s) as [ | [ w p ] r ] eqn:F; [ discriminate P | ].
      assert (exists q, frames (count_instr (match in_do s with Some _ => s | None => where_add 1 s end)) = (w, q) :: r) as (q & Fq).
      { destruct (in_do s); [ exists p; exact F | exists (p + 1); cbn; unfold where_add; rewrite F; reflexivity ]. }
      rewrite Fq in SD. destruct (nthZ (m_offs m) w); [ | discriminate P ]. destruct (nthZ (m_offs m) (w + 1)); [ discriminate SD | discriminate P ].
  - pose proof (tick_good m false 0 inner s (proj1 S)) as G.
    destruct (tick m false 0 inner s) as [ i t | t | b ] eqn:E.
    + destruct (IH n ltac:(lia) i t R' (sane_stays s t S G) H St) as (fuel & R & r & A & B & C).
      exists (Datatypes.S fuel), R, r. cbn [trips]. rewrite E. auto.
    + subst R'. exists 1%nat, (TRet t), (pop_target t). cbn [trips]. rewrite E. split; [ reflexivity | ]. split; [ exact I | ].
      split; [ | apply same_refl ]. cbn [result]. destruct S as (_ & S1 & _ & S3).
      assert (NT : targets t <> []). { cbn in G. destruct G as [ (G1 & _) | [ (G1 & _) | (_ & _ & G1) ] ]; rewrite G1, S1; discriminate. }
      apply resumed_final; [ exact NT | ]. destruct (tick_loud m inner s t P E) as [ (-> & D) | D ]; auto.
    + subst R'. exists 1%nat, (TBad b), (ABad b). cbn [trips]. rewrite E. split; [ reflexivity | ]. split; [ exact I | ].
      split; [ apply resumed_bad | reflexivity ].
Qed.

Lemma begin_sane : forall m inputs s, sane (begin_ m inputs s).
Proof. intros. repeat split. constructor. Qed.
