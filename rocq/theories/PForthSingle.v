(** Single steps of the Forth machine, for executions without do and exit *)
From Verif Require Import Base BaseLemmas Forth SpecForthRun PForthRun PForthStep PForthCtl PForthPause.
Local Open Scope list_scope.
Local Open Scope Z_scope.

Lemma advance_none : forall m s f, dos s = [] -> do_advance m s f = f s.
Proof. intros m s f H. unfold do_advance. rewrite H. reflexivity. Qed.

Lemma end_none : forall m s, dos s = [] -> end_of_segment m s = match frames s with _ :: r => TGo false (set_frames r s) | [] => TBad Memory end.
Proof.
  intros m s H. unfold end_of_segment, bytecodes_pointer_pop. destruct (frames s); [ reflexivity | ].
  rewrite advance_none by exact H. reflexivity.
Qed.

Lemma exec_single : forall m c s, c <> CODE_EXIT -> exec m true c s = exec m false c s.
Proof.
  intros m c s N. unfold exec. destruct (c <? 0); [ reflexivity | ]. destruct (BOUND_DICTIONARY <=? c); [ reflexivity | ].
  unfold exec_code. destruct c as [ | p | p ]; [ reflexivity | | reflexivity ].
  repeat (destruct p as [ p | p | ]; try reflexivity). contradiction N; reflexivity.
Qed.

(** no do: the loop stack stays empty; no exit: no XExit *)
Definition quiet (r : xres) : Prop :=
  match r with XNext s' => dos s' = [] | XRet s' => dos s' = [] | XExit _ => False | XBad _ => True end.

Lemma quiet_pop : forall s f, dos s = [] -> (forall x t, dos t = [] -> quiet (f x t)) -> quiet (pop_or_fail s f).
Proof.
  intros s f D H. unfold pop_or_fail. destruct (stack_cannot_pop s); [ exact D | ].
  unfold stack_pop. destruct (stk s); [ exact I | apply H; exact D ].
Qed.
Lemma quiet_push_segment : forall m w s f, dos s = [] -> (forall t, dos t = [] -> quiet (f t)) -> quiet (push_segment_or_fail m w s f).
Proof.
  intros m w s f D H. unfold push_segment_or_fail. destruct (_ =? _); [ exact D | ].
  unfold bytecodes_pointer_push. destruct (_ <? _); [ apply H; exact D | exact I ].
Qed.

Lemma exec_quiet : forall m c s, c <> CODE_DO -> c <> CODE_DO_STEP -> c <> CODE_EXIT -> dos s = [] -> quiet (exec m false c s).
Proof.
  intros m c s N1 N2 N3 D.
  assert (W : forall k t, dos t = [] -> dos (where_add k t) = []) by (intros; rewrite dos_where; assumption).
  destruct (control_code c) eqn:C.
  2:{ pose proof (exec_data m false c s C) as E. destruct (exec m false c s); cbn in *; try exact I; try contradiction.
      - unfold ctl in E. injection E as _ _ E _ _. rewrite E, dos_where. exact D.
      - destruct E as (_ & j & _ & E). unfold ctl in E. cbn in E. injection E as _ _ E _. rewrite E, dos_where. exact D. }
  unfold exec. destruct (Z.ltb_spec c 0). { unfold control_code in C.
    repeat (apply orb_true_iff in C; destruct C as [ C | C ]); rewrite ?Z.eqb_eq, ?Z.leb_le in C; unfold BOUND_DICTIONARY in C; lia. }
  destruct (BOUND_DICTIONARY <=? c) eqn:B.
  { apply quiet_push_segment; [ exact D | ]. intros; assumption. }
  unfold control_code in C. rewrite B, orb_false_r in C.
  repeat (apply orb_true_iff in C; destruct C as [ C | C ]); rewrite Z.eqb_eq in C; subst c; cbn [exec_code];
    try solve [ exfalso; (apply N1 + apply N2 + apply N3); reflexivity ].
  - reflexivity.
  - destruct (is_segment_done m s) as [ [ | ] | ]; [ | exact D | exact I ]. unfold bytecodes_pointer_pop. destruct (frames s); [ exact I | ].
    rewrite advance_none by exact D. exact D.
  - apply quiet_pop; [ exact D | ]. intros x t Dt. destruct (_ =? _); [ apply W, Dt | exact Dt ].
  - apply quiet_pop; [ exact D | ]. intros x t Dt. destruct (_ =? _); [ apply W, Dt | ].
    destruct (bytecode_get _ _); [ | exact I ]. apply quiet_push_segment; [ apply W, Dt | ]. intros; assumption.
  - apply W, D.
  - apply quiet_pop; [ exact D | ]. intros x t Dt. destruct (_ =? _); [ apply W, Dt | exact Dt ].
  - apply quiet_pop; [ exact D | ]. intros x t Dt. destruct (_ =? _); [ apply W, Dt | ].
    destruct (bytecode_get _ _); [ | exact I ]. apply quiet_push_segment; [ apply W, Dt | ]. intros; assumption.
Qed.

(** what a trip of run and a trip of step do, with no loop under way and an instruction other than do and exit *)
Definition pop_frame (s : state) : tres := match frames s with _ :: r => TGo false (set_frames r s) | [] => TBad Memory end.

Lemma through_tick : forall m inner s, dos s = [] -> next_is_plain m s ->
  (if at_pause m inner s then TGo true (pass_pause s) else tick m false 0 inner s) =
  if negb inner && (depth s =? 0) then TRet s
  else match is_segment_done m s with
       | None => TBad Memory
       | Some true => pop_frame s
       | Some false =>
           match bytecode_get m s with
           | None => TBad Memory
           | Some c => if c =? CODE_PAUSE then TGo true (count_instr (where_add 1 s))
                       else match exec m false c (where_add 1 s) with
                            | XNext u => TGo true (count_instr u)
                            | XRet u => TRet u
                            | XExit u => TRet u
                            | XBad b => TBad b
                            end
           end
       end.
Proof.
  intros m inner s D P. unfold at_pause, pass_pause, next_is_plain, tick, one_instruction, in_do in *. rewrite D.
  replace (negb inner && (depth s =? 0)) with (negb (inner || negb (depth s =? 0))) by (destruct inner, (depth s =? 0); reflexivity).
  destruct (inner || negb (depth s =? 0)); cbn [negb andb]; [ | reflexivity ].
  destruct (is_segment_done m s) as [ [ | ] | ]; cbn [andb]; [ apply end_none, D | | reflexivity ].
  specialize (P eq_refl). destruct (bytecode_get m s) as [ c | ]; [ | reflexivity ].
  rewrite andb_true_r. destruct (c =? CODE_PAUSE) eqn:E; [ reflexivity | ]. cbn zeta.
  destruct P as (P1 & P2 & P3). pose proof (exec_quiet m c (where_add 1 s) P1 P2 P3) as Q. rewrite dos_where in Q. specialize (Q D).
  destruct (exec m false c (where_add 1 s)); try reflexivity. contradiction Q.
Qed.

Lemma single_tick : forall m s, dos s = [] -> next_is_plain m s ->
  tick m true 0 false s =
  if depth s =? 0 then TRet s
  else match is_segment_done m s with
       | None => TBad Memory
       | Some true => pop_frame s
       | Some false =>
           match bytecode_get m s with
           | None => TBad Memory
           | Some c => 
               let after u := match is_segment_done m u with
                                | None => TBad Memory
                                | Some false => TRet u
                                | Some true => match pop_frame u with TGo _ s => TRet s | r => r end
                                end in
               if c =? CODE_PAUSE then after (count_instr (where_add 1 s))
               else match exec m false c (where_add 1 s) with
                            | XNext u => after (count_instr u)
                            | XRet u => TRet u
                            | XExit u => TRet u
                            | XBad b => TBad b
                            end
           end
       end.
Proof.
  intros m s D P. unfold next_is_plain, tick, one_instruction, in_do in *. rewrite D. cbn [negb andb].
  destruct (depth s =? 0); [ reflexivity | ].
  destruct (is_segment_done m s) as [ [ | ] | ]; [ apply end_none, D | | reflexivity ].
  specialize (P eq_refl). destruct (bytecode_get m s) as [ c | ]; [ | reflexivity ]. cbn zeta.
  destruct P as (P1 & P2 & P3). rewrite exec_single by exact P3.
  destruct (Z.eqb_spec c CODE_PAUSE) as [ -> | N ].
  - change (exec m false CODE_PAUSE (where_add 1 s)) with (exec_code m false 2 (where_add 1 s)). cbn [exec_code].
    change (is_segment_done m (count_instr (where_add 1 s))) with (is_segment_done m (where_add 1 s)).
    destruct (is_segment_done m (where_add 1 s)) as [ [ | ] | ]; [ | reflexivity | reflexivity ].
    unfold bytecodes_pointer_pop, pop_frame. change (frames (count_instr (where_add 1 s))) with (frames (where_add 1 s)).
    destruct (frames (where_add 1 s)); [ reflexivity | ]. rewrite advance_none; [ reflexivity | ]. cbn. rewrite dos_where. exact D.
  - pose proof (exec_quiet m c (where_add 1 s) P1 P2 P3) as Q. rewrite dos_where in Q. specialize (Q D).
    destruct (exec m false c (where_add 1 s)) as [ u | u | u | b ]; [ | reflexivity | contradiction Q | reflexivity ].
    unfold after_instruction, bytecodes_pointer_pop, pop_frame. destruct (is_segment_done m (count_instr u)) as [ [ | ] | ]; [ | reflexivity | reflexivity ].
    destruct (frames (count_instr u)); reflexivity.
Qed.

Lemma done_depth : forall m s b, is_segment_done m s = Some b -> depth s <> 0.
Proof.
  intros m s b H. unfold is_segment_done, which_where in H. unfold depth. destruct (frames s); [ discriminate H | ].
  rewrite zlen_cons. pose proof (zlen_nonneg l). lia.
Qed.

Lemma plain_flag : forall m n i j s, depth s <> 0 -> plain_for m n i s -> plain_for m n j s.
Proof. intros m [ | n ] i j s D H; [ exact I | ]. cbn [plain_for] in *. rewrite (at_flag m j i s D), (tick_flag m j i s D). exact H. Qed.

Definition easy (s : state) : Prop := sane s /\ dos s = [].

Lemma stepped_final : forall m t, targets t <> [] -> (depth t = 0 /\ targets t = [0] \/ err t <> e_none) ->
  stepped m (pop_target t) (pop_target t).
Proof.
  intros m t N H. unfold pop_target. destruct (targets t) as [ | x r ] eqn:T; [ contradiction N; reflexivity | ].
  set (u := if depth t =? x then set_targets r t else t).
  assert (Eu : err u = err t) by (unfold u; destruct (_ =? _); reflexivity). rewrite Eu.
  destruct H as [ (D & X) | H ]; [ | apply stepped_error, H ].
  injection X as -> ->. unfold u. rewrite D. cbn.
  destruct (err t) eqn:E; try (apply stepped_error; discriminate). apply stepped_done. reflexivity.
Qed.

Lemma step_step : forall m t fuel R r, sane t -> depth t <> 0 -> trips m true 0 fuel false t = R -> stops R ->
  stepped m (result R) r -> stepped m (pop_target t) r.
Proof.
  intros m t fuel R r (C0 & C1 & C3 & C2) N T St H. unfold pop_target. rewrite C1. apply Z.eqb_neq in N. rewrite N, C2.
  apply (stepped_again m t fuel (result R)); [ unfold is_done; rewrite C1; reflexivity | | exact H ].
  unfold step_, step_or_resume. rewrite C3, C1, C2. cbn. unfold internal_run. rewrite T.
  destruct R; [ contradiction St | reflexivity | reflexivity ].
Qed.

Lemma next_easy : forall m s c u, easy s -> 1 <= depth s -> c <> CODE_DO -> c <> CODE_DO_STEP -> c <> CODE_EXIT ->
  exec m false c (where_add 1 s) = XNext u -> easy (count_instr u).
Proof.
  intros m s c u (S & D) Dp N1 N2 N3 H.
  pose proof (exec_quiet m c (where_add 1 s) N1 N2 N3 ltac:(rewrite dos_where; exact D)) as Q. rewrite H in Q.
  pose proof (exec_good m false c (where_add 1 s)) as G. rewrite H in G.
  split; [ | exact Q ]. apply (sane_stays s); [ exact S | ]. destruct S as (S1 & _).
  specialize (G (proj2 (proj2 (proj2 (stays_where 1 s S1)))) ltac:(rewrite depth_where; exact Dp)).
  pose proof (stays_trans s _ u (stays_where 1 s S1) G) as (A & B & C & E). repeat split; assumption.
Qed.

Lemma pop_easy : forall s r, easy s -> easy (set_frames r s).
Proof. intros s r ((A & B & C & D) & E). split; [ repeat split; assumption | exact E ]. Qed.

Lemma through_steps : forall m n s R', easy s -> trips_through m n false s = R' -> stops R' -> plain_for m n false s ->
  exists fuel R, trips m true 0 fuel false s = R /\ stops R /\ stepped m (result R) (result R').
Proof.
  intros m n. induction n as [ n IH ] using lt_wf_ind. intros s R' S H St P.
  destruct n as [ | n ]; [ subst R'; contradiction St | ]. cbn [trips_through plain_for] in H, P. destruct P as (Pn & P).
  pose proof (proj2 S) as D. pose proof (proj1 S) as (L & T & R & E).
  pose proof (through_tick m false s D Pn) as TT. pose proof (single_tick m s D Pn) as ST. cbn [negb andb] in TT.
  destruct (depth s =? 0) eqn:D0.
  { rewrite TT in H. subst R'. exists 1%nat, (TRet s). cbn [trips]. rewrite ST. split; [ reflexivity | ]. split; [ exact I | ].
    cbn [result]. apply stepped_final; [ rewrite T; discriminate | left; split; [ apply Z.eqb_eq, D0 | exact T ] ]. }
  apply Z.eqb_neq in D0.
  destruct (is_segment_done m s) as [ [ | ] | ] eqn:SD.
  { unfold pop_frame in *. destruct (frames s) as [ | f r ] eqn:F.
    - rewrite TT in H. subst R'. exists 1%nat, (TBad Memory). cbn [trips]. rewrite ST. split; [ reflexivity | ]. split; [ exact I | apply stepped_bad ].
    - rewrite TT in H, P. destruct (IH n ltac:(lia) _ R' (pop_easy s r S) H St P) as (fuel & R0 & A & B & C).
      exists (Datatypes.S fuel), R0. cbn [trips]. rewrite ST. auto. }
  2:{ rewrite TT in H. subst R'. exists 1%nat, (TBad Memory). cbn [trips]. rewrite ST. split; [ reflexivity | ]. split; [ exact I | apply stepped_bad ]. }
  assert (Dp : 1 <= depth s) by (pose proof (zlen_nonneg (frames s)); unfold depth in *; lia).
  destruct (bytecode_get m s) as [ c | ] eqn:BC.
  2:{ rewrite TT in H. subst R'. exists 1%nat, (TBad Memory). cbn [trips]. rewrite ST. split; [ reflexivity | ]. split; [ exact I | apply stepped_bad ]. }
  pose proof (Pn SD) as Pc. rewrite BC in Pc. destruct Pc as (N1 & N2 & N3). cbn zeta in ST.
  (* one instruction done, leading to v *)
  assert (GO : forall v, easy v -> 
     trips_through m n true v = R' -> plain_for m n true v ->
     tick m true 0 false s = match is_segment_done m v with None => TBad Memory | Some false => TRet v
                             | Some true => match pop_frame v with TGo _ s => TRet s | r => r end end ->
     exists fuel R, trips m true 0 fuel false s = R /\ stops R /\ stepped m (result R) (result R')).
  { clear H P TT ST. intros v Ev Hv Pv Tv. destruct n as [ | n ]; [ cbn in Hv; rewrite <- Hv in St; contradiction St | ].
    assert (Nv : next_is_plain m v) by (cbn [plain_for] in Pv; apply Pv).
    pose proof (through_tick m true v (proj2 Ev) Nv) as TV. cbn [negb andb] in TV.
    destruct (is_segment_done m v) as [ [ | ] | ] eqn:SV.
    - cbn [trips_through plain_for] in Hv, Pv. rewrite TV in Hv, Pv. destruct Pv as (_ & Pv).
      unfold pop_frame in *. destruct (frames v) as [ | f r ] eqn:F.
      + subst R'. exists 1%nat, (TBad Memory). cbn [trips]. rewrite Tv. split; [ reflexivity | ]. split; [ exact I | apply stepped_bad ].
      + pose proof (pop_easy v r Ev) as Ep.
        destruct (Z.eq_dec (depth (set_frames r v)) 0) as [ Z0 | Z0 ].
        * destruct n as [ | n ]; [ cbn in Hv; rewrite <- Hv in St; contradiction St | ]. cbn [trips_through plain_for] in Hv, Pv.
          rewrite (through_tick m false _ (proj2 Ep) (proj1 Pv)) in Hv. rewrite Z0 in Hv. cbn in Hv. subst R'.
          exists 1%nat, (TRet (set_frames r v)). cbn [trips]. rewrite Tv. split; [ reflexivity | ]. split; [ exact I | ].
          cbn [result]. destruct Ep as ((_ & T' & _) & _). apply stepped_final; [ rewrite T'; discriminate | left; auto ].
        * destruct (IH n ltac:(lia) _ R' Ep Hv St Pv) as (fuel & R0 & A & B & C).
          exists 1%nat, (TRet (set_frames r v)). cbn [trips]. rewrite Tv. split; [ reflexivity | ]. split; [ exact I | ].
          cbn [result]. eapply step_step; [ apply Ep | exact Z0 | exact A | exact B | exact C ].
    - pose proof (done_depth m v false SV) as Dv.
      assert (Hv' : trips_through m (Datatypes.S n) false v = R').
      { pose proof (through_flag m n true false v Dv) as F. rewrite Hv in F. destruct R'; [ contradiction St | exact F | exact F ]. }
      destruct (IH (Datatypes.S n) ltac:(lia) v R' Ev Hv' St (plain_flag m _ true false v Dv Pv)) as (fuel & R0 & A & B & C).
      exists 1%nat, (TRet v). cbn [trips]. rewrite Tv. split; [ reflexivity | ]. split; [ exact I | ].
      cbn [result]. eapply step_step; [ apply Ev | exact Dv | exact A | exact B | exact C ].
    - cbn [trips_through] in Hv. rewrite TV in Hv. subst R'. exists 1%nat, (TBad Memory). cbn [trips]. rewrite Tv.
      split; [ reflexivity | ]. split; [ exact I | apply stepped_bad ]. }
  destruct (c =? CODE_PAUSE) eqn:CP.
  { rewrite TT in H, P. apply (GO (count_instr (where_add 1 s))); try assumption.
    split; [ | cbn; rewrite dos_where; exact D ]. apply (sane_stays s); [ apply S | ]. destruct (stays_where 1 s L) as (A & B & C & X). repeat split; assumption. }
  destruct (exec m false c (where_add 1 s)) as [ u | u | u | b ] eqn:X.
  - rewrite TT in H, P. apply (GO (count_instr u)); try assumption. eapply next_easy; eassumption.
  - rewrite TT in H. subst R'. exists 1%nat, (TRet u). cbn [trips]. rewrite ST. split; [ reflexivity | ]. split; [ exact I | ].
    cbn [result]. apply Z.eqb_neq in CP. pose proof (exec_loud m c (where_add 1 s) CP) as Lo. rewrite X in Lo.
    apply stepped_final; [ | right; exact Lo ].
    pose proof (exec_good m false c (where_add 1 s)) as G. rewrite X in G.
    specialize (G (proj2 (proj2 (proj2 (stays_where 1 s L)))) ltac:(rewrite depth_where; exact Dp)).
    destruct (ctl_where 1 s) as (W1 & _). cbn in G.
    destruct G as [ (G1 & _) | [ (G1 & _) | (_ & _ & G1) ] ]; rewrite G1, W1, T; discriminate.
  - pose proof (exec_quiet m c (where_add 1 s) N1 N2 N3 ltac:(rewrite dos_where; exact D)) as Q. rewrite X in Q. contradiction Q.
  - rewrite TT in H. subst R'. exists 1%nat, (TBad b). cbn [trips]. rewrite ST. split; [ reflexivity | ]. split; [ exact I | apply stepped_bad ].
Qed.

(** ** and back *)
Lemma plain_next : forall m n inner s i t, (forall n, plain_for m n inner s) ->
  (if at_pause m inner s then TGo true (pass_pause s) else tick m false 0 inner s) = TGo i t -> plain_for m n i t.
Proof. intros m n inner s i t H E. specialize (H (Datatypes.S n)). cbn [plain_for] in H. rewrite E in H. apply H. Qed.

Lemma stepped_stop : forall m t r, targets t <> [] -> (depth t = 0 /\ targets t = [0] \/ err t <> e_none) ->
  stepped m (pop_target t) r -> r = pop_target t.
Proof.
  intros m t r N H. unfold pop_target. destruct (targets t) as [ | x l ] eqn:T; [ contradiction N; reflexivity | ].
  set (u := if depth t =? x then set_targets l t else t).
  assert (Eu : err u = err t) by (unfold u; destruct (_ =? _); reflexivity). rewrite Eu.
  intros S. inversion S as [ e s E X Y | s E X Y | b X Y | s fuel r1 r2 E HS Hr X Y ]; subst; try reflexivity.
  exfalso. destruct H as [ (D & Z) | H ]; [ | congruence ]. injection Z as -> ->. unfold u in E. rewrite D in E. discriminate E.
Qed.

(** one call of step is some trips of run *)
Lemma single_through : forall m fuel s R, easy s -> trips m true 0 fuel false s = R -> stops R -> (forall n, plain_for m n false s) ->
  (exists n, trips_through m n false s = R /\ forall r, stepped m (result R) r -> r = result R)
  \/ (exists n i t, R = TRet t /\ trips_through m n false s = TGo i t /\ easy t /\ (i = false \/ depth t <> 0) /\ forall n, plain_for m n i t).
Proof.
  intros m fuel. induction fuel as [ | fuel IH ]; intros s R S H St P; [ subst R; contradiction St | ].
  cbn [trips] in H. pose proof (P 1%nat) as Pn. cbn [plain_for] in Pn. destruct Pn as (Pn & _).
  pose proof (proj2 S) as D. pose proof (proj1 S) as (L & T & Rd & E).
  pose proof (through_tick m false s D Pn) as TT. pose proof (single_tick m s D Pn) as ST. cbn [negb andb] in TT. rewrite ST in H. clear ST.
  pose proof (fun n => plain_next m n false s) as PN. rewrite TT in PN.
  destruct (depth s =? 0) eqn:D0.
  { left. exists 1%nat. cbn [trips_through]. rewrite TT. split; [ exact H | ]. subst R. cbn [result]. intros r. apply stepped_stop; [ rewrite T; discriminate | ].
    left. split; [ apply Z.eqb_eq, D0 | exact T ]. }
  apply Z.eqb_neq in D0. assert (BB : forall b r, stepped m (result (TBad b)) r -> r = result (TBad b)) by (intros b r X; inversion X; reflexivity).
  destruct (is_segment_done m s) as [ [ | ] | ] eqn:SD.
  { unfold pop_frame in *. destruct (frames s) as [ | f r ] eqn:F.
    - left. exists 1%nat. cbn [trips_through]. rewrite TT. split; [ exact H | subst R; apply BB ].
    - destruct (IH _ R (pop_easy s r S) H St (fun n => PN n _ _ P eq_refl)) as [ (n & A) | (n & i & t & A & B & C) ].
      + left. exists (Datatypes.S n). cbn [trips_through]. rewrite TT. exact A.
      + right. exists (Datatypes.S n), i, t. cbn [trips_through]. rewrite TT. auto. }
  2:{ left. exists 1%nat. cbn [trips_through]. rewrite TT. split; [ exact H | subst R; apply BB ]. }
  assert (Dp : 1 <= depth s) by (pose proof (zlen_nonneg (frames s)); unfold depth in *; lia).
  destruct (bytecode_get m s) as [ c | ] eqn:BC.
  2:{ left. exists 1%nat. cbn [trips_through]. rewrite TT. split; [ exact H | subst R; apply BB ]. }
  pose proof (Pn SD) as Pc. rewrite BC in Pc. destruct Pc as (N1 & N2 & N3). cbn zeta in H.
  assert (GO : forall v, easy v -> (forall n, plain_for m n true v) ->
     (if at_pause m false s then TGo true (pass_pause s) else tick m false 0 false s) = TGo true v ->
     R = match is_segment_done m v with None => TBad Memory | Some false => TRet v
                             | Some true => match pop_frame v with TGo _ s => TRet s | r => r end end ->
     (exists n, trips_through m n false s = R /\ forall r, stepped m (result R) r -> r = result R)
     \/ (exists n i t, R = TRet t /\ trips_through m n false s = TGo i t /\ easy t /\ (i = false \/ depth t <> 0) /\ forall n, plain_for m n i t)).
  { intros v Ev Pv Tv HR. pose proof (Pv 1%nat) as Nv. cbn [plain_for] in Nv. destruct Nv as (Nv & _).
    pose proof (through_tick m true v (proj2 Ev) Nv) as TV. cbn [negb andb] in TV.
    pose proof (fun n => plain_next m n true v) as PN'. rewrite TV in PN'.
    destruct (is_segment_done m v) as [ [ | ] | ] eqn:SV.
    - unfold pop_frame in *. destruct (frames v) as [ | f r ] eqn:F.
      + left. exists 2%nat. cbn [trips_through]. rewrite Tv, TV. split; [ congruence | rewrite HR; apply BB ].
      + right. exists 2%nat, false, (set_frames r v). cbn [trips_through]. rewrite Tv, TV. split; [ exact HR | ]. split; [ reflexivity | ].
        split; [ apply pop_easy, Ev | ]. split; [ auto | ]. intros n. apply (PN' n false _ Pv eq_refl).
    - right. exists 1%nat, true, v. cbn [trips_through]. rewrite Tv. split; [ exact HR | ]. split; [ reflexivity | ]. split; [ exact Ev | ].
      split; [ right; eapply done_depth, SV | exact Pv ].
    - left. exists 2%nat. cbn [trips_through]. rewrite Tv, TV. split; [ congruence | rewrite HR; apply BB ]. }
  destruct (c =? CODE_PAUSE) eqn:CP.
  { apply (GO (count_instr (where_add 1 s))).
    - split; [ | cbn; rewrite dos_where; exact D ]. apply (sane_stays s); [ apply S | ]. destruct (stays_where 1 s L) as (A & B & C & X). repeat split; assumption.
    - intros n. apply (PN n true _ P eq_refl).
    - exact TT.
    - destruct (is_segment_done m (count_instr (where_add 1 s))) as [ [ | ] | ]; [ | congruence | congruence ].
      destruct (pop_frame _) as [ i t | t | b ]; congruence. }
  destruct (exec m false c (where_add 1 s)) as [ u | u | u | b ] eqn:X.
  - apply (GO (count_instr u)).
    + eapply next_easy; eassumption.
    + intros n. apply (PN n true _ P eq_refl).
    + exact TT.
    + destruct (is_segment_done m (count_instr u)) as [ [ | ] | ]; [ | congruence | congruence ].
      destruct (pop_frame _) as [ i t | t | b ]; congruence.
  - left. exists 1%nat. cbn [trips_through]. rewrite TT. split; [ exact H | ]. subst R. cbn [result]. intros r.
    apply Z.eqb_neq in CP. pose proof (exec_loud m c (where_add 1 s) CP) as Lo. rewrite X in Lo.
    apply stepped_stop; [ | right; exact Lo ].
    pose proof (exec_good m false c (where_add 1 s)) as G. rewrite X in G.
    specialize (G (proj2 (proj2 (proj2 (stays_where 1 s L)))) ltac:(rewrite depth_where; exact Dp)).
    destruct (ctl_where 1 s) as (W1 & _). cbn in G.
    destruct G as [ (G1 & _) | [ (G1 & _) | (_ & _ & G1) ] ]; rewrite G1, W1, T; discriminate.
  - pose proof (exec_quiet m c (where_add 1 s) N1 N2 N3 ltac:(rewrite dos_where; exact D)) as Q. rewrite X in Q. contradiction Q.
  - left. exists 1%nat. cbn [trips_through]. rewrite TT. split; [ exact H | subst R; apply BB ].
Qed.

Lemma steps_through : forall m r1 r, stepped m r1 r -> forall s i, r1 = pop_target s -> easy s -> (i = false \/ depth s <> 0) ->
  (forall n, plain_for m n i s) -> exists n R', trips_through m n i s = R' /\ stops R' /\ r = result R'.
Proof.
  intros m r1 r H. induction H as [ e s0 E | s0 E | b | s0 fuel r1 r' E HS Hr IH ]; intros s i HE S Hi P;
    pose proof (proj1 S) as (L & T & Rd & Er); pose proof HE as HE'; unfold pop_target in HE; rewrite T in HE.
  - destruct (depth s =? 0); injection HE as -> _; cbn in E; congruence.
  - destruct (Z.eqb_spec (depth s) 0) as [ Z0 | Z0 ]; injection HE as _ ->.
    + assert (i = false) as -> by (destruct Hi; [ assumption | contradiction ]).
      pose proof (P 1%nat) as Pn. cbn [plain_for] in Pn. destruct Pn as (Pn & _).
      exists 1%nat, (TRet s). cbn [trips_through]. rewrite (through_tick m false s (proj2 S) Pn), Z0. cbn. split; [ reflexivity | ]. split; [ exact I | exact HE' ].
    + unfold is_done in E. rewrite T in E. discriminate E.
  - discriminate HE.
  - destruct (Z.eqb_spec (depth s) 0) as [ Z0 | Z0 ]; injection HE as _ ->; [ discriminate E | ].
    unfold step_, step_or_resume in HS. rewrite Rd, T, Er in HS. cbn in HS. unfold internal_run in HS.
    assert (Pf : forall n, plain_for m n false s) by (intros n; eapply plain_flag; [ exact Z0 | apply P ]).
    destruct (trips m true 0 fuel false s) as [ j t | t | b ] eqn:TR; [ discriminate HS | | ]; injection HS as <-.
    + destruct (single_through m fuel s _ S TR I Pf) as [ (n & A & F) | (n & j & u & A & B & C & D & F) ].
      * rewrite (F r' Hr). destruct n as [ | n ]; [ discriminate A | ]. exists (Datatypes.S n), (TRet t). split; [ | split; [ exact I | reflexivity ] ].
        pose proof (through_flag m n false i s Z0) as G. rewrite A in G. exact G.
      * injection A as ->. destruct (IH u j eq_refl C D F) as (n' & R' & X & Y & Z).
        destruct n as [ | n ].
        { cbn in B. injection B as <- <-. exists n', R'. split; [ | auto ].
          destruct n' as [ | n' ]; [ cbn in X; subst R'; contradiction Y | ].
          pose proof (through_flag m n' false i s Z0) as G. rewrite X in G. destruct R'; [ contradiction Y | exact G | exact G ]. }
        exists (Datatypes.S n + n')%nat, R'. split; [ | auto ].
        assert (X' : trips_through m (Datatypes.S n + n') false s = R') by (rewrite through_plus, B; exact X).
        pose proof (through_flag m (n + n') false i s Z0) as G. change (Datatypes.S (n + n')) with (Datatypes.S n + n')%nat in G. rewrite X' in G.
        destruct R'; [ contradiction Y | exact G | exact G ].
    + destruct (single_through m fuel s _ S TR I Pf) as [ (n & A & F) | (n & j & u & A & B & C & D & F) ]; [ | discriminate A ].
      rewrite (F r' Hr). destruct n as [ | n ]; [ discriminate A | ]. exists (Datatypes.S n), (TBad b). split; [ | split; [ exact I | reflexivity ] ].
      pose proof (through_flag m n false i s Z0) as G. rewrite A in G. exact G.
Qed.

Lemma begin_easy : forall m inputs s, easy (begin_ m inputs s).
Proof. intros. split; [ apply begin_sane | reflexivity ]. Qed.
