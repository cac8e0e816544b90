(** Lemmas for C27: the calls of the API keep the machine between groups of codes *)
From Verif Require Import Base BaseLemmas Forth SpecForth SpecForthRun ForthParse SpecForthSafe PForthOut PForthRead PForthRead2 PForthStep PForthCtl PForthSafe1 PForthSafe2.
Local Open Scope list_scope.
Local Open Scope Z_scope.

Section Ops.
Variable m : machine.
Variable E : env.
Variable T : list seg.
Hypothesis HT : tabled m E T.

Notation dok := (dok m (ni E)).
Definition live (s : state) : Prop :=
  dok s /\ stack_ok T (frames s) (dos s) /\ tg_ok T (depth s) (targets s) (map fst (frames s)) /\ depth s <= m_recmax m.
Definition vok (s : state) : Prop := zlen (vars s) = m_nvars m /\ (ready s = true -> err s = e_none -> live s).

Definition aok (r : option ares) : Prop :=
  match r with Some (ABad Memory) => False | Some (ARet _ s) => vok s | _ => True end.

Lemma pop_ok : forall t r s, ret m E T t r s -> aok (Some (pop_target s)).
Proof.
  intros t r s (Hd & Hne & Hi). unfold pop_target. destruct (targets s) as [|t0 r0] eqn:Et; [ congruence | ]. cbn [aok].
  assert (Hlive : ready s = true -> err s = e_none -> t0 = t /\ r0 = r /\ Inv m E T t r false s).
  { intros A B. specialize (Hi A B). pose proof (i_targets _ _ _ _ _ _ _ Hi). split; [ congruence | ]. split; [ congruence | exact Hi ]. }
  destruct (Z.eqb_spec (depth s) t0) as [Ed|Ed].
  - split; [ exact (k_vars _ _ _ Hd) | ]. intros A B. destruct (Hlive A B) as (-> & -> & [I1 I2 I3 I4 [C1 C2 C3 C4 C5] I6]).
    split; [ apply dok_targets; exact Hd | ]. unfold depth in *. cbn [frames targets dos set_targets]. rewrite Ed. rewrite Ed in *. auto.
  - split; [ exact (k_vars _ _ _ Hd) | ]. intros A B. destruct (Hlive A B) as (-> & -> & [I1 I2 I3 I4 [C1 C2 C3 C4 C5] I6]).
    split; [ exact Hd | ]. split; [ exact C1 | ]. unfold depth in *. split; [ | exact C5 ]. rewrite I2. cbn [tg_ok]. split; [ lia | auto ].
Qed.

Definition guarded (single : bool) (t : Z) (fuel : nat) (s0 : state) : Prop :=
  forall n i s1, (n < fuel)%nat -> trips m single t n false s0 = TGo i s1 -> forall t' r', Inv m E T t' r' i s1 -> ~ risky m s1.

Lemma run_aok : forall t r s single fuel, Inv m E T t r false s -> guarded single t fuel s -> aok (internal_run m single t fuel s pop_target).
Proof.
  intros t r s single fuel H Hg. unfold internal_run.
  pose proof (trips_ok m E T HT t r fuel false single s H (fun k i s1 Hk Ht Hi => Hg k i s1 Hk Ht t r Hi)) as Hk.
  destruct (trips m single t fuel false s) as [i s1|s1|b]; cbn [tok] in Hk; [ exact I | eapply pop_ok; exact Hk | destruct b; [ exact Hk | exact I .. ] ].
Qed.

Lemma live_inv : forall s t r, live s -> ready s = true -> err s = e_none -> targets s = t :: r -> Inv m E T t r false s.
Proof.
  intros s t r (Hd & Hs & Ht & Hh) Hr He Et. rewrite Et in Ht. cbn [tg_ok] in Ht. destruct Ht as (Ht1 & Ht2 & Ht3).
  split; try assumption; [ | discriminate ]. unfold depth in *. split; try assumption. lia.
Qed.

Lemma begin_inv : forall inputs s, zlen (vars s) = m_nvars m -> zlen inputs = ni E -> Forall (fun b => ipos b = 0 /\ Forall is_byte (idata b)) inputs ->
  Inv m E T 0 [] false (begin_ m inputs s).
Proof.
  intros inputs s Hv Hn Hi. unfold begin_, reset. split; [ | reflexivity | reflexivity | reflexivity | | discriminate ]; cbn.
  - split; cbn.
    + rewrite zlen_nil. exact (b_stack _ _ _ HT).
    + rewrite zlen_map. exact Hv.
    + exact Hn.
    + rewrite Forall_forall in *. intros b Hb. destruct (Hi b Hb) as [H0 H1]. split; [ rewrite H0; pose proof (zlen_nonneg (idata b)); lia | exact H1 ].
    + apply zlen_map.
    + rewrite Forall_map. apply Forall_forall. intros ty _. apply good_of with [] (repeat None (Z.to_nat (m_outinit m))); reflexivity.
  - destruct (sub_seg _ _ _ HT _ _ _ (b_main _ _ _ HT)) as (sg & G1 & G2 & G3). destruct (start_spot (body sg)) as (x & X1 & X2).
    split.
    + eapply so_plain; [ apply so_nil | exact G1 | exact X1 | exact X2 | left; exact G2 | rewrite G3; apply zlen_nonneg ].
    + intros w Hw. unfold nthZ in Hw. cbn in Hw. inversion Hw. subst. eauto.
    + exact I.
    + unfold zlen. cbn. lia.
    + pose proof (b_rec _ _ _ HT). unfold zlen. cbn. lia.
Qed.

Lemma call_inv : forall s w, live s -> ready s = true -> err s = e_none -> In w (m_words m) -> depth s < m_recmax m ->
  Inv m E T (depth s) (targets s) false (set_frames ((w - BOUND_DICTIONARY, 0) :: frames s) (set_targets (depth s :: targets s) s)).
Proof.
  intros s w (Hd & Hs & Ht & Hh) Hr He Hw Hroom. pose proof (b_words _ _ _ HT) as Hws. rewrite Forall_forall in Hws. specialize (Hws _ Hw).
  destruct (sub_seg _ _ _ HT _ _ _ Hws) as (sg & G1 & G2 & G3). destruct (start_spot (body sg)) as (x & X1 & X2). unfold BOUND_DICTIONARY.
  split; cbn; try assumption; try reflexivity; [ apply dok_frames, dok_targets; exact Hd | | discriminate ].
  unfold depth in *. split.
  - eapply so_plain; [ exact Hs | exact G1 | exact X1 | exact X2 | left; exact G2 | ]. rewrite G3. apply zlen_nonneg.
  - intros v Hv. cbn [map fst rev] in Hv. rewrite nthZ_app in Hv. rewrite zlen_rev', zlen_map, Z.ltb_irrefl, Z.sub_diag in Hv.
    unfold nthZ in Hv. cbn in Hv. inversion Hv. subst. eauto.
  - cbn [map fst]. apply tg_push; [ rewrite zlen_map; lia | exact Ht ].
  - rewrite zlen_cons. pose proof (zlen_nonneg (frames s)). lia.
  - rewrite zlen_cons. lia.
Qed.

Definition args_ok (e : event) (s : state) : Prop :=
  match e with
  | Op (Call w _) => 0 <= w < zlen (m_words m) /\ depth s < m_recmax m
  | Op _ => True
  | Fresh (Begin inputs) | Fresh (Run inputs _) => zlen inputs = ni E /\ Forall (fun b => ipos b = 0 /\ Forall is_byte (idata b)) inputs
  | Fresh Reset => True
  | Fresh (SetStack st) => zlen st <= m_stackmax m
  end.

Lemma vok_err : forall e s, vok s -> e <> e_none -> vok (set_err e s).
Proof. intros e s [H _] He. split; [ exact H | ]. cbn. congruence. Qed.

Lemma step_aok : forall single fuel s, vok s ->
  (forall t r, targets s = t :: r -> ready s = true -> err s = e_none -> guarded single t fuel s) -> aok (step_or_resume m single fuel s).
Proof.
  intros single fuel s Hv Hg. unfold step_or_resume. destruct (ready s) eqn:Er; cbn [negb]; [ | apply vok_err; [ exact Hv | discriminate ] ].
  destruct (targets s) as [|t r] eqn:Et; [ apply vok_err; [ exact Hv | discriminate ] | ].
  destruct (err s) eqn:Ee; cbn [is_none negb aok]; try exact Hv.
  destruct Hv as [_ Hl]. apply run_aok with r; [ apply live_inv; auto | ]. exact (Hg t r eq_refl eq_refl eq_refl).
Qed.

Lemma event_aok : forall e s, vok s -> args_ok e s ->
  (forall single t fuel s0, executes m e s = Some (single, t, fuel, s0) -> guarded single t fuel s0) -> aok (do_event m e s).
Proof.
  intros e s Hv Ha Hg. destruct e as [o|o]; destruct o; cbn [do_event do_op do_fresh args_ok] in *.
  - apply step_aok; [ exact Hv | ]. intros t r A B C. apply Hg. cbn [executes]. rewrite B, C, A. reflexivity.
  - apply step_aok; [ exact Hv | ]. intros t r A B C. apply Hg. cbn [executes]. rewrite B, C, A. reflexivity.
  - destruct Ha as [Hw Hroom]. unfold call_. destruct (ready s) eqn:Er; cbn [negb]; [ | apply vok_err; [ exact Hv | discriminate ] ].
    destruct (err s) eqn:Ee; cbn [is_none negb aok]; try exact Hv.
    destruct (nthZ_some _ _ Hw) as (w & Ew). cbv zeta. rewrite Ew. unfold bytecodes_pointer_push.
    change (depth (set_targets (depth s :: targets s) s)) with (depth s). destruct (Z.ltb_spec (depth s) (m_recmax m)); [ | lia ].
    apply run_aok with (targets s).
    + exact (call_inv s w (proj2 Hv Er Ee) Er Ee (nthZ_In _ _ _ Ew) H).
    + apply Hg. cbn [executes]. rewrite Er, Ee. cbn. rewrite Ew. reflexivity.
  - destruct Ha as [A1 A2]. pose proof (begin_inv inputs s (proj1 Hv) A1 A2) as Hi. cbn [aok]. split.
    + exact (k_vars _ _ _ (i_data _ _ _ _ _ _ _ Hi)).
    + intros _ _. destruct Hi as [I1 I2 I3 I4 [C1 C2 C3 C4 C5] I6]. split; [ exact I1 | ]. split; [ exact C1 | ]. split; [ | exact C5 ].
      rewrite I2. cbn [tg_ok]. unfold depth, begin_. cbn [frames]. unfold zlen. cbn. split; [ lia | auto ].
  - destruct Ha as [A1 A2]. unfold run_. apply run_aok with []; [ apply begin_inv; auto; exact (proj1 Hv) | apply Hg; reflexivity ].
  - cbn [aok]. unfold reset. split; cbn; [ rewrite zlen_map; exact (proj1 Hv) | discriminate ].
  - cbn [aok]. split; cbn; [ exact (proj1 Hv) | ]. intros A B. destruct (proj2 Hv A B) as (L1 & L2 & L3 & L4).
    split; [ apply dok_stk; assumption | ]. auto.
Qed.

Lemma initial_vok : 0 <= m_nvars m -> vok (initial m).
Proof. intros H. split; cbn; [ rewrite zlen_repeat; lia | discriminate ]. Qed.

(** with a table, along any history *)
Lemma history_vok : forall p (ok : event -> state -> Prop), zlen (p_ins p) = ni E -> 0 <= m_nvars m ->
  (forall e s, ok e s -> forall single t fuel s0, executes m e s = Some (single, t, fuel, s0) -> guarded single t fuel s0) ->
  forall s, history p m ok s -> vok s.
Proof.
  intros p ok Hn Hnv Hok s H. induction H as [|e s err s' H IH Hp Ho He]; [ apply initial_vok; exact Hnv | ].
  assert (Ha : args_ok e s).
  { destruct e as [[]|[]]; cbn [args_ok proper] in *; try exact Hp; unfold startable in Hp; rewrite <- Hn; exact Hp. }
  pose proof (event_aok e s IH Ha (Hok e s Ho)) as K. rewrite He in K. exact K.
Qed.
Lemma proper_args : forall p e s, zlen (p_ins p) = ni E -> proper p m e s -> args_ok e s.
Proof. intros p e s Hn Hp. destruct e as [[]|[]]; cbn [args_ok proper] in *; try exact Hp; unfold startable in Hp; rewrite <- Hn; exact Hp. Qed.

Lemma careful_guarded : forall e s, careful m e s -> forall single t fuel s0, executes m e s = Some (single, t, fuel, s0) -> guarded single t fuel s0.
Proof. intros e s Hc single t fuel s0 He n i s1 Hn Ht t' r' _. unfold careful in Hc. rewrite He in Hc. eapply Hc; eauto. Qed.

Lemma riskless_guarded : f_rewind E = false -> f_rep E = false -> (f_exit E = false \/ f_do E = false) ->
  forall single t fuel s0, guarded single t fuel s0.
Proof. intros A B C single t fuel s0 n i s1 _ _ t' r' Hi. eapply no_risk; eauto. Qed.
End Ops.
