(** Lemmas for C27: compiled programs are made of groups of codes, and execution stays between them *)
From Verif Require Import Base BaseLemmas Forth SpecForth SpecForthRun SpecForthSafe PForthOut PForthRead PForthRead2 PForthStep PForthCtl PForthSafe1.
Local Open Scope list_scope.
Local Open Scope Z_scope.

(** ** Groups of codes; [b] is the number of a segment *)
Inductive grp :=
| G0 (c : Z) | G1 (c n : Z) | GRead (direct rep be : bool) (format i w o : Z)
| GCall (b : Z) | GIf (b : Z) | GIfElse (b1 b2 : Z) | GDo (step : bool) (b : Z)
| GAgain (b : Z) | GUntil (b : Z) | GWhile (b1 b2 : Z) | GExit (n : Z).

Definition flat (g : grp) : list Z :=
  match g with
  | G0 c => [c]
  | G1 c n => [c; n]
  | GRead direct rep be format i w o =>
      [Z.lnot (read_flags direct rep be format); i] ++ (if format =? READ_NBIT then [w] else []) ++ (if direct then [o] else [])
  | GCall b => [b + 66]
  | GIf b => [3; b + 66]
  | GIfElse b1 b2 => [4; b1 + 66; b2 + 66]
  | GDo step b => [if step then 6 else 5; b + 66]
  | GAgain b => [b + 66; 7]
  | GUntil b => [b + 66; 8]
  | GWhile b1 b2 => [b1 + 66; 9; b2 + 66]
  | GExit n => [10; n]
  end.
Definition code (gs : list grp) : list Z := concat (map flat gs).

(** what the groups refer to: numbers of variables, inputs, outputs and strings; for every segment how many segments
    of the same word and how many loops it is in; which risky words the source has *)
Record env := mkEnv { nv : Z; ni : Z; no : Z; ns : Z; sigs : list (Z * Z);
                      f_exit : bool; f_do : bool; f_rewind : bool; f_rep : bool }.

Definition sub (E : env) (b lev dd : Z) : Prop := nthZ (sigs E) b = Some (lev, dd).

Definition grp_ok (E : env) (lev dd : Z) (g : grp) : Prop :=
  match g with
  | G0 c => c = 1 \/ c = 2 \/ (plain0 c /\ (c = 29 -> 1 <= dd) /\ (c = 30 -> 2 <= dd) /\ (c = 31 -> 3 <= dd))
  | G1 c n => operand_in (nv E) (ni E) (no E) (ns E) c n /\ (c = 23 -> f_rewind E = true)
  | GRead direct rep be format i w o => In format formats /\ 0 <= i < ni E /\ (direct = true -> 0 <= o < no E) /\ (rep = true -> f_rep E = true)
  | GCall b => sub E b 0 0
  | GIf b | GAgain b | GUntil b => sub E b (lev + 1) dd
  | GIfElse b1 b2 | GWhile b1 b2 => sub E b1 (lev + 1) dd /\ sub E b2 (lev + 1) dd
  | GDo _ b => sub E b (lev + 1) (dd + 1) /\ f_do E = true
  | GExit n => n = lev /\ f_exit E = true
  end.

Record seg := mkSeg { lev : Z; dd : Z; body : list grp }.
Definition sig (s : seg) : Z * Z := (lev s, dd s).
Definition seg_ok (E : env) (s : seg) : Prop := 0 <= lev s /\ 0 <= dd s /\ Forall (grp_ok E (lev s) (dd s)) (body s).

(** ** Positions *)
Inductive spot := SEnd | SGrp (g : grp) | SSub (b : Z) | SDo (b : Z) | STail (g : grp).

Inductive at_spot (gs : list grp) : Z -> spot -> Prop :=
| at_end : at_spot gs (zlen (code gs)) SEnd
| at_grp : forall g1 g g2, gs = g1 ++ g :: g2 -> at_spot gs (zlen (code g1)) (SGrp g)
| at_if : forall g1 b g2, gs = g1 ++ GIf b :: g2 -> at_spot gs (zlen (code g1) + 1) (SSub b)
| at_else : forall g1 b1 b2 g2, gs = g1 ++ GIfElse b1 b2 :: g2 -> at_spot gs (zlen (code g1) + 2) (SSub b2)
| at_do : forall g1 st b g2, gs = g1 ++ GDo st b :: g2 -> at_spot gs (zlen (code g1) + 1) (SDo b)
| at_tail : forall g1 g g2, gs = g1 ++ g :: g2 -> (match g with GAgain _ | GUntil _ | GWhile _ _ => True | _ => False end) ->
    at_spot gs (zlen (code g1) + 1) (STail g).

Definition not_do (x : spot) : Prop := match x with SDo _ => False | _ => True end.

Lemma code_app : forall a b, code (a ++ b) = code a ++ code b.
Proof. intros. unfold code. rewrite map_app, concat_app. reflexivity. Qed.
Lemma code_cons : forall g b, code (g :: b) = flat g ++ code b. Proof. reflexivity. Qed.
Lemma flat_pos : forall g, 1 <= zlen (flat g).
Proof. destruct g; cbn [flat app]; rewrite zlen_cons; match goal with |- 1 <= ?z + 1 => pose proof (zlen_nonneg (A:=Z)) end; match goal with H : forall l, 0 <= zlen l |- 1 <= zlen ?l + 1 => specialize (H l); lia end. Qed.

Lemma grp_code : forall g1 g g2 k, 0 <= k < zlen (flat g) -> nthZ (code (g1 ++ g :: g2)) (zlen (code g1) + k) = nthZ (flat g) k.
Proof.
  intros g1 g g2 k H. rewrite code_app, code_cons, nthZ_app.
  destruct (Z.ltb_spec (zlen (code g1) + k) (zlen (code g1))); [ lia | ].
  replace (zlen (code g1) + k - zlen (code g1)) with k by lia. rewrite nthZ_app.
  destruct (Z.ltb_spec k (zlen (flat g))); [ reflexivity | lia ].
Qed.
Lemma grp_room : forall g1 g g2 k, 0 <= k < zlen (flat g) -> zlen (code g1) + k < zlen (code (g1 ++ g :: g2)).
Proof. intros. rewrite code_app, code_cons, !zlen_app. pose proof (zlen_nonneg (code g2)). lia. Qed.

(** the position after a group *)
Lemma after_grp : forall gs g1 g g2 k, gs = g1 ++ g :: g2 -> k = zlen (flat g) -> exists x, at_spot gs (zlen (code g1) + k) x /\ not_do x.
Proof.
  intros gs g1 g g2 k E ->. assert (E' : zlen (code g1) + zlen (flat g) = zlen (code (g1 ++ [g]))).
  { rewrite code_app, zlen_app, code_cons, app_nil_r. reflexivity. }
  rewrite E'. destruct g2 as [|h g2].
  - exists SEnd. rewrite <- E. split; [ constructor | exact I ].
  - exists (SGrp h). split; [ | exact I ]. apply at_grp with g2. rewrite E, <- app_assoc. reflexivity.
Qed.
Lemma start_spot : forall gs, exists x, at_spot gs 0 x /\ not_do x.
Proof.
  intros [|g gs].
  - exists SEnd. split; [ exact (at_end []) | exact I ].
  - exists (SGrp g). split; [ exact (at_grp (g :: gs) [] g gs eq_refl) | exact I ].
Qed.

Definition spot_code (x : spot) : option Z :=
  match x with
  | SEnd => None
  | SGrp g => nthZ (flat g) 0
  | SSub b | SDo b => Some (b + 66)
  | STail (GAgain _) => Some 7
  | STail (GUntil _) => Some 8
  | STail (GWhile _ _) => Some 9
  | STail _ => None
  end.
Lemma spot_room : forall gs p x, at_spot gs p x -> x = SEnd /\ p = zlen (code gs) \/ x <> SEnd /\ p < zlen (code gs) /\ nthZ (code gs) p = spot_code x.
Proof.
  intros gs p x H. destruct H as [|g1 g g2 E|g1 b g2 E|g1 b1 b2 g2 E|g1 st b g2 E|g1 g g2 E Hg]; [ left; split; reflexivity | right; subst gs .. ].
  - split; [ discriminate | ]. pose proof (flat_pos g). pose proof (grp_room g1 g g2 0 ltac:(lia)). rewrite Z.add_0_r in *.
    split; [ lia | ]. pose proof (grp_code g1 g g2 0 ltac:(lia)) as G. rewrite Z.add_0_r in G. exact G.
  - split; [ discriminate | ]. split; [ apply grp_room; cbn; unfold zlen; cbn; lia | ]. rewrite grp_code; [ reflexivity | unfold zlen; cbn; lia ].
  - split; [ discriminate | ]. split; [ apply grp_room; cbn; unfold zlen; cbn; lia | ]. rewrite grp_code; [ reflexivity | unfold zlen; cbn; lia ].
  - split; [ discriminate | ]. split; [ apply grp_room; cbn; unfold zlen; cbn; lia | ]. rewrite grp_code; [ reflexivity | unfold zlen; cbn; lia ].
  - split; [ discriminate | ]. destruct g; try contradiction; (split; [ apply grp_room; cbn; unfold zlen; cbn; lia | ]; rewrite grp_code; [ reflexivity | unfold zlen; cbn; lia ]).
Qed.

Lemma spot_pos : forall gs p x, at_spot gs p x -> 0 <= p.
Proof.
  intros gs p x H. destruct H as [|g1 g g2 E|g1 b g2 E|g1 b1 b2 g2 E|g1 st b g2 E|g1 g g2 E Hg]; [ pose proof (zlen_nonneg (code gs)); lia | pose proof (zlen_nonneg (code g1)); lia .. ].
Qed.

(** ** A machine and its table of segments *)
Section Run.
Variable m : machine.
Variable E : env.
Variable T : list seg.

Record tabled : Prop := mkTabled {
  b_code : forall b sg, nthZ T b = Some sg -> exists a, segment m b a (zlen (code (body sg))) /\
             forall k c, nthZ (code (body sg)) k = Some c -> nthZ (m_code m) (a + k) = Some c;
  b_sigs : sigs E = map sig T;
  b_ok : Forall (seg_ok E) T;
  b_nv : nv E = m_nvars m;
  b_no : no E = zlen (m_outs m);
  b_ns : ns E = m_nstrings m;
  b_words : Forall (fun w => sub E (w - 66) 0 0) (m_words m);
  b_main : sub E 0 0 0;
  b_rec : 1 <= m_recmax m;
  b_stack : 0 <= m_stackmax m
}.
Hypothesis HT : tabled.

Lemma sub_seg : forall b l d, sub E b l d -> exists sg, nthZ T b = Some sg /\ lev sg = l /\ dd sg = d.
Proof.
  intros b l d H. unfold sub in H. rewrite (b_sigs HT), nthZ_map in H. destruct (nthZ T b) as [sg|]; [ | discriminate ].
  exists sg. inversion H. split; [ reflexivity | split; reflexivity ].
Qed.
Lemma seg_ok_at : forall b sg, nthZ T b = Some sg -> seg_ok E sg.
Proof. intros b sg H. exact (nthZ_Forall _ _ _ _ (b_ok HT) H). Qed.

(** ** The call stack and the loop stack *)
Definition linked (sg : seg) (fr : list (Z * Z)) : Prop :=
  lev sg = 0 \/ exists w p fr' sg', fr = (w, p) :: fr' /\ nthZ T w = Some sg' /\ lev sg' = lev sg - 1.

Inductive stack_ok : list (Z * Z) -> list doent -> Prop :=
| so_nil : stack_ok [] []
| so_plain : forall w p fr ds sg x, stack_ok fr ds -> nthZ T w = Some sg -> at_spot (body sg) p x -> not_do x ->
    linked sg fr -> dd sg <= zlen ds -> stack_ok ((w, p) :: fr) ds
| so_do : forall w p fr ds sg b d, stack_ok fr ds -> nthZ T w = Some sg -> at_spot (body sg) p (SDo b) ->
    linked sg fr -> dd sg <= zlen ds -> d_depth d = zlen fr + 1 -> stack_ok ((w, p) :: fr) (d :: ds).

Lemma stack_inv : forall w p fr ds0, stack_ok ((w, p) :: fr) ds0 -> exists sg x ds, stack_ok fr ds /\ nthZ T w = Some sg /\ at_spot (body sg) p x /\ linked sg fr
  /\ dd sg <= zlen ds /\ match x with SDo _ => exists d, ds0 = d :: ds /\ d_depth d = zlen fr + 1 | _ => ds0 = ds end.
Proof.
  intros w p fr ds0 H. remember ((w, p) :: fr) as l eqn:El. destruct H as [|w' p' fr' ds sg x H1 H2 H3 H4 H5 H6|w' p' fr' ds sg b d H1 H2 H3 H4 H5 H6]; [ discriminate | | ];
    inversion El; subst.
  - exists sg, x, ds. repeat (split; [ assumption | ]). destruct x; try reflexivity. destruct H4.
  - exists sg, (SDo b), ds. repeat (split; [ assumption | ]). eauto.
Qed.
Lemma stack_depths : forall fr ds, stack_ok fr ds -> Forall (fun d => d_depth d <= zlen fr) ds.
Proof.
  induction 1 as [|w p fr ds sg x H IH|w p fr ds sg b d H IH]; [ constructor | | constructor ].
  - eapply Forall_impl; [ | exact IH ]. cbn. intros a Ha. rewrite zlen_cons. lia.
  - rewrite zlen_cons. lia.
  - eapply Forall_impl; [ | exact IH ]. cbn. intros a Ha. rewrite zlen_cons. lia.
Qed.
Lemma stack_loops : forall fr ds, stack_ok fr ds -> zlen ds <= zlen fr.
Proof. induction 1 as [| |]; [ unfold zlen; cbn; lia | rewrite zlen_cons; lia | rewrite !zlen_cons; lia ]. Qed.
(** another index in the innermost loop *)
Lemma stack_index : forall fr d ds d', stack_ok fr (d :: ds) -> d_depth d' = d_depth d -> stack_ok fr (d' :: ds).
Proof.
  intros fr d ds d' H Hd. remember (d :: ds) as l eqn:El. revert d ds El Hd. induction H as [|w p fr l sg x H IH|w p fr l sg b e H IH]; intros d ds El Hd.
  - discriminate.
  - subst. eapply so_plain; eauto.
  - inversion El. subst. eapply so_do; eauto. congruence.
Qed.
Lemma stack_do_feature : forall fr d ds, stack_ok fr (d :: ds) -> f_do E = true.
Proof.
  intros fr d ds H. remember (d :: ds) as l eqn:El. revert d ds El. induction H as [|w p fr l sg x H IH|w p fr l sg b e H IH Hn Hs]; intros d ds El; [ discriminate | eauto | ].
  inversion Hs; subst. pose proof (seg_ok_at _ _ Hn) as (_ & _ & Hg).
  match goal with Hb : body sg = _ |- _ => rewrite Hb in Hg; apply Forall_app in Hg; destruct Hg as [_ Hg]; inversion Hg; subst end.
  cbn in *. tauto.
Qed.

(** ** The depths at which calls end *)
Definition base (t : Z) (ws : list Z) : Prop := forall w, nthZ (rev ws) t = Some w -> exists sg, nthZ T w = Some sg /\ lev sg = 0.
Fixpoint tg_ok (hi : Z) (ts : list Z) (ws : list Z) : Prop :=
  match ts with [] => True | t :: r => 0 <= t < hi /\ base t ws /\ tg_ok t r ws end.

Lemma zlen_rev' : forall {A} (l : list A), zlen (rev l) = zlen l.
Proof. intros. unfold zlen. rewrite rev_length. reflexivity. Qed.
Lemma base_push : forall t w ws, t < zlen ws -> base t ws -> base t (w :: ws).
Proof.
  intros t w ws Ht H v Hv. cbn [rev] in Hv. rewrite nthZ_app, zlen_rev' in Hv. destruct (Z.ltb_spec t (zlen ws)); [ auto | lia ].
Qed.
Lemma base_pop : forall t w ws, base t (w :: ws) -> base t ws.
Proof.
  intros t w ws H v Hv. apply H. cbn [rev]. rewrite nthZ_app. apply nthZ_Some in Hv as Hr.
  destruct (Z.ltb_spec t (zlen (rev ws))); [ assumption | lia ].
Qed.
Lemma tg_push : forall ts hi w ws, hi <= zlen ws -> tg_ok hi ts ws -> tg_ok hi ts (w :: ws).
Proof.
  induction ts as [|t r IH]; intros hi w ws Hh H; cbn [tg_ok] in *; [ exact I | ]. destruct H as (H1 & H2 & H3).
  split; [ assumption | ]. split; [ apply base_push; [ lia | assumption ] | ]. apply IH; [ lia | assumption ].
Qed.
Lemma tg_pop : forall ts hi w ws, tg_ok hi ts (w :: ws) -> tg_ok hi ts ws.
Proof.
  induction ts as [|t r IH]; intros hi w ws H; cbn [tg_ok] in *; [ exact I | ]. destruct H as (H1 & H2 & H3).
  split; [ assumption | ]. split; [ eapply base_pop; eassumption | ]. eapply IH; eassumption.
Qed.

(** ** The invariant of an execution whose calls end at depths t :: r *)
Variable t : Z.
Variable r : list Z.

Record cinv (fr : list (Z * Z)) (ds : list doent) : Prop := mkCinv {
  c_stack : stack_ok fr ds;
  c_base : base t (map fst fr);
  c_rest : tg_ok t r (map fst fr);
  c_low : 0 <= t <= zlen fr;
  c_high : zlen fr <= m_recmax m
}.
Notation dok := (dok m (ni E)).

Record Inv (inner : bool) (s : state) : Prop := mkInv {
  i_data : dok s;
  i_targets : targets s = t :: r;
  i_ready : ready s = true;
  i_err : err s = e_none;
  i_ctl : cinv (frames s) (dos s);
  i_inner : inner = true -> t < depth s
}.
Definition ret (s : state) : Prop := dok s /\ targets s <> [] /\ (ready s = true -> err s = e_none -> Inv false s).

Definition xok (x : xres) : Prop :=
  match x with
  | XNext s => Inv true s
  | XRet s => ret s
  | XExit s => Inv true s /\ dos s = []
  | XBad Memory => False
  | XBad _ => True
  end.
Definition tok (x : tres) : Prop :=
  match x with TGo i s => Inv i s | TRet s => ret s | TBad Memory => False | TBad _ => True end.

Lemma Inv_outer : forall i s, Inv i s -> Inv false s.
Proof. intros i s []; split; auto. discriminate. Qed.
Lemma Inv_ret : forall i s, Inv i s -> ret s.
Proof. intros i s H. split; [ exact (i_data _ _ H) | ]. split; [ rewrite (i_targets _ _ H); discriminate | ]. intros. exact (Inv_outer _ _ H). Qed.
Lemma Inv_count : forall i s, Inv i s -> Inv i (count_instr s).
Proof. intros i s []; split; auto. apply dok_count. assumption. Qed.
Lemma fail_ret : forall e s, execution_error e -> dok s -> targets s = t :: r -> ret (set_err e s).
Proof.
  intros e s He Hd Ht. split; [ apply dok_err; exact Hd | ]. split; [ cbn; rewrite Ht; discriminate | ].
  intros _ H. cbn in H. subst e. destruct He.
Qed.

(** the innermost frame and what lies below *)
Record top (s : state) (w p : Z) (fr : list (Z * Z)) (sg : seg) (ds : list doent) : Prop := mkTop {
  t_frames : frames s = (w, p) :: fr;
  t_seg : nthZ T w = Some sg;
  t_stack : stack_ok fr ds;
  t_linked : linked sg fr;
  t_dd : dd sg <= zlen ds
}.
Lemma top_of : forall s, Inv true s -> exists w p fr sg ds x, top s w p fr sg ds /\ at_spot (body sg) p x
   /\ match x with SDo _ => exists d, dos s = d :: ds /\ d_depth d = depth s | _ => dos s = ds end.
Proof.
  intros s H. pose proof (i_ctl _ _ H) as [Hs _ _ _ _]. pose proof (i_inner _ _ H eq_refl) as Hi. pose proof (c_low _ _ (i_ctl _ _ H)).
  unfold depth in *. destruct (frames s) as [|[w p] fr] eqn:Ef; [ rewrite zlen_nil in Hi; lia | ].
  destruct (stack_inv _ _ _ _ Hs) as (sg & x & ds & H1 & H2 & H3 & H4 & H5 & H6).
  exists w, p, fr, sg, ds, x. split; [ split; assumption | ]. split; [ assumption | ].
  destruct x; try exact H6. rewrite zlen_cons. exact H6.
Qed.

(** moving within a segment *)
Lemma move : forall s w p fr sg ds p' x s', Inv true s -> top s w p fr sg ds -> at_spot (body sg) p' x -> not_do x ->
  dok s' -> targets s' = targets s -> ready s' = ready s -> err s' = err s -> frames s' = (w, p') :: fr -> dos s' = ds -> Inv true s'.
Proof.
  intros s w p fr sg ds p' x s' H Ht Hs Hx Hd E1 E2 E3 E4 E5. destruct H as [_ I1 I2 I3 [C1 C2 C3 C4 C5] I4]. destruct Ht as [T1 T2 T3 T4 T5].
  rewrite T1 in *. split; [ exact Hd | congruence | congruence | congruence | | ].
  - rewrite E4, E5. split; [ eapply so_plain; eauto | exact C2 | exact C3 | exact C4 | exact C5 ].
  - intros _. specialize (I4 eq_refl). unfold depth in *. rewrite E4. rewrite T1, zlen_cons in I4. rewrite zlen_cons. assumption.
Qed.

(** entering a segment from position p' *)
Lemma enter : forall s w p fr sg ds p' x s' b l d, Inv true s -> top s w p fr sg ds -> at_spot (body sg) p' x ->
  dok s' -> targets s' = targets s -> ready s' = ready s -> err s' = err s -> frames s' = (b, 0) :: (w, p') :: fr ->
  (match x with SDo _ => exists e, dos s' = e :: ds /\ d_depth e = zlen fr + 1 | _ => dos s' = ds end) ->
  sub E b l d -> (l = 0 /\ d = 0 \/ l = lev sg + 1 /\ d <= dd sg + match x with SDo _ => 1 | _ => 0 end) ->
  depth s < m_recmax m -> Inv true s'.
Proof.
  intros s w p fr sg ds p' x s' b l d H Ht Hs Hd E1 E2 E3 E4 E5 Hb Hl Hr. destruct H as [_ I1 I2 I3 [C1 C2 C3 C4 C5] I4]. destruct Ht as [T1 T2 T3 T4 T5].
  specialize (I4 eq_refl). unfold depth in *. rewrite T1 in *. destruct (sub_seg _ _ _ Hb) as (sg' & S1 & S2 & S3).
  destruct (start_spot (body sg')) as (y & Y1 & Y2).
  assert (Hst : stack_ok ((w, p') :: fr) (dos s') /\ d <= zlen (dos s')).
  { pose proof (zlen_nonneg ds). assert (0 <= dd sg) by (destruct (seg_ok_at _ _ T2) as (_ & Hdd & _); exact Hdd). destruct x; try (rewrite E5; split; [ eapply so_plain; eauto; exact I | lia ]).
    destruct E5 as (e & E5 & E6). rewrite E5. rewrite zlen_cons. split; [ eapply so_do; eauto | lia ]. }
  destruct Hst as [Hst Hdl]. rewrite zlen_cons in Hr, I4, C4, C5. split; [ exact Hd | congruence | congruence | congruence | | ].
  - rewrite E4. cbn [map fst] in C2, C3. cbn [map fst]. split; rewrite ?zlen_cons; try lia.
    + apply so_plain with sg' y; auto; [ | lia ].
      destruct Hl as [[Hl _]|[Hl _]]; [ left; lia | right ]. exists w, p', fr, sg. split; [ reflexivity | ]. split; [ assumption | lia ].
    + apply (base_push t b (map fst ((w, p) :: fr))); [ | exact C2 ]. rewrite zlen_map, zlen_cons. lia.
    + apply (tg_push r t b (map fst ((w, p) :: fr))); [ | exact C3 ]. rewrite zlen_map, zlen_cons. lia.
  - intros _. unfold depth. rewrite E4, !zlen_cons. lia.
Qed.

(** leaving a frame *)
Lemma leave : forall s w p fr sg ds s', Inv true s -> top s w p fr sg ds -> dok s' -> targets s' = targets s -> ready s' = ready s -> err s' = err s ->
  frames s' = fr -> dos s' = ds -> Inv false s'.
Proof.
  intros s w p fr sg ds s' H Ht Hd E1 E2 E3 E4 E5. destruct H as [_ I1 I2 I3 [C1 C2 C3 C4 C5] I4]. destruct Ht as [T1 T2 T3 T4 T5].
  specialize (I4 eq_refl). unfold depth in *. rewrite T1 in *. rewrite zlen_cons in I4, C4, C5. cbn [map fst] in C2, C3. split; [ exact Hd | congruence | congruence | congruence | | ].
  - rewrite E4, E5. split; [ assumption | eapply base_pop; eauto | eapply tg_pop; eauto | lia | lia ].
  - discriminate.
Qed.

Lemma advance_ok : forall s f, Inv false s -> 
  (exists s', do_advance m s f = f s' /\ Inv false s') \/ (exists s', do_advance m s f = XRet s' /\ ret s') \/ do_advance m s f = XBad Arith.
Proof.
  intros s f H. unfold do_advance. destruct (dos s) as [|d ds] eqn:Ed; [ left; eauto | ].
  destruct (d_depth d =? depth s); [ | left; eauto ]. pose proof H as [I0 I1 I2 I3 [C1 C2 C3 C4 C5] I4]. rewrite Ed in C1.
  destruct (d_step d) eqn:Est.
  - unfold pop_or_fail, stack_cannot_pop, stack_pop. destruct (stk s) as [|x st] eqn:Es.
    + right. left. cbn. eexists. split; [ reflexivity | ]. apply fail_ret; [ exact I | assumption | assumption ].
    + destruct (_ =? 0); [ right; left; eexists; split; [ reflexivity | ]; apply fail_ret; [ exact I | assumption | assumption ] | ].
      destruct (fits 64 _); [ left | right; right; reflexivity ]. eexists. split; [ reflexivity | ].
      split; cbn; auto.
      * apply dok_dos. eapply dok_pop; eauto.
      * split; auto. eapply stack_index; [ exact C1 | reflexivity ].
  - destruct (fits 64 _); [ left | right; right; reflexivity ]. eexists. split; [ reflexivity | ].
    split; cbn; auto.
    + apply dok_dos. assumption.
    + split; auto. eapply stack_index; [ exact C1 | reflexivity ].
Qed.

Lemma end_ok : forall s w p fr sg ds, Inv true s -> top s w p fr sg ds -> dos s = ds -> tok (end_of_segment m s).
Proof.
  intros s w p fr sg ds H Ht Ed. unfold end_of_segment, bytecodes_pointer_pop. rewrite (t_frames _ _ _ _ _ _ Ht).
  assert (Hl : Inv false (set_frames fr s)).
  { eapply leave; [ exact H | exact Ht | | reflexivity | reflexivity | reflexivity | reflexivity | exact Ed ]. apply dok_frames. exact (i_data _ _ H). }
  destruct (advance_ok _ XNext Hl) as [(s' & -> & Hs')|[(s' & -> & Hs')| ->]]; [ exact Hs' | exact Hs' | exact I ].
Qed.

(** ** Reading the program *)
Lemma get_at : forall s w p fr sg c, frames s = (w, p) :: fr -> nthZ T w = Some sg -> nthZ (code (body sg)) p = Some c -> bytecode_get m s = Some c.
Proof.
  intros s w p fr sg c H1 H2 H3. unfold bytecode_get, which_where. rewrite H1. destruct (b_code HT _ _ H2) as (a & [Ha _] & Hc).
  rewrite Ha. apply Hc. exact H3.
Qed.
Lemma done_at : forall s w p fr sg, frames s = (w, p) :: fr -> nthZ T w = Some sg -> is_segment_done m s = Some (negb (p <? zlen (code (body sg)))).
Proof.
  intros s w p fr sg H1 H2. unfold is_segment_done, seg_len, which_where. rewrite H1. destruct (b_code HT _ _ H2) as (a & [Ha Hb] & Hc).
  rewrite Ha, Hb. replace (a + zlen (code (body sg)) - a) with (zlen (code (body sg))) by lia. reflexivity.
Qed.
(** after an operand or a jump *)
Lemma where_frames : forall d s w p fr, frames s = (w, p) :: fr -> frames (where_add d s) = (w, p + d) :: fr.
Proof. intros d s w p fr H. unfold where_add. rewrite H. reflexivity. Qed.
Lemma where_rest : forall d s, dos (where_add d s) = dos s /\ targets (where_add d s) = targets s /\ ready (where_add d s) = ready s
  /\ err (where_add d s) = err s /\ depth (where_add d s) = depth s /\ stk (where_add d s) = stk s.
Proof.
  intros d s. pose proof (ctl_where d s). pose proof (dos_where d s). pose proof (depth_where d s). pose proof (where_add_stk d s). tauto.
Qed.
Lemma where_stk_ : forall d st s, where_add d (set_stk st s) = set_stk st (where_add d s).
Proof. intros. apply where_add_set_stk. Qed.

(** instructions which do not jump *)
Lemma data_ok : forall s0 w p fr sg ds s c single g1 g g2, Inv true s0 -> top s0 w p fr sg ds -> dos s0 = ds ->
  body sg = g1 ++ g :: g2 -> p = zlen (code g1) -> s = where_add 1 s0 ->
  control_code c = false -> 1 + operands c = zlen (flat g) -> safe dok (exec m single c s) -> xok (exec m single c s).
Proof.
  intros s0 w p fr sg ds s c single g1 g g2 H Ht Ed Eb Ep Es Hc Ho Hs.
  pose proof (exec_data m single c s Hc) as He. destruct (where_rest 1 s0) as (W1 & W2 & W3 & W4 & W5 & W6). rewrite <- Es in *.
  assert (Hf : frames s = (w, p + 1) :: fr) by (subst s; apply where_frames; exact (t_frames _ _ _ _ _ _ Ht)).
  unfold ends in He. unfold safe in Hs. destruct (exec m single c s) as [s'|s'|s'|[]] eqn:Ex; try exact I; try contradiction.
  - unfold ctl in He. inversion He as [[F1 F2 F3 F4 F5]]. destruct (where_rest (operands c) s) as (V1 & V2 & V3 & V4 & V5 & V6).
    rewrite (where_frames _ _ _ _ _ Hf) in F1. destruct (after_grp _ _ _ _ _ Eb Ho) as (x & X1 & X2).
    eapply move; [ exact H | exact Ht | | exact X2 | exact Hs | congruence | congruence | congruence | rewrite F1 | congruence ].
    + exact X1.
    + subst p. f_equal. f_equal. lia.
  - destruct He as [He (j & _ & Hj)]. assert (F2 : targets s' = targets (set_err (err s') (where_add j s))) by (unfold ctl in Hj; congruence).
    split; [ exact Hs | ]. split.
    + rewrite F2. destruct (where_rest j s) as (V1 & V2 & V3 & V4 & V5 & V6). cbn. rewrite V2, W2, (i_targets _ _ H). discriminate.
    + intros _ N. rewrite N in He. destruct He.
Qed.

Lemma pop_xok : forall s f, dok s -> targets s = t :: r -> (forall x st, stk s = x :: st -> xok (f x (set_stk st s))) -> xok (pop_or_fail s f).
Proof.
  intros s f Hd Ht Hf. unfold pop_or_fail, stack_cannot_pop, stack_pop. destruct (stk s) as [|x st] eqn:Es.
  - apply fail_ret; [ exact I | assumption | assumption ].
  - destruct (_ =? 0); [ apply fail_ret; [ exact I | assumption | assumption ] | ]. apply Hf. reflexivity.
Qed.
Lemma push_seg_xok : forall w s f, dok s -> targets s = t :: r -> depth s <= m_recmax m ->
  (depth s < m_recmax m -> xok (f (set_frames ((w, 0) :: frames s) s))) -> xok (push_segment_or_fail m w s f).
Proof.
  intros w s f Hd Ht Hl Hf. unfold push_segment_or_fail, bytecodes_pointer_push.
  destruct (Z.eqb_spec (depth s) (m_recmax m)); [ apply fail_ret; [ exact I | assumption | assumption ] | ].
  destruct (Z.ltb_spec (depth s) (m_recmax m)); [ auto | lia ].
Qed.
Lemma depth_high : forall i s, Inv i s -> depth s <= m_recmax m.
Proof. intros i s H. exact (c_high _ _ (i_ctl _ _ H)). Qed.

(** entering segment b from the code at position p of the innermost frame; execution goes on at p' *)
Lemma call_ok : forall s0 w p fr sg ds p' x s b l d single, Inv true s0 -> top s0 w p fr sg ds -> at_spot (body sg) p' x ->
  dok s -> targets s = targets s0 -> ready s = ready s0 -> err s = err s0 -> frames s = (w, p') :: fr ->
  (match x with SDo _ => exists e, dos s = e :: ds /\ d_depth e = zlen fr + 1 | _ => dos s = ds end) ->
  sub E b l d -> (l = 0 /\ d = 0 \/ l = lev sg + 1 /\ d <= dd sg + match x with SDo _ => 1 | _ => 0 end) ->
  xok (exec m single (b + 66) s).
Proof.
  intros s0 w p fr sg ds p' x s b l d single H Ht Hx Hd E1 E2 E3 E4 E5 Hb Hl.
  assert (0 <= b) as B0. { unfold sub in Hb. apply nthZ_Some in Hb. lia. }
  unfold exec, BOUND_DICTIONARY. destruct (Z.ltb_spec (b + 66) 0); [ lia | ]. destruct (Z.leb_spec 66 (b + 66)); [ | lia ].
  replace (b + 66 - 66) with b by lia.
  assert (Hdep : depth s = depth s0) by (unfold depth; rewrite E4, (t_frames _ _ _ _ _ _ Ht), !zlen_cons; reflexivity).
  apply push_seg_xok; [ assumption | rewrite E1; exact (i_targets _ _ H) | rewrite Hdep; exact (depth_high _ _ H) | ].
  intro Hlt. rewrite Hdep in Hlt. cbn [xok].
  eapply enter with (s := s0) (p' := p') (x := x); [ exact H | exact Ht | exact Hx | apply dok_frames; exact Hd | exact E1 | exact E2 | exact E3 | | exact E5 | exact Hb | exact Hl | exact Hlt ].
  cbn. rewrite E4. reflexivity.
Qed.

(** exit: the frames of the word *)
Lemma exit_frames : forall n fr sg w p, stack_ok fr [] -> fr = (w, p) :: tl fr -> nthZ T w = Some sg -> lev sg = Z.of_nat n ->
  forall t', 0 <= t' < zlen fr -> base t' (map fst fr) ->
  Z.of_nat n < zlen fr /\ t' < zlen (skipn n fr) /\ exists w' p' sg', skipn n fr = (w', p') :: tl (skipn n fr) /\ nthZ T w' = Some sg' /\ lev sg' = 0 /\ stack_ok (skipn n fr) [].
Proof.
  induction n; intros fr sg w p Hs Ef Hn Hl t' Ht' Hb.
  - cbn [skipn]. split; [ lia | ]. split; [ lia | ]. exists w, p, sg. repeat split; auto.
  - destruct fr as [|[w0 p0] fr0]; [ discriminate | ]. cbn [tl] in Ef. inversion Ef. subst w0 p0.
    destruct (stack_inv _ _ _ _ Hs) as (sg0 & x & ds & H1 & H2 & H3 & H5 & H6 & H7). rewrite Hn in H2. inversion H2. subst sg0.
    assert (ds = []) as ->. { destruct x; try congruence. destruct H7 as (? & H7 & _). discriminate. }
    destruct H5 as [H5|(w' & p' & fr' & sg' & G1 & G2 & G3)]; [ lia | ].
    assert (t' < zlen fr0) as Hlt.
    { rewrite zlen_cons in Ht'. destruct (Z.eq_dec t' (zlen fr0)) as [e|]; [ | lia ]. exfalso.
      destruct (Hb w) as (sg2 & K1 & K2).
      - cbn [map fst rev]. rewrite nthZ_app, zlen_rev', zlen_map. destruct (Z.ltb_spec t' (zlen fr0)); [ lia | ].
        replace (t' - zlen fr0) with 0 by lia. reflexivity.
      - rewrite Hn in K1. inversion K1. subst. lia. }
    cbn [skipn]. rewrite zlen_cons.
    destruct (IHn fr0 sg' w' p') with (t' := t') as (J1 & J2 & J3); auto.
    + rewrite G1. reflexivity.
    + lia.
    + lia.
    + cbn [map] in Hb. eapply base_pop. exact Hb.
    + split; [ lia | ]. split; assumption.
Qed.
Lemma map_skipn : forall {A B} (f : A -> B) n l, map f (skipn n l) = skipn n (map f l).
Proof. induction n; destruct l; cbn; auto. Qed.
Lemma base_skipn : forall n t' ws, base t' ws -> base t' (skipn n ws).
Proof. induction n; intros t' ws H; [ exact H | ]. destruct ws; [ exact H | ]. cbn [skipn]. apply IHn. eapply base_pop. exact H. Qed.
Lemma tg_skipn : forall n ts hi ws, tg_ok hi ts ws -> tg_ok hi ts (skipn n ws).
Proof. induction n; intros ts hi ws H; [ exact H | ]. destruct ws; [ exact H | ]. cbn [skipn]. apply IHn. eapply tg_pop. exact H. Qed.
Lemma drop_nil : forall d, drop_dos d [] = []. Proof. reflexivity. Qed.

Lemma exit_ok : forall s0 w p fr sg single s g1 g2, Inv true s0 -> top s0 w p fr sg [] -> dos s0 = [] -> s = where_add 1 s0 ->
  body sg = g1 ++ GExit (lev sg) :: g2 -> p = zlen (code g1) ->
  bytecode_get m s = Some (lev sg) -> xok (exec m single 10 s).
Proof.
  intros s0 w p fr sg single s g1 g2 H Ht Ed Es Eb Ep G. destruct (where_rest 1 s0) as (W1 & W2 & W3 & W4 & W5 & W6). rewrite <- Es in *.
  change (exec m single 10 s) with (exec_code m single 10 s). cbn [exec_code]. rewrite (operand_ok _ _ _ _ G).
  destruct (where_rest 1 s) as (V1 & V2 & V3 & V4 & V5 & V6). set (s1 := where_add 1 s) in *.
  assert (Hf1 : frames s1 = (w, p + 1 + 1) :: fr) by (apply where_frames; subst s; apply where_frames; exact (t_frames _ _ _ _ _ _ Ht)).
  assert (Hd1 : dok s1) by (apply dok_where; subst s; apply dok_where; exact (i_data _ _ H)).
  assert (H1 : Inv true s1).
  { destruct (after_grp _ _ _ _ 2 Eb eq_refl) as (x & X1 & X2). eapply move; [ exact H | exact Ht | exact X1 | exact X2 | exact Hd1 | congruence | congruence | congruence | | congruence ].
    rewrite Hf1, Ep. f_equal. f_equal. lia. }
  assert (Hdos : dos s1 = []) by congruence.
  pose proof (i_ctl _ _ H1) as [C1 C2 C3 C4 C5]. pose proof (i_inner _ _ H1 eq_refl) as Hin. unfold depth in Hin.
  destruct (seg_ok_at _ _ (t_seg _ _ _ _ _ _ Ht)) as (Hlev & _ & _). rewrite Hdos in C1.
  destruct (exit_frames (Z.to_nat (lev sg)) (frames s1) sg w (p + 1 + 1)) with (t' := t) as (X1 & X2 & w' & p' & sg' & X3 & X4 & X5 & X6); auto.
  { rewrite Hf1. reflexivity. } { exact (t_seg _ _ _ _ _ _ Ht). } { lia. } { lia. }
  rewrite Z2Nat.id in X1 by lia.
  destruct (Z.leb_spec 0 (lev sg)); [ | lia ]. destruct (Z.leb_spec (lev sg) (depth s1)) as [|Hbad]; [ | unfold depth in Hbad; lia ]. cbn [andb].
  cbn [dos set_frames]. rewrite Hdos, drop_nil.
  set (fr1 := skipn (Z.to_nat (lev sg)) (frames s1)) in *.
  set (s2 := count_instr (set_dos [] (set_frames fr1 s1))).
  assert (HI2 : Inv true s2).
  { split; cbn.
    - apply dok_count, dok_dos, dok_frames. exact Hd1.
    - exact (i_targets _ _ H1).
    - exact (i_ready _ _ H1).
    - exact (i_err _ _ H1).
    - split; [ exact X6 | unfold fr1; rewrite map_skipn; apply base_skipn; exact C2 | unfold fr1; rewrite map_skipn; apply tg_skipn; exact C3 | lia | ].
      unfold fr1, zlen. rewrite skipn_length. unfold zlen in C5. lia.
    - intros _. unfold depth. cbn. exact X2. }
  destruct (top_of s2 HI2) as (w2 & p2 & fr2 & sg2 & ds2 & x2 & T1 & T2 & T3).
  assert (ds2 = []) as ->. { change (dos s2) with (@nil doent) in T3. destruct x2; try congruence. destruct T3 as (? & T3 & _). discriminate. }
  destruct single; [ | split; [ exact HI2 | reflexivity ] ].
  rewrite (done_at s2 w2 p2 fr2 sg2 (t_frames _ _ _ _ _ _ T1) (t_seg _ _ _ _ _ _ T1)).
  destruct (negb _); [ | exact (Inv_ret _ _ HI2) ].
  unfold bytecodes_pointer_pop. rewrite (t_frames _ _ _ _ _ _ T1). cbn [xok]. apply Inv_ret with false.
  eapply leave; [ exact HI2 | exact T1 | | reflexivity | reflexivity | reflexivity | reflexivity | reflexivity ].
  apply dok_frames. exact (i_data _ _ HI2).
Qed.

(** ** One instruction *)
Lemma neg_where : forall d s, negative_top (where_add d s) <-> negative_top s.
Proof. intros d s. unfold negative_top. rewrite where_add_stk. tauto. Qed.

Lemma code_at : forall s w p fr sg ds g1 g g2 k c d, top s w p fr sg ds -> body sg = g1 ++ g :: g2 -> p = zlen (code g1) ->
  nthZ (flat g) k = Some c -> d = k -> bytecode_get m (where_add d s) = Some c.
Proof.
  intros s w p fr sg ds g1 g g2 k c d Ht Eb Ep Hk ->. apply get_at with w (p + k) fr sg.
  - apply where_frames. exact (t_frames _ _ _ _ _ _ Ht).
  - exact (t_seg _ _ _ _ _ _ Ht).
  - rewrite Eb, Ep, grp_code; [ exact Hk | exact (nthZ_Some _ _ _ Hk) ].
Qed.

Lemma low_code : forall single c s, 0 <= c < 66 -> exec m single c s = exec_code m single c s.
Proof.
  intros single c s H. unfold exec, BOUND_DICTIONARY. destruct (Z.ltb_spec c 0); [ lia | ]. destruct (Z.leb_spec 66 c); [ lia | reflexivity ].
Qed.
Lemma plain_control : forall c, c = 0 \/ 11 <= c < 66 -> control_code c = false.
Proof.
  intros c H. unfold control_code, BOUND_DICTIONARY.
  repeat match goal with |- context [c =? ?k] => destruct (Z.eqb_spec c k); [ lia | ] end.
  destruct (Z.leb_spec 66 c); [ lia | reflexivity ].
Qed.
Lemma operands_0 : forall c, 26 <= c <= 65 -> operands c = 0.
Proof.
  intros c H. unfold operands. destruct (Z.ltb_spec c 0); [ lia | ]. destruct (Z.eqb_spec c 0); [ lia | ].
  destruct (Z.leb_spec 11 c); [ | lia ]. destruct (Z.leb_spec c 25); [ lia | reflexivity ].
Qed.
Lemma operands_1 : forall c, c = 0 \/ 11 <= c <= 25 -> operands c = 1.
Proof.
  intros c [->|H]; [ reflexivity | ]. unfold operands. destruct (Z.ltb_spec c 0); [ lia | ]. destruct (Z.eqb_spec c 0); [ lia | ].
  destruct (Z.leb_spec 11 c); [ | lia ]. destruct (Z.leb_spec c 25); [ reflexivity | lia ].
Qed.
Lemma neg_control : forall c, c < 0 -> control_code c = false.
Proof.
  intros c H. unfold control_code, BOUND_DICTIONARY.
  repeat match goal with |- context [c =? ?k] => destruct (Z.eqb_spec c k); [ lia | ] end.
  destruct (Z.leb_spec 66 c); [ lia | reflexivity ].
Qed.

(** the state after the code was fetched and a number popped *)
Lemma popped : forall s0 st x w p fr d, Inv true s0 -> frames s0 = (w, p) :: fr -> stk s0 = x :: st ->
  let s := where_add d (set_stk st (where_add 1 s0)) in
  dok s /\ targets s = targets s0 /\ ready s = ready s0 /\ err s = err s0 /\ frames s = (w, p + (1 + d)) :: fr /\ dos s = dos s0.
Proof.
  intros s0 st x w p fr d H Hf Hs s. unfold s. rewrite where_add_set_stk, where_add_add.
  destruct (where_rest (1 + d) s0) as (W1 & W2 & W3 & W4 & W5 & W6). cbn [targets ready err frames dos set_stk].
  split; [ | rewrite (where_frames _ _ _ _ _ Hf); auto ].
  eapply dok_pop; [ apply dok_where; exact (i_data _ _ H) | ]. rewrite W6. exact Hs.
Qed.
Lemma where0 : forall s, where_add 0 s = s. Proof. exact where_add_0. Qed.

Lemma go_ok : forall s0 w p fr sg x c single, Inv true s0 -> top s0 w p fr sg (dos s0) -> at_spot (body sg) p x -> not_do x ->
  spot_code x = Some c -> ~ risky m s0 -> xok (exec m single c (where_add 1 s0)).
Proof.
  intros s0 w p fr sg x c single H Ht Hx Hnd Hc Hr.
  pose proof (seg_ok_at _ _ (t_seg _ _ _ _ _ _ Ht)) as (Hlev & Hdd & Hgs).
  assert (Hget : bytecode_get m s0 = Some c /\ is_segment_done m s0 = Some false).
  { destruct (spot_room _ _ _ Hx) as [[-> _]|(_ & Hp & Hpc)]; [ discriminate | ]. rewrite Hc in Hpc. split.
    - eapply get_at; [ exact (t_frames _ _ _ _ _ _ Ht) | exact (t_seg _ _ _ _ _ _ Ht) | exact Hpc ].
    - rewrite (done_at _ _ _ _ _ (t_frames _ _ _ _ _ _ Ht) (t_seg _ _ _ _ _ _ Ht)). destruct (Z.ltb_spec p (zlen (code (body sg)))); [ reflexivity | lia ]. }
  destruct Hget as [Hg Hdone]. pose proof (t_frames _ _ _ _ _ _ Ht) as Hf.
  destruct (where_rest 1 s0) as (W1 & W2 & W3 & W4 & W5 & W6).
  assert (Hd1 : dok (where_add 1 s0)) by (apply dok_where; exact (i_data _ _ H)).
  pose proof (where_frames 1 _ _ _ _ Hf) as Hf1.
  assert (Hlow : 1 <= depth s0 <= m_recmax m).
  { pose proof (depth_high _ _ H). pose proof (i_inner _ _ H eq_refl). pose proof (c_low _ _ (i_ctl _ _ H)). lia. }
  inversion Hx as [E0 E1|g1 g g2 Eb E0 E1|g1 b g2 Eb E0 E1|g1 b1 b2 g2 Eb E0 E1|g1 st b g2 Eb E0 E1|g1 g g2 Eb Hgt E0 E1]; subst x.
  - discriminate.
  - assert (Hgo : grp_ok E (lev sg) (dd sg) g) by (rewrite Eb in Hgs; apply Forall_app in Hgs; destruct Hgs as [_ Hgs]; inversion Hgs; assumption).
    symmetry in E0.
    assert (Hafter : forall k, k = zlen (flat g) -> exists y, at_spot (body sg) (p + k) y /\ not_do y) by (intros k Ek; rewrite E0; eapply after_grp; eauto).
    assert (Hcode : forall k v d, nthZ (flat g) k = Some v -> d = k -> bytecode_get m (where_add d s0) = Some v) by (intros; eapply code_at; eauto).
    destruct g; cbn [flat spot_code app] in Hc; inversion Hc; subst c; cbn [grp_ok] in Hgo.
    + (* no operand *)
      destruct Hgo as [-> | [-> | (Hpl & L1 & L2 & L3)]].
      * rewrite low_code by lia. cbn [exec_code xok]. split; [ | split ].
        -- apply dok_count, dok_err, dok_dos, dok_targets, dok_frames. destruct Hd1; split; assumption.
        -- cbn. rewrite W2, (i_targets _ _ H). clear. generalize t. induction r; intro t0; cbn; [ discriminate | ]. destruct l; cbn in *; [ discriminate | ]. exact (IHl a).
        -- discriminate.
      * rewrite low_code by lia. cbn [exec_code].
        rewrite (done_at _ _ _ _ _ Hf1 (t_seg _ _ _ _ _ _ Ht)).
        destruct (Hafter 1 eq_refl) as (y & Y1 & Y2).
        assert (H1 : Inv true (where_add 1 s0)) by (eapply move; [ exact H | exact Ht | exact Y1 | exact Y2 | exact Hd1 | congruence | congruence | congruence | exact Hf1 | exact W1 ]).
        destruct (negb _).
        -- unfold bytecodes_pointer_pop. rewrite Hf1.
           assert (Hl : Inv false (set_frames fr (where_add 1 s0))).
           { eapply leave; [ exact H | exact Ht | apply dok_frames; exact Hd1 | exact W2 | exact W3 | exact W4 | reflexivity | exact W1 ]. }
           destruct (advance_ok _ (fun s => XRet (count_instr s)) Hl) as [(s' & -> & Hs')|[(s' & -> & Hs')| ->]]; [ | exact Hs' | exact I ].
           apply Inv_ret with false, Inv_count. exact Hs'.
        -- apply Inv_ret with true, Inv_count. exact H1.
      * unfold plain0 in Hpl. eapply data_ok; eauto.
        -- apply plain_control. lia.
        -- rewrite operands_0 by lia. reflexivity.
        -- rewrite low_code by lia. pose proof (t_dd _ _ _ _ _ _ Ht). apply exec0_safe; [ exact Hd1 | exact Hpl | rewrite W1; intros e; specialize (L1 e); lia
             | rewrite W1; intros e; specialize (L2 e); lia | rewrite W1; intros e; specialize (L3 e); lia ].
    + (* one operand *)
      destruct Hgo as [Hop Hrw]. assert (Hc0 : c0 = 0 \/ 11 <= c0 <= 25) by (unfold operand_in in Hop; lia).
      eapply data_ok; eauto.
      * apply plain_control. lia.
      * rewrite operands_1 by lia. reflexivity.
      * rewrite low_code by lia. apply exec1_safe with n; [ exact Hd1 | | apply Hcode with 1; reflexivity | ].
        -- rewrite <- (b_nv HT), <- (b_no HT), <- (b_ns HT). exact Hop.
        -- intros -> Hneg. apply Hr. split; [ exact Hdone | ]. exists 23. split; [ exact Hg | ]. right. left. split; [ reflexivity | ].
           exact (proj1 (neg_where 1 s0) Hneg).
    + (* reading *)
      destruct Hgo as (G1 & G2 & G3 & G4). destruct (flags_decode direct rep be format G1) as (F0 & F1 & F2 & F3 & F4). apply Z.ltb_lt in F4.
      eapply data_ok; eauto.
      * apply neg_control. exact F4.
      * unfold operands. destruct (Z.ltb_spec (Z.lnot (read_flags direct rep be format)) 0); [ | lia ]. rewrite F0, F3.
        cbn [flat]. destruct (format =? READ_NBIT), direct; reflexivity.
      * eapply exec_read_safe with (i := i) (w := w0) (o := o); [ exact Hd1 | exact G1 | exact G2 | rewrite <- (b_no HT); exact G3 | | | | ].
        -- apply Hcode with 1; reflexivity.
        -- intros ->. rewrite where_add_add. apply Hcode with 2; reflexivity.
        -- intros ->. rewrite where_add_add. destruct (format =? READ_NBIT) eqn:En.
           ++ apply Hcode with 3; [ cbn [flat]; rewrite En | ]; reflexivity.
           ++ apply Hcode with 2; [ cbn [flat]; rewrite En | ]; reflexivity.
        -- intros -> Hff Hneg. apply Hr. split; [ exact Hdone | ]. eexists. split; [ exact Hg | ]. right. right.
           split; [ exact F4 | ]. split; [ exact F1 | ]. split; [ rewrite F3; exact Hff | ]. exact (proj1 (neg_where 1 s0) Hneg).
    + (* calling a word *)
      destruct (Hafter 1 eq_refl) as (y & Y1 & Y2).
      eapply call_ok with (s0 := s0) (p' := p + 1) (x := y); [ exact H | exact Ht | exact Y1 | exact Hd1 | exact W2 | exact W3 | exact W4 | exact Hf1 | | exact Hgo | left; split; reflexivity ].
      destruct y; try exact W1. destruct Y2.
    + (* if *)
      rewrite low_code by lia. cbn [exec_code]. apply pop_xok; [ exact Hd1 | rewrite W2; exact (i_targets _ _ H) | ]. intros v st Es. rewrite W6 in Es. cbn [xok].
      destruct (v =? 0).
      * destruct (popped s0 st v w p fr 1 H Hf Es) as (P1 & P2 & P3 & P4 & P5 & P6). destruct (Hafter 2 eq_refl) as (y & Y1 & Y2).
        eapply move; eauto.
      * destruct (popped s0 st v w p fr 0 H Hf Es) as (P1 & P2 & P3 & P4 & P5 & P6). rewrite where0 in *.
        eapply move; [ exact H | exact Ht | | | exact P1 | exact P2 | exact P3 | exact P4 | exact P5 | exact P6 ]; [ rewrite E0; eapply at_if; exact Eb | exact I ].
    + (* if ... else *)
      rewrite low_code by lia. cbn [exec_code]. apply pop_xok; [ exact Hd1 | rewrite W2; exact (i_targets _ _ H) | ]. intros v st Es. rewrite W6 in Es.
      destruct (v =? 0).
      * destruct (popped s0 st v w p fr 1 H Hf Es) as (P1 & P2 & P3 & P4 & P5 & P6). cbn [xok].
        eapply move; [ exact H | exact Ht | | | exact P1 | exact P2 | exact P3 | exact P4 | exact P5 | exact P6 ]; [ rewrite E0; eapply at_else; exact Eb | exact I ].
      * rewrite get_set_stk. rewrite (Hcode 1 (b1 + 66) 1 eq_refl eq_refl). unfold BOUND_DICTIONARY. replace (b1 + 66 - 66) with b1 by lia.
        destruct (popped s0 st v w p fr 2 H Hf Es) as (P1 & P2 & P3 & P4 & P5 & P6). destruct (Hafter 3 eq_refl) as (y & Y1 & Y2).
        set (s2 := where_add 2 (set_stk st (where_add 1 s0))) in *. assert (Hdep : depth s2 = depth s0) by (unfold depth; rewrite P5, Hf, !zlen_cons; reflexivity).
        apply push_seg_xok; [ exact P1 | rewrite P2; exact (i_targets _ _ H) | lia | ]. intro Hlt. cbn [xok]. apply Inv_count.
        eapply enter with (s := s0) (p' := p + 3) (x := y); [ exact H | exact Ht | exact Y1 | apply dok_frames; exact P1 | exact P2 | exact P3 | exact P4 | cbn; rewrite P5; reflexivity | | exact (proj1 Hgo) | right; split; [ reflexivity | destruct y; lia ] | lia ].
        destruct y; try exact P6. destruct Y2.
    + (* do *)
      assert (Hc56 : exec m single (if step then 6 else 5) (where_add 1 s0) =
         pop2_or_fail (where_add 1 s0) (fun x y s => if zlen (dos s) =? m_recmax m then fail e_recursion_depth_exceeded s else do_push m step y x s XNext))
        by (destruct step; reflexivity).
      rewrite Hc56. unfold pop2_or_fail, stack_cannot_pop2, stack_pop2. rewrite W6. destruct (zlen (stk s0) <? 2) eqn:E2.
      { apply fail_ret; [ exact I | exact Hd1 | rewrite W2; exact (i_targets _ _ H) ]. }
      destruct (two _ E2) as (u & v & st & Es). rewrite Es.
      assert (Hd2 : dok (set_stk st (where_add 1 s0))).
      { apply dok_stk; [ exact Hd1 | ]. pose proof (k_stk _ _ _ (i_data _ _ H)) as Hk. rewrite Es, !zlen_cons in Hk. lia. }
      cbn [dos set_stk]. destruct (Z.eqb_spec (zlen (dos (where_add 1 s0))) (m_recmax m)) as [|Hne].
      { apply fail_ret; [ exact I | exact Hd2 | cbn; rewrite W2; exact (i_targets _ _ H) ]. }
      unfold do_push. cbn [dos set_stk]. pose proof (stack_loops _ _ (c_stack _ _ (i_ctl _ _ H))) as Hlp. unfold depth in Hlow. rewrite W1 in *.
      destruct (Z.ltb_spec (zlen (dos s0)) (m_recmax m)); [ | lia ]. cbn [xok].
      destruct H as [_ I1 I2 I3 [C1 C2 C3 C4 C5] I4]. destruct Ht as [T1 T2 T3 T4 T5]. specialize (I4 eq_refl). unfold depth in *. rewrite T1 in *.
      split.
      * apply dok_dos. exact Hd2.
      * cbn. congruence.
      * cbn. congruence.
      * cbn. congruence.
      * cbn [frames dos set_dos set_stk]. rewrite Hf1. split; [ | exact C2 | exact C3 | exact C4 | exact C5 ].
        eapply so_do; eauto; [ rewrite E0; eapply at_do; exact Eb | cbn [d_depth]; rewrite zlen_cons; lia ].
      * intros _. unfold depth. cbn [frames set_dos set_stk]. rewrite Hf1, zlen_cons. rewrite zlen_cons in I4. exact I4.
    + (* begin ... again *)
      eapply call_ok with (s0 := s0) (p' := p + 1) (x := STail (GAgain b)); [ exact H | exact Ht | | exact Hd1 | exact W2 | exact W3 | exact W4 | exact Hf1 | exact W1 | exact Hgo | right; split; [ reflexivity | lia ] ].
      rewrite E0. eapply at_tail; [ exact Eb | exact I ].
    + (* begin ... until *)
      eapply call_ok with (s0 := s0) (p' := p + 1) (x := STail (GUntil b)); [ exact H | exact Ht | | exact Hd1 | exact W2 | exact W3 | exact W4 | exact Hf1 | exact W1 | exact Hgo | right; split; [ reflexivity | lia ] ].
      rewrite E0. eapply at_tail; [ exact Eb | exact I ].
    + (* begin ... while ... repeat *)
      eapply call_ok with (s0 := s0) (p' := p + 1) (x := STail (GWhile b1 b2)); [ exact H | exact Ht | | exact Hd1 | exact W2 | exact W3 | exact W4 | exact Hf1 | exact W1 | exact (proj1 Hgo) | right; split; [ reflexivity | lia ] ].
      rewrite E0. eapply at_tail; [ exact Eb | exact I ].
    + (* exit *)
      destruct Hgo as [-> _].
      assert (Hempty : dos s0 = []).
      { destruct (dos s0) eqn:Ed; [ reflexivity | ]. exfalso. apply Hr. split; [ exact Hdone | ]. exists 10. split; [ exact Hg | ]. left.
        split; [ reflexivity | ]. rewrite Ed. discriminate. }
      rewrite Hempty in Ht. eapply exit_ok; [ exact H | exact Ht | exact Hempty | reflexivity | exact Eb | exact E0 | ].
      apply Hcode with 1; reflexivity.
  - (* the branch of an if *)
    symmetry in E0. cbn [spot_code] in Hc. inversion Hc. subst c.
    assert (Hgo : grp_ok E (lev sg) (dd sg) (GIf b)) by (rewrite Eb in Hgs; apply Forall_app in Hgs; destruct Hgs as [_ Hgs]; inversion Hgs; assumption).
    destruct (after_grp _ _ _ _ 2 Eb eq_refl) as (y & Y1 & Y2).
    eapply call_ok with (s0 := s0) (p' := p + 1) (x := y); [ exact H | exact Ht | | exact Hd1 | exact W2 | exact W3 | exact W4 | exact Hf1 | | exact Hgo | right; split; [ reflexivity | destruct y; lia ] ].
    + replace (p + 1) with (zlen (code g1) + 2) by lia. exact Y1.
    + destruct y; try exact W1. destruct Y2.
  - (* the else branch *)
    symmetry in E0. cbn [spot_code] in Hc. inversion Hc. subst c.
    assert (Hgo : grp_ok E (lev sg) (dd sg) (GIfElse b1 b2)) by (rewrite Eb in Hgs; apply Forall_app in Hgs; destruct Hgs as [_ Hgs]; inversion Hgs; assumption).
    destruct (after_grp _ _ _ _ 3 Eb eq_refl) as (y & Y1 & Y2).
    eapply call_ok with (s0 := s0) (p' := p + 1) (x := y); [ exact H | exact Ht | | exact Hd1 | exact W2 | exact W3 | exact W4 | exact Hf1 | | exact (proj2 Hgo) | right; split; [ reflexivity | destruct y; lia ] ].
    + replace (p + 1) with (zlen (code g1) + 3) by lia. exact Y1.
    + destruct y; try exact W1. destruct Y2.
  - destruct Hnd.
  - (* again, until, while *)
    symmetry in E0.
    assert (Hgo : grp_ok E (lev sg) (dd sg) g) by (rewrite Eb in Hgs; apply Forall_app in Hgs; destruct Hgs as [_ Hgs]; inversion Hgs; assumption).
    assert (Hback : forall q, q = zlen (code g1) -> exists y, at_spot (body sg) q y /\ not_do y).
    { intros q ->. exists (SGrp g). split; [ eapply at_grp; exact Eb | exact I ]. }
    destruct g; try contradiction; cbn [spot_code] in Hc; inversion Hc; subst c; rewrite low_code by lia; cbn [exec_code].
    + destruct (where_rest (-2) (where_add 1 s0)) as (V1 & V2 & V3 & V4 & V5 & V6). cbn [xok].
      destruct (Hback (p + 1 + -2) ltac:(lia)) as (y & Y1 & Y2).
      eapply move; [ exact H | exact Ht | exact Y1 | exact Y2 | apply dok_where; exact Hd1 | congruence | congruence | congruence | | congruence ].
      apply where_frames. exact Hf1.
    + apply pop_xok; [ exact Hd1 | rewrite W2; exact (i_targets _ _ H) | ]. intros v st Es. rewrite W6 in Es. cbn [xok].
      destruct (v =? 0).
      * destruct (popped s0 st v w p fr (-2) H Hf Es) as (P1 & P2 & P3 & P4 & P5 & P6). destruct (Hback (p + (1 + -2)) ltac:(lia)) as (y & Y1 & Y2).
        eapply move; eauto.
      * destruct (popped s0 st v w p fr 0 H Hf Es) as (P1 & P2 & P3 & P4 & P5 & P6). rewrite where0 in *.
        destruct (after_grp _ _ _ _ 2 Eb eq_refl) as (y & Y1 & Y2). replace (zlen (code g1) + 2) with (p + (1 + 0)) in Y1 by lia.
        eapply move; eauto.
    + apply pop_xok; [ exact Hd1 | rewrite W2; exact (i_targets _ _ H) | ]. intros v st Es. rewrite W6 in Es.
      destruct (v =? 0).
      * destruct (popped s0 st v w p fr 1 H Hf Es) as (P1 & P2 & P3 & P4 & P5 & P6). cbn [xok].
        destruct (after_grp _ _ _ _ 3 Eb eq_refl) as (y & Y1 & Y2). replace (zlen (code g1) + 3) with (p + (1 + 1)) in Y1 by lia.
        eapply move; eauto.
      * rewrite get_set_stk.
        assert (Hc2 : bytecode_get m (where_add 1 s0) = Some (b2 + 66)).
        { apply get_at with w (p + 1) fr sg; [ exact Hf1 | exact (t_seg _ _ _ _ _ _ Ht) | ]. rewrite Eb. replace (p + 1) with (zlen (code g1) + 2) by lia.
          rewrite grp_code; [ reflexivity | unfold zlen; cbn; lia ]. }
        rewrite Hc2. unfold BOUND_DICTIONARY. replace (b2 + 66 - 66) with b2 by lia.
        destruct (popped s0 st v w p fr (-2) H Hf Es) as (P1 & P2 & P3 & P4 & P5 & P6). destruct (Hback (p + (1 + -2)) ltac:(lia)) as (y & Y1 & Y2).
        set (s2 := where_add (-2) (set_stk st (where_add 1 s0))) in *. assert (Hdep : depth s2 = depth s0) by (unfold depth; rewrite P5, Hf, !zlen_cons; reflexivity).
        apply push_seg_xok; [ exact P1 | rewrite P2; exact (i_targets _ _ H) | lia | ]. intro Hlt. cbn [xok]. apply Inv_count.
        eapply enter with (s := s0) (p' := p + (1 + -2)) (x := y); [ exact H | exact Ht | exact Y1 | apply dok_frames; exact P1 | exact P2 | exact P3 | exact P4 | cbn; rewrite P5; reflexivity | | exact (proj2 Hgo) | right; split; [ reflexivity | destruct y; lia ] | lia ].
        destruct y; try exact P6. destruct Y2.
Qed.

(** ** A trip *)
Lemma after_ok : forall s single, Inv true s -> tok (after_instruction m single s).
Proof.
  intros s single H. apply Inv_count in H. unfold after_instruction. cbv zeta. set (s1 := count_instr s) in *. destruct single; [ | exact H ].
  destruct (top_of _ H) as (w & p & fr & sg & ds & x & Ht & Hx & Hd).
  rewrite (done_at _ _ _ _ _ (t_frames _ _ _ _ _ _ Ht) (t_seg _ _ _ _ _ _ Ht)). destruct (Z.ltb_spec p (zlen (code (body sg)))) as [|Hge]; cbn [negb].
  - apply Inv_ret with true. exact H.
  - destruct (spot_room _ _ _ Hx) as [[-> _]|(_ & Hp & _)]; [ | lia ].
    unfold bytecodes_pointer_pop. rewrite (t_frames _ _ _ _ _ _ Ht). cbn [tok]. apply Inv_ret with false.
    eapply leave; [ exact H | exact Ht | apply dok_frames; exact (i_data _ _ H) | reflexivity | reflexivity | reflexivity | reflexivity | exact Hd ].
Qed.

Lemma exit_end : forall s, Inv true s -> dos s = [] -> tok (end_of_segment m s).
Proof.
  intros s H Hd. destruct (top_of _ H) as (w & p & fr & sg & ds & x & Ht & Hx & Hx2).
  destruct x; [ eapply end_ok; eauto .. | destruct Hx2 as (d & Hx2 & _); congruence | eapply end_ok; eauto ].
Qed.

Lemma xok_tok : forall x single, xok x ->
  tok match x with XNext s => after_instruction m single s | XRet s => TRet s | XExit s => end_of_segment m s | XBad b => TBad b end.
Proof.
  intros x single H. destruct x; cbn [xok] in H; [ apply after_ok; exact H | exact H | destruct H; apply exit_end; assumption | exact H ].
Qed.

Lemma tick_ok : forall s inner single, Inv inner s -> ~ risky m s -> tok (tick m single t inner s).
Proof.
  intros s inner single H Hr. unfold tick. destruct (negb inner && (depth s =? t)) eqn:Eo.
  { apply Inv_ret with inner. exact H. }
  assert (H1 : Inv true s).
  { destruct H. split; try assumption. intros _. destruct inner; [ auto | ]. cbn in Eo. apply Z.eqb_neq in Eo. pose proof (c_low _ _ i_ctl0). unfold depth in *. lia. }
  clear H Eo. destruct (top_of _ H1) as (w & p & fr & sg & ds & x & Ht & Hx & Hd).
  rewrite (done_at _ _ _ _ _ (t_frames _ _ _ _ _ _ Ht) (t_seg _ _ _ _ _ _ Ht)).
  destruct (spot_room _ _ _ Hx) as [[-> Ep]|(Hne & Hp & Hc)].
  { rewrite Ep, Z.ltb_irrefl. cbn [negb]. eapply end_ok; eauto. }
  destruct (Z.ltb_spec p (zlen (code (body sg)))) as [_|]; [ cbn [negb] | lia ].
  pose proof (spot_pos _ _ _ Hx) as Hp0.
  destruct (nthZ (code (body sg)) p) as [c|] eqn:Hcp; [ | apply nthZ_None in Hcp; lia ]. symmetry in Hc.
  unfold one_instruction. rewrite (get_at _ _ _ _ _ _ (t_frames _ _ _ _ _ _ Ht) (t_seg _ _ _ _ _ _ Ht) Hcp).
  assert (Hdep : depth s = zlen fr + 1) by (unfold depth; rewrite (t_frames _ _ _ _ _ _ Ht), zlen_cons; reflexivity).
  destruct (in_do s) as [d|] eqn:Edo.
  - unfold in_do in Edo. destruct (dos s) as [|d0 l] eqn:Eds; [ discriminate | ]. destruct (Z.eqb_spec (d_depth d0) (depth s)) as [Ed|]; [ | discriminate ]. inversion Edo. subst d0.
    destruct x as [|g|b|b|g];
      try (exfalso; subst ds; pose proof (stack_depths _ _ (t_stack _ _ _ _ _ _ Ht)) as Hf; inversion Hf; subst; lia).
    destruct Hd as (e & Hd & He). inversion Hd. subst e l. clear He.
    inversion Hx as [ | | | |g1 st b' g2 Eb E0 E1| ]. subst b'.
    destruct (d_stop d <=? d_i d).
    + cbn [tok tl]. destruct (after_grp _ _ _ _ 2 Eb eq_refl) as (y & Y1 & Y2). replace (zlen (code g1) + 2) with (p + 1) in Y1 by lia.
      destruct (where_rest 1 (set_dos ds s)) as (W1 & W2 & W3 & W4 & W5 & W6).
      eapply move; [ exact H1 | exact Ht | exact Y1 | exact Y2 | apply dok_where, dok_dos; exact (i_data _ _ H1) | exact W2 | exact W3 | exact W4 | | exact W1 ].
      apply where_frames. exact (t_frames _ _ _ _ _ _ Ht).
    + cbn [spot_code] in Hc. inversion Hc. subst c. apply xok_tok.
      pose proof (seg_ok_at _ _ (t_seg _ _ _ _ _ _ Ht)) as (_ & _ & Hgs). rewrite Eb in Hgs. apply Forall_app in Hgs. destruct Hgs as [_ Hgs]. inversion Hgs as [|? ? Hg _]. subst.
      destruct Hg as [Hg _].
      eapply call_ok with (s0 := s) (x := SDo b) (l := lev sg + 1) (d := dd sg + 1); [ exact H1 | exact Ht | exact Hx | exact (i_data _ _ H1) | reflexivity | reflexivity | reflexivity | exact (t_frames _ _ _ _ _ _ Ht) | | exact Hg | right; split; lia ].
      exists d. split; [ exact Eds | lia ].
  - assert (Hnd : not_do x).
    { destruct x; try exact I. destruct Hd as (d & Hd & He). unfold in_do in Edo. rewrite Hd, He, Z.eqb_refl in Edo. discriminate. }
    assert (Hds : dos s = ds) by (destruct x; try exact Hd; destruct Hnd).
    apply xok_tok. eapply go_ok; [ exact H1 | rewrite Hds; exact Ht | exact Hx | exact Hnd | exact Hc | exact Hr ].
Qed.

Lemma trips_ok : forall n inner single s, Inv inner s ->
  (forall k i s1, (k < n)%nat -> trips m single t k inner s = TGo i s1 -> Inv i s1 -> ~ risky m s1) -> tok (trips m single t n inner s).
Proof.
  induction n as [|n IH]; intros inner single s H Hr; [ exact H | ]. cbn [trips].
  pose proof (tick_ok s inner single H (Hr O inner s ltac:(lia) eq_refl H)) as Htk.
  destruct (tick m single t inner s) as [i s1| |] eqn:Et; [ | exact Htk | exact Htk ].
  apply IH; [ exact Htk | ]. intros k j s2 Hk Hs2. apply (Hr (S k)); [ lia | ]. cbn [trips]. rewrite Et. exact Hs2.
Qed.

(** programs without the risky words *)
Lemma no_risk : f_rewind E = false -> f_rep E = false -> (f_exit E = false \/ f_do E = false) -> forall i s, Inv i s -> ~ risky m s.
Proof.
  intros Fw Fr Fx i s H (Hdone & c & Hg & Hc).
  destruct (frames s) as [|[w p] fr] eqn:Ef; [ unfold is_segment_done, which_where in Hdone; rewrite Ef in Hdone; discriminate | ].
  pose proof (c_stack _ _ (i_ctl _ _ H)) as Hs. rewrite Ef in Hs.
  destruct (stack_inv _ _ _ _ Hs) as (sg & x & ds & S1 & S2 & S3 & S4 & S5 & S6).
  rewrite (done_at _ _ _ _ _ Ef S2) in Hdone. destruct (Z.ltb_spec p (zlen (code (body sg)))) as [Hp|]; [ | discriminate ].
  destruct (spot_room _ _ _ S3) as [[-> Ep]|(Hne & _ & Hpc)]; [ lia | ].
  assert (Hgs : Forall (grp_ok E (lev sg) (dd sg)) (body sg)) by (exact (proj2 (proj2 (seg_ok_at _ _ S2)))).
  assert (Hall : forall g, In g (body sg) -> grp_ok E (lev sg) (dd sg) g) by (intros g Hin; rewrite Forall_forall in Hgs; auto).
  assert (Hin : forall g1 g g2, body sg = g1 ++ g :: g2 -> grp_ok E (lev sg) (dd sg) g) by (intros g1 g g2 Eb; apply Hall; rewrite Eb; apply in_elt).
  assert (Hsub : forall b l d, sub E b l d -> 0 <= b) by (intros b l d Hb; apply nthZ_Some in Hb; lia).
  assert (Hsc : spot_code x = Some c).
  { rewrite <- Hpc. destruct (nthZ (code (body sg)) p) as [c'|] eqn:Hcp.
    - rewrite (get_at _ _ _ _ _ _ Ef S2 Hcp) in Hg. exact Hg.
    - exfalso. apply nthZ_None in Hcp. pose proof (spot_pos _ _ _ S3). lia. }
  assert (Hbad : c = 10 /\ (f_exit E = true) \/ c = 23 /\ f_rewind E = true \/ c < 0 /\ (Z.testbit (Z.lnot c) 1 = true -> f_rep E = true) \/ c <> 10 /\ c <> 23 /\ 0 <= c).
  { clear Hc. inversion S3 as [E0 E1|g1 g g2 Eb E0 E1|g1 b g2 Eb E0 E1|g1 b1 b2 g2 Eb E0 E1|g1 st b g2 Eb E0 E1|g1 g g2 Eb Hgt E0 E1]; subst x; [ congruence | | | | | ].
    - pose proof (Hin _ _ _ Eb) as Hgo. destruct g; cbn [spot_code flat app] in Hsc; inversion Hsc; subst c; cbn [grp_ok] in Hgo.
      + right. right. right. destruct Hgo as [->|[->|(Hpl & _)]]; [ lia .. | unfold plain0 in Hpl; lia ].
      + destruct Hgo as [Hop Hw]. destruct (Z.eq_dec c0 23) as [->|]; [ auto | ]. right. right. right. unfold operand_in in Hop. lia.
      + destruct Hgo as (G1 & G2 & G3 & G4). destruct (flags_decode direct rep be format G1) as (F0 & F1 & F2 & F3 & F4). apply Z.ltb_lt in F4.
        right. right. left. split; [ exact F4 | ]. rewrite F1. exact G4.
      + right. right. right. apply Hsub in Hgo. lia.
      + right. right. right. lia.
      + right. right. right. lia.
      + right. right. right. destruct step; lia.
      + right. right. right. apply Hsub in Hgo. lia.
      + right. right. right. apply Hsub in Hgo. lia.
      + right. right. right. destruct Hgo as [Hgo _]. apply Hsub in Hgo. lia.
      + left. tauto.
    - pose proof (Hin _ _ _ Eb) as Hgo. inversion Hsc. apply Hsub in Hgo. lia.
    - pose proof (Hin _ _ _ Eb) as [_ Hgo]. inversion Hsc. apply Hsub in Hgo. lia.
    - pose proof (Hin _ _ _ Eb) as [Hgo _]. inversion Hsc. apply Hsub in Hgo. lia.
    - destruct g; try contradiction; cbn [spot_code] in Hsc; inversion Hsc; lia. }
  unfold CODE_EXIT, CODE_REWIND in Hc.
  destruct Hbad as [[-> B]|[[-> B]|[[Bl B]|(B1 & B2 & B3)]]].
  - destruct Hc as [[_ Hd]|[[Hc _]|[Hc _]]]; [ | lia | lia ]. destruct Fx as [Fx|Fx]; [ congruence | ].
    destruct (dos s) as [|d l] eqn:Ed; [ congruence | ]. apply stack_do_feature in Hs. congruence.
  - congruence.
  - destruct Hc as [[Hc _]|[[Hc _]|(_ & Ht & _)]]; [ lia | lia | ]. specialize (B Ht). congruence.
  - destruct Hc as [[Hc _]|[[Hc _]|(Hc & _)]]; lia.
Qed.
End Run.
