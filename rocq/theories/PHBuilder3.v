(** Proofs for C24, continued: clear, snapshots and histories. *)
From Coq Require Import String.
From Verif Require Import Base BaseLemmas PValid Content KCore Core KOption Option Merge Growable SpecGrowable PGrowable Builder HBuilder SpecHistory PHBuilder PHBuilder2.
Local Open Scope string_scope.
Local Open Scope list_scope.
Local Open Scope Z_scope.

(** ** clear *)
Section Clear.
Variable o : options.
Hypothesis G : growing o.

Definition clears (hb : hbuilder) : Prop := forall b h, rep h hb b -> exists h' hb', hclear o hb h = Ok (h', hb') /\ moves [] h h' /\ good [] (zlen h) h' hb' (clear b).

Lemma clears_all : forall hcs, Forall clears hcs -> forall cs h, all2 (rep h) hcs cs ->
  exists h' hcs', map_comp (hclear o) hcs h = Ok (h', hcs') /\ moves [] h h' /\ goods [] (zlen h) h' hcs' (map clear cs).
Proof.
  induction 1 as [ | hc hcs D _ IH ]; intros [ | c cs ] h H; try contradiction.
  - exists h, []. split; [ reflexivity | ]. split; [ apply moves_refl | ]. split; [ exact I | ]. split; [ constructor | intros p [] ].
  - destruct H as [ R H ]. destruct (D c h R) as (h1 & hc1 & E1 & M1 & R1 & N1 & P1).
    assert (H1 : all2 (rep h1) hcs cs) by (apply (reps_moves [] h); [ exact M1 | exact H | auto ]).
    destruct (IH cs h1 H1) as (h2 & hcs2 & E2 & M2 & R2 & N2 & P2). exists h2, (hc1 :: hcs2). cbn [map_comp]. unfold then_. rewrite E1. cbn [bind fst snd]. rewrite E2. cbn [bind fst snd]. split; [ reflexivity | ].
    split; [ apply (moves_trans _ [] _ h1); [ exact M1 | exact M2 | intros p [] ] | ]. split; [ split; [ apply (rep_moves [] h1); [ exact M2 | exact R1 | auto ] | exact R2 ] | ]. cbn [flat_map]. split.
    + apply NoDup_app_iff. split; [ exact N1 | ]. split; [ exact N2 | ]. intros p Hp Hq. destruct (P2 p Hq) as [ [] | Hq' ]. pose proof (rep_range _ _ _ R1 p Hp). lia.
    + intros p Hp. apply in_app_or in Hp. destruct Hp as [ Hp | Hp ]; [ apply P1; exact Hp | ]. destruct (P2 p Hp) as [ [] | Hq ]. right. destruct M1. lia.
Qed.

(** a cleared buffer and a cleared content *)
Lemma with_content : forall h h1 h2 g l hc c, moves [] h h1 -> hold h1 g l -> zlen h <= g_ptr g -> moves [] h1 h2 -> good [] (zlen h1) h2 hc c ->
  moves [] h h2 /\ hold h2 g l /\ rep h2 hc c /\ NoDup (g_ptr g :: ptrs hc) /\ forall p, In p (g_ptr g :: ptrs hc) -> In p [] \/ zlen h <= p.
Proof.
  intros h h1 h2 g l hc c M1 H1 P1 M2 (R2 & N2 & P2). pose proof (hold_range _ _ _ H1) as Rg.
  split; [ apply (moves_trans _ [] _ h1); [ exact M1 | exact M2 | intros p [] ] | ]. split; [ apply (hold_moves h1 _ []); auto | ]. split; [ exact R2 | ]. split.
  - constructor; [ | exact N2 ]. intros Hin. destruct (P2 _ Hin) as [ [] | ]. lia.
  - intros p [ <- | Hp ]; [ right; exact P1 | ]. destruct (P2 p Hp) as [ [] | ]. right. destruct M1. lia.
Qed.

Theorem hclear_ok : forall hb, clears hb.
Proof.
  induction hb using hbuilder_ind'; intros b h R; destruct b; try contradiction; cbn [hclear clear].
  - exists h, (HUnknown 0). split; [ reflexivity | ]. split; [ apply moves_refl | ]. split; [ reflexivity | ]. split; [ constructor | intros p [] ].
  - destruct (clear_hold o G g h) as (h1 & g1 & E & M & H & P). exists h1, (HBool g1). unfold then_. rewrite E. split; [ reflexivity | ]. split; [ exact M | ]. split; [ exact H | ]. cbn [ptrs]. split; [ apply NoDup1 | ]. intros p [ <- | [] ]. right. lia.
  - destruct (clear_hold o G g h) as (h1 & g1 & E & M & H & P). exists h1, (HInt g1). unfold then_. rewrite E. split; [ reflexivity | ]. split; [ exact M | ]. split; [ exact H | ]. cbn [ptrs]. split; [ apply NoDup1 | ]. intros p [ <- | [] ]. right. lia.
  - destruct (clear_hold o G g h) as (h1 & g1 & E & M & H & P). exists h1, (HReal g1). unfold then_. rewrite E. split; [ reflexivity | ]. split; [ exact M | ]. split; [ exact H | ]. cbn [ptrs]. split; [ apply NoDup1 | ]. intros p [ <- | [] ]. right. lia.
  - destruct R as [ _ R ]. destruct (clear_hold o G g h) as (h1 & g1 & E1 & M1 & H1 & P1).
    destruct (IHhb b h1 (rep_moves [] _ _ _ _ M1 R (fun _ _ H => H))) as (h2 & hc2 & E2 & M2 & G2).
    exists h2, (HOption g1 hc2). unfold then_. rewrite E1. cbn [bind fst snd]. rewrite E2. split; [ reflexivity | ].
    destruct (with_content h h1 h2 g1 [] hc2 _ M1 H1 ltac:(lia) M2 G2) as (M & H & R2 & N & P). split; [ exact M | ]. split; [ split; assumption | ]. split; assumption.
  - destruct R as (_ & R & ->). destruct (clear_hold o G g h) as (h1 & g1 & E1 & M1 & H1 & P1). destruct (append_hold o G g1 0 [] h1 H1) as (h1' & g1' & E1' & M1' & H1' & P1').
    assert (M1'' : moves [] h h1') by (apply (moves_trans _ [g_ptr g1] _ h1); [ exact M1 | exact M1' | intros p [ <- | [] ]; right; lia ]).
    destruct (IHhb b h1' (rep_moves [] _ _ _ _ M1'' R (fun _ _ H => H))) as (h2 & hc2 & E2 & M2 & G2).
    exists h2, (HList g1' hc2 begun0). unfold then_. rewrite E1. cbn [bind fst snd]. rewrite E1'. cbn [bind fst snd]. rewrite E2. split; [ reflexivity | ].
    assert (P : zlen h <= g_ptr g1') by (destruct M1; destruct P1'; lia).
    destruct (with_content h h1' h2 g1' [0] hc2 _ M1'' H1' P M2 G2) as (M & H & R2 & N & P'). split; [ exact M | ]. split; [ split; [ exact H | split; [ exact R2 | reflexivity ] ] | ]. split; assumption.
  - destruct R as (R & _). destruct (clears_all cs H contents h R) as (h1 & hcs1 & E & M & Gd). exists h1. eexists. unfold then_. rewrite E. split; [ reflexivity | ]. split; [ exact M | ]. apply tuple_good. exact Gd.
  - destruct R as (R & _). destruct (clears_all cs H contents h R) as (h1 & hcs1 & E & M & Gd). exists h1. eexists. unfold then_. rewrite E. split; [ reflexivity | ]. split; [ exact M | ]. apply record_good; [ exact Gd | lia | discriminate ].
  - destruct R as (_ & _ & R & ->). destruct (clear_hold o G gt h) as (h1 & g1 & E1 & M1 & H1 & P1). destruct (clear_hold o G gi h1) as (h2 & g2 & E2 & M2 & H2 & P2).
    assert (M12 : moves [] h h2) by (apply (moves_trans _ [] _ h1); [ exact M1 | exact M2 | intros p [] ]).
    destruct (clears_all cs H contents h2 (reps_moves [] _ _ _ _ M12 R (fun _ _ H => H))) as (h3 & hcs3 & E3 & M3 & R3 & N3 & P3).
    exists h3. eexists. unfold then_. rewrite E1. cbn [bind fst snd]. rewrite E2. cbn [bind fst snd]. rewrite E3. split; [ reflexivity | ].
    pose proof (hold_range _ _ _ H1) as Z1. pose proof (hold_range _ _ _ H2) as Z2.
    split; [ apply (moves_trans _ [] _ h2); [ exact M12 | exact M3 | intros p [] ] | ]. cbn [fst snd]. split; [ | split ].
    + split; [ apply (hold_moves h2 _ []); [ apply (hold_moves h1 _ []) | | ]; auto | ]. split; [ apply (hold_moves h2 _ []); auto | ]. split; [ exact R3 | reflexivity ].
    + cbn [ptrs]. constructor; [ intros [ E | Hin ]; [ lia | destruct (P3 _ Hin) as [ [] | ]; destruct M2; lia ] | ]. constructor; [ intros Hin; destruct (P3 _ Hin) as [ [] | ]; lia | exact N3 ].
    + cbn [ptrs]. intros p [ <- | [ <- | Hp ] ]; [ right; lia | right; destruct M1; lia | ]. destruct (P3 p Hp) as [ [] | ]. right. destruct M12. lia.
Qed.
End Clear.

(** ** Snapshots *)
Lemma snap_ind' (P : snap -> Prop)
  (f0 : forall n, P (SUnknown n)) (f1 : forall v, P (SBool v)) (f2 : forall v, P (SInt v)) (f3 : forall v, P (SReal v))
  (f4 : forall v c, P c -> P (SOption v c)) (f5 : forall v c, P c -> P (SList v c))
  (f6 : forall cs len, Forall P cs -> P (STuple cs len)) (f7 : forall cs keys len, Forall P cs -> P (SRecord cs keys len))
  (f8 : forall v w cs, Forall P cs -> P (SUnion v w cs)) : forall s, P s.
Proof.
  fix F 1. intros s. assert (L : forall cs, Forall P cs) by (induction cs; constructor; [ apply F | assumption ]).
  destruct s; [ apply f0 | apply f1 | apply f2 | apply f3 | apply f4; apply F | apply f5; apply F | apply f6; apply L | apply f7; apply L | apply f8; apply L ].
Qed.

(** all items of the buffers of a snapshot have been written *)
Definition readable (h : mem) (v : view) : Prop := forall i, 0 <= i < v_length v -> exists x, cell h (v_ptr v) i = Some (Some x).
Section Every.
  Context {A : Type} (P : A -> Prop).
  Fixpoint every (l : list A) : Prop := match l with [] => True | x :: l => P x /\ every l end.
End Every.
Fixpoint legible (h : mem) (s : snap) : Prop :=
  match s with
  | SUnknown _ => True
  | SBool v | SInt v | SReal v => readable h v
  | SOption v c | SList v c => readable h v /\ legible h c
  | STuple cs _ | SRecord cs _ _ => every (legible h) cs
  | SUnion v w cs => readable h v /\ readable h w /\ every (legible h) cs
  end.
Lemma getitem_cell : forall h p i x, cell h p i = Some (Some x) -> getitem h p i = Ok x.
Proof.
  intros h p i x H. unfold cell in H. unfold getitem, peek. destruct (nthZ h p) as [ b | ] eqn:E; [ | discriminate ]. apply rd_Ok in E. apply rd_Ok in H. rewrite E. cbn [bind]. rewrite H. reflexivity.
Qed.
Lemma read_moves : forall ps h h' v, moves ps h h' -> readable h v -> read_view h' v = read_view h v /\ readable h' v.
Proof.
  intros ps h h' v (_ & W & _) R. split.
  - unfold read_view. assert (H : forall l, (forall i, In i l -> 0 <= i < v_length v) -> mapres (getitem h' (v_ptr v)) l = mapres (getitem h (v_ptr v)) l).
    { induction l as [ | i l IH ]; intros Hl; cbn [mapres]; [ reflexivity | ]. destruct (R i (Hl i (or_introl eq_refl))) as (x & Hx).
      rewrite (getitem_cell _ _ _ _ Hx), (getitem_cell _ _ _ _ (W _ _ _ Hx)), IH; [ reflexivity | intros j Hj; apply Hl; right; exact Hj ]. }
    apply H. intros i Hi. destruct (In_nthZ _ _ Hi) as (j & Hj). destruct (Z.le_gt_cases 0 (v_length v)) as [ L | L ].
    + pose proof (nthZ_Some _ _ _ Hj) as Hr. rewrite zlen_zseq in Hr by lia. rewrite nthZ_zseq in Hj by lia. injection Hj as <-. lia.
    + rewrite zseq_nil in Hj by lia. rewrite nthZ_nil in Hj. discriminate.
  - intros i Hi. destruct (R i Hi) as (x & Hx). exists x. apply W. exact Hx.
Qed.
Lemma every_Forall : forall {A} (P : A -> Prop) l, every P l <-> Forall P l.
Proof. induction l as [ | x l IH ]; cbn [every]; [ split; constructor | ]. rewrite IH. split; [ intros [ ? ? ]; constructor; assumption | inversion 1; auto ]. Qed.
Lemma legible_moves : forall ps h h' s, moves ps h h' -> legible h s -> legible h' s.
Proof.
  intros ps h h' s M. induction s using snap_ind'; cbn [legible]; intros R; auto; try (apply (read_moves ps h); assumption).
  - destruct R. split; [ apply (read_moves ps h) | ]; auto.
  - destruct R. split; [ apply (read_moves ps h) | ]; auto.
  - apply every_Forall. apply every_Forall in R. rewrite Forall_forall in *. auto.
  - apply every_Forall. apply every_Forall in R. rewrite Forall_forall in *. auto.
  - destruct R as (R1 & R2 & R). split; [ apply (read_moves ps h); assumption | ]. split; [ apply (read_moves ps h); assumption | ]. apply every_Forall. apply every_Forall in R. rewrite Forall_forall in *. auto.
Qed.
Lemma mapres_same : forall {A B} (f g : A -> res B) l, Forall (fun x => f x = g x) l -> mapres f l = mapres g l.
Proof. induction 1 as [ | x l E _ IH ]; cbn [mapres]; [ reflexivity | ]. rewrite E, IH. reflexivity. Qed.

Section Observe.
Variables (rc : Z -> Z) (refeq : content -> content -> bool) (fuel : nat).
Lemma observe_moves : forall ps h h' s, moves ps h h' -> legible h s -> observe rc refeq fuel h' s = observe rc refeq fuel h s.
Proof.
  intros ps h h' s M. induction s using snap_ind'; cbn [legible observe]; intros R; auto; try (rewrite (proj1 (read_moves ps h h' _ M R)); reflexivity).
  - destruct R as [ R1 R2 ]. rewrite (proj1 (read_moves ps h h' _ M R1)), IHs by assumption. reflexivity.
  - destruct R as [ R1 R2 ]. rewrite (proj1 (read_moves ps h h' _ M R1)), IHs by assumption. reflexivity.
  - rewrite (mapres_same (observe rc refeq fuel h') (observe rc refeq fuel h)); [ reflexivity | ]. apply every_Forall in R. rewrite Forall_forall in *. auto.
  - rewrite (mapres_same (observe rc refeq fuel h') (observe rc refeq fuel h)); [ reflexivity | ]. apply every_Forall in R. rewrite Forall_forall in *. auto.
  - destruct R as (R1 & R2 & R). rewrite (proj1 (read_moves ps h h' _ M R1)), (proj1 (read_moves ps h h' _ M R2)).
    rewrite (mapres_same (observe rc refeq fuel h') (observe rc refeq fuel h)); [ reflexivity | ]. apply every_Forall in R. rewrite Forall_forall in *. auto.
Qed.

Lemma hold_cell : forall h g l i x, hold h g l -> nthZ l i = Some x -> cell h (g_ptr g) i = Some (Some x).
Proof.
  intros h g l i x (rest & E & _) Hi. unfold cell. rewrite E. pose proof (nthZ_Some _ _ _ Hi). rewrite nthZ_app, zlen_map. destruct (Z.ltb_spec i (zlen l)); [ | lia ]. rewrite nthZ_map, Hi. reflexivity.
Qed.
Lemma hold_read : forall h g l, hold h g l -> read_view h (snapshot_ g) = Ok l /\ readable h (snapshot_ g).
Proof.
  intros h g l H. pose proof (hold_length _ _ _ H) as L. split.
  - unfold read_view, snapshot_. cbn [v_ptr v_length]. rewrite L. pose proof (zlen_nonneg l). apply mapres_intro; [ rewrite zlen_zseq; lia | ]. intros i a b Ha Hb.
    pose proof (nthZ_Some _ _ _ Hb). rewrite nthZ_zseq in Ha by lia. injection Ha as <-. apply getitem_cell. rewrite Z.add_0_l. exact (hold_cell _ _ _ _ _ H Hb).
  - intros i Hi. cbn [v_ptr v_length snapshot_] in *. destruct (nthZ_lt l i) as (x & Hx); [ lia | ]. exists x. exact (hold_cell _ _ _ _ _ H Hx).
Qed.

Theorem rep_observe : forall h hb b, rep h hb b -> observe rc refeq fuel h (hsnapshot hb) = snapshot rc refeq fuel b /\ legible h (hsnapshot hb).
Proof.
  intros h hb. 
  assert (L : forall hcs, Forall (fun hb => forall b, rep h hb b -> observe rc refeq fuel h (hsnapshot hb) = snapshot rc refeq fuel b /\ legible h (hsnapshot hb)) hcs ->
    forall cs, all2 (rep h) hcs cs -> mapres (observe rc refeq fuel h) (map hsnapshot hcs) = mapres (snapshot rc refeq fuel) cs /\ every (legible h) (map hsnapshot hcs)).
  { induction 1 as [ | hc hcs D _ IH ]; intros [ | c cs ] H; try contradiction; [ split; [ reflexivity | exact I ] | ]. destruct H as [ R H ]. cbn [map mapres every].
    destruct (D _ R) as [ E1 E2 ]. destruct (IH _ H) as [ E3 E4 ]. rewrite E1, E3. auto. }
  induction hb using hbuilder_ind'; intros b R; destruct b; try contradiction; cbn [rep] in R; cbn [hsnapshot observe snapshot legible].
  - subst. auto.
  - destruct (hold_read _ _ _ R) as [ -> ? ]. auto.
  - destruct (hold_read _ _ _ R) as [ -> ? ]. auto.
  - destruct (hold_read _ _ _ R) as [ -> ? ]. auto.
  - destruct R as [ R1 R2 ]. destruct (hold_read _ _ _ R1) as [ -> ? ]. destruct (IHhb _ R2) as [ -> ? ]. auto.
  - destruct R as (R1 & R2 & _). destruct (hold_read _ _ _ R1) as [ -> ? ]. destruct (IHhb _ R2) as [ -> ? ]. auto.
  - destruct R as (R1 & -> & _). destruct (L _ H _ R1) as [ -> ? ]. auto.
  - destruct R as (R1 & -> & -> & _). destruct (L _ H _ R1) as [ -> ? ]. auto.
  - destruct R as (R1 & R2 & R3 & _). destruct (hold_read _ _ _ R1) as [ -> ? ]. destruct (hold_read _ _ _ R2) as [ -> ? ]. destruct (L _ H _ R3) as [ -> ? ]. auto.
Qed.

(** ** Histories *)
Variable o : options.
Hypothesis G : growing o.
Definition sound (m : machine) (b : builder) : Prop := rep (m_mem m) (m_builder m) b /\ NoDup (ptrs (m_builder m)) /\ Forall (legible (m_mem m)) (m_snaps m).
Lemma happens_ok : forall m b e, sound m b ->
  match on_lists rc b e with
  | Ok b' => exists m' more, happens rc o m e = Ok m' /\ sound m' b' /\ m_snaps m' = m_snaps m ++ more /\ (exists ps, moves ps (m_mem m) (m_mem m')) /\
               map (observe rc refeq fuel (m_mem m')) more = taken rc refeq fuel b e
  | Err x => happens rc o m e = Err x
  | UB => happens rc o m e = UB
  end.
Proof.
  intros [ h hb ss ] b e (R & N & S). cbn [m_mem m_builder m_snaps] in *. destruct e as [ k | | ]; cbn [on_lists happens m_mem m_builder m_snaps taken].
  - pose proof (hstep_ok rc o G hb k b h R N) as H. unfold refines in H. destruct (step rc b k) as [ r | x | ]; cbn [bind]; [ | rewrite H; reflexivity | rewrite H; reflexivity ].
    destruct H as (h' & ho & E & M & O). pose proof (outcomes_returned _ _ _ _ _ O) as (R' & N' & _). rewrite E. cbn [bind fst snd]. eexists _, []. split; [ reflexivity | ]. cbn [m_mem m_builder m_snaps].
    split; [ | split; [ rewrite app_nil_r; reflexivity | split; [ exists (ptrs hb); exact M | reflexivity ] ] ]. split; [ exact R' | ]. split; [ exact N' | ].
    eapply Forall_impl; [ | exact S ]. intros s. apply (legible_moves (ptrs hb)). exact M.
  - destruct (hclear_ok o G hb b h R) as (h' & hb' & E & M & R' & N' & _). rewrite E. cbn [bind fst snd]. eexists _, []. split; [ reflexivity | ]. cbn [m_mem m_builder m_snaps].
    split; [ | split; [ rewrite app_nil_r; reflexivity | split; [ exists []; exact M | reflexivity ] ] ]. split; [ exact R' | ]. split; [ exact N' | ].
    eapply Forall_impl; [ | exact S ]. intros s. apply (legible_moves []). exact M.
  - destruct (rep_observe h hb b R) as [ E L ]. eexists _, [hsnapshot hb]. split; [ reflexivity | ]. cbn [m_mem m_builder m_snaps]. split; [ | split; [ reflexivity | split; [ exists []; apply moves_refl | cbn [map]; rewrite E; reflexivity ] ] ].
    split; [ exact R | ]. split; [ exact N | ]. apply Forall_app. split; [ exact S | constructor; [ exact L | constructor ] ].
Qed.
Lemma sound_new : sound new_machine new_builder.
Proof. split; [ reflexivity | ]. split; constructor. Qed.

Theorem history_ok : forall es m b, sound m b ->
  match story rc refeq fuel b es with
  | Ok (b', cs) => exists m' more, history rc o m es = Ok m' /\ sound m' b' /\ m_snaps m' = m_snaps m ++ more /\ (exists ps, moves ps (m_mem m) (m_mem m')) /\
                     map (observe rc refeq fuel (m_mem m')) more = cs
  | Err x => history rc o m es = Err x
  | UB => history rc o m es = UB
  end.
Proof.
  induction es as [ | e es IH ]; intros m b S; cbn [story history].
  - exists m, []. rewrite app_nil_r. split; [ reflexivity | ]. split; [ exact S | ]. split; [ reflexivity | ]. split; [ exists []; apply moves_refl | reflexivity ].
  - pose proof (happens_ok m b e S) as H. destruct (on_lists rc b e) as [ b1 | x | ]; cbn [bind]; [ | rewrite H; reflexivity | rewrite H; reflexivity ].
    destruct H as (m1 & more1 & E1 & S1 & X1 & (ps1 & M1) & O1). rewrite E1. cbn [bind]. specialize (IH m1 b1 S1). destruct (story rc refeq fuel b1 es) as [ [ b2 cs ] | x | ]; cbn [bind fst snd]; try exact IH.
    destruct IH as (m2 & more2 & E2 & S2 & X2 & (ps2 & M2) & O2). exists m2, (more1 ++ more2). split; [ exact E2 | ]. split; [ exact S2 | ]. split; [ rewrite X2, X1, app_assoc; reflexivity | ]. split.
    + exists (ps1 ++ ps2). apply (moves_trans _ ps2 _ (m_mem m1)); [ apply (moves_more ps1); [ exact M1 | intros p Hp; left; apply in_or_app; left; exact Hp ] | exact M2 | intros p Hp; left; apply in_or_app; right; exact Hp ].
    + rewrite map_app, O2, <- O1. f_equal. apply map_ext_in. intros s Hs. apply (observe_moves ps2); [ exact M2 | ]. destruct S1 as (_ & _ & S1). rewrite X1 in S1. rewrite Forall_forall in S1. apply S1, in_or_app. right. exact Hs.
Qed.
End Observe.
