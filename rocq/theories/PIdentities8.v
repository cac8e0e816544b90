(** Labelling an array and then slicing it. *)
From Verif Require Import Base BaseLemmas KRange Content KCore Core SpecArray OmapLemmas PCore PCarry Merge Identities SpecIdentities
  PIdentities PIdentities2 PIdentities3 PIdentities4 PIdentities5 PIdentities6 PIdentities7.
Local Open Scope string_scope.
Local Open Scope list_scope.
Local Open Scope Z_scope.

Inductive shaped : content -> ids -> Prop :=
  shaped_intro c own subs :
    (forall k c', child c k = Some c' -> exists t', nthZ subs k = Some t' /\ shaped c' t') -> shaped c (Node own subs).
Lemma shaped_one c d own t : (forall k, child c k = if k =? 0 then Some d else None) -> shaped d t -> shaped c (Node own [t]).
Proof.
  intros Hc Ht. constructor. intros k c' Hk. rewrite Hc in Hk. destruct (Z.eqb_spec k 0) as [->|]; [|discriminate]. injection Hk as <-.
  exists t. auto.
Qed.
Lemma each_shaped (f : Z -> content -> res ids) cs : forall j ts,
  (forall c, In c cs -> forall j t, f j c = Ok t -> shaped c t) -> each f j cs = Ok ts ->
  forall k c', nthZ cs k = Some c' -> exists t', nthZ ts k = Some t' /\ shaped c' t'.
Proof.
  induction cs as [|c cs IH]; intros j ts H E k c' Hk; [rewrite nthZ_nil in Hk; discriminate|].
  cbn [each] in E. destruct (f j c) as [t| |] eqn:Ef; try discriminate. cbn [bind] in E.
  destruct (each f (j + 1) cs) as [ts'| |] eqn:Ee; try discriminate. cbn [bind] in E. injection E as <-.
  rewrite nthZ_cons in Hk. rewrite nthZ_cons. destruct (k =? 0).
  - injection Hk as <-. exists t. split; [reflexivity|]. eapply H; [left; reflexivity|exact Ef].
  - eapply IH; [|exact Ee|exact Hk]. intros d Hd. apply H. now right.
Qed.
Ltac bstep E :=
  match type of E with
  | (let* _ := ?e in _) = Ok _ => let Q := fresh "Q" in destruct e eqn:Q; cbn [bind] in E; [|discriminate E|discriminate E]
  | (if ?b then _ else _) = Ok _ => destruct b; try discriminate E
  end.
Lemma set_shaped c : forall i t, setidentities c i = Ok t -> shaped c t.
Proof.
  induction c using content_ind'; intros [idn|] t E; cbn [setidentities] in E; repeat bstep E; injection E as <-;
    try (eapply shaped_one; [reflexivity|eauto]; fail).
  1-4: constructor; intros k c' [=].
  all: rewrite Forall_forall in H; constructor; cbn [child]; intros k c' Hk; eapply each_shaped; [|eassumption|eassumption];
    intros d Hd j t' Et; cbv beta in Et; repeat bstep Et; eapply H; eassumption.
Qed.
Lemma shaped_fits must c : forall t, shaped c t ->
  (forall np d, subnode c np = Some d -> (must = true -> ident_at t np <> None) /\
     forall J, ident_at t np = Some J -> wf J /\ ilen J = length_ d) -> fits must c t.
Proof.
  assert (IN : forall c (P : content -> Prop), (forall k d, child c k = Some d -> P d) ->
            (forall d, P d -> forall t, shaped d t -> (forall np e, subnode d np = Some e -> (must = true -> ident_at t np <> None) /\
               forall J, ident_at t np = Some J -> wf J /\ ilen J = length_ e) -> fits must d t) ->
            forall t, shaped c t -> (forall np e, subnode c np = Some e -> (must = true -> ident_at t np <> None) /\
               forall J, ident_at t np = Some J -> wf J /\ ilen J = length_ e) -> fits must c t).
  { clear. intros c P Hc HP t Hs H. inversion Hs as [c0 own subs Hk]; subst. constructor.
    - exact (H [] c eq_refl).
    - intros k d Hd. destruct (Hk k d Hd) as (t' & Ht & Hst). exists t'. split; [exact Ht|]. apply (HP d); [eapply Hc; eassumption|exact Hst|].
      intros np e He. specialize (H (k :: np) e). cbn [subnode ident_at] in H. rewrite Hd, Ht in H. apply H, He. }
  induction c using content_ind'; intros t Hs HH; try rewrite Forall_forall in H;
    [eapply (IN _ (fun _ => False)); [intros k d [=]|intros d []|exact Hs|exact HH]
    |eapply (IN _ (fun _ => False)); [intros k d [=]|intros d []|exact Hs|exact HH]| | | | | | | | | | ].
  all: try (eapply (IN _ (fun d => d = c)); [intros k d Hk; apply child0 in Hk as (_ & ->); reflexivity|intros d ->; exact IHc|exact Hs|exact HH]; fail).
  all: eapply (IN _ (fun d => In d cs)); [intros k d Hk; exact (nthZ_In _ _ _ Hk)|intros d Hd; apply H, Hd|exact Hs|exact HH].
Qed.

(** ** histories *)
Lemma slices_ok must G ops : forall c t vs0 vs rows rows',
  den c = Some vs -> fits must c t -> straight c = true -> omap (nthZ vs0) rows = Some vs ->
  bears c t (fun i q => exists r, nthZ rows i = Some r /\ G r q) -> origin rows ops = Some rows' ->
  exists c' t' vs', slices (c, t) ops = Ok (c', t') /\ den c' = Some vs' /\ omap (nthZ vs0) rows' = Some vs' /\
    fits must c' t' /\ bears c' t' (fun i q => exists r, nthZ rows' i = Some r /\ G r q).
Proof.
  induction ops as [|[a b|cry lazy] ops IH]; intros c t vs0 vs rows rows' Hd Hf Hst Hv Hb Ho.
  - cbn in Ho. injection Ho as <-. exists c, t, vs. cbn. auto.
  - cbn [origin] in Ho. destruct (Z.leb_spec 0 a), (Z.leb_spec a b), (Z.leb_spec b (zlen rows)); try discriminate. cbn [andb] in Ho.
    pose proof (omap_zlen _ _ _ Hv) as Hz.
    destruct (range_ids_ok c must vs t _ a b Hd Hf Hb Hst) as (c1 & t1 & E1 & E2 & E3 & E4 & E5 & E6); [lia|lia|].
    cbn [slices]. unfold range_labelled. cbn [fst snd]. rewrite E1. cbn [bind]. rewrite E2. cbn [bind].
    eapply IH; [exact E3|exact E4|exact E6| | |exact Ho].
    + now apply omap_slice.
    + eapply bears_mono; [|exact E5]. intros i q (r & Hr & HG). pose proof (nthZ_Some _ _ _ Hr) as Hi. rewrite zlen_slice in Hi by lia.
      rewrite nthZ_slice in Hr by lia. split; [lia|]. exists r. auto.
  - cbn [origin] in Ho. destruct (omap (nthZ rows) cry) as [rows1|] eqn:Er; [|discriminate].
    destruct (omap_nthZ_total vs cry) as (vs1 & Hvs1).
    { rewrite (omap_zlen _ _ _ Hv). exact (omap_nthZ_range _ _ _ Er). }
    destruct (carry_ids_ok c must vs t _ cry vs1 lazy Hd Hf Hb Hst Hvs1) as (c1 & t1 & E1 & E2 & E3 & E4 & E5 & E6).
    cbn [slices]. unfold carry_labelled. cbn [fst snd]. rewrite E1. cbn [bind]. rewrite E2. cbn [bind].
    eapply IH; [exact E3|exact E4|exact E6| | |exact Ho].
    + rewrite (omap_comp _ _ _ _ Er). rewrite <- Hvs1. apply omap_ext. intros i Hi.
      destruct (omap_In _ _ _ _ Er Hi) as (r & Hr & _). rewrite Hr. now destruct (omap_nth _ _ _ _ _ Hv Hr) as [-> _].
    + eapply bears_mono; [|exact E5]. intros i q (r & Hr & HG). destruct (omap_nth' _ _ _ _ _ Er Hr) as (j & Hj & Hjr).
      exists j. split; [exact Hj|]. exists r. auto.
Qed.

(** the identities of the top *)
Definition own_of (t : ids) : option idents := let '(Node own _) := t in own.
Lemma range_own c t a b t' : range_ids c t a b = Ok t' -> own_of t <> None -> own_of t' <> None.
Proof.
  destruct t as [own subs]. intros E H. assert (O : forall o, orange own a b = Ok o -> o <> None).
  { intros o Eo. destruct own as [idn|]; [|now destruct H]. cbn in Eo. destruct (irange idn a b); try discriminate. cbn in Eo. now injection Eo as <-. }
  destruct c; cbn [range_ids] in E; repeat bstep E; try (injection E as <-; try exact H; cbn [own_of]; eauto; fail).
  - injection E as <-. cbn [own_of]. destruct own; [|now destruct H]. destruct (_ <? _) in Q; [discriminate|]. eauto.
Qed.
Lemma carry_own c t cry lazy t' : carry_ids c t cry lazy = Ok t' -> own_of t <> None -> own_of t' <> None.
Proof.
  destruct t as [own subs]. intros E H. assert (O : forall o, ocarry own cry = Ok o -> o <> None).
  { intros o Eo. destruct own as [idn|]; [|now destruct H]. cbn in Eo. destruct (icarry idn cry); try discriminate. cbn in Eo. now injection Eo as <-. }
  assert (C : forall c t k, own_of t <> None -> (forall t', k tt = Ok t' -> own_of t' <> None) -> carry_contiguous_ids c t cry k = Ok t' -> own_of t' <> None).
  { intros d t k Ht Hk Ek. unfold carry_contiguous_ids in Ek. repeat bstep Ek.
    - injection Ek as <-. exact Ht.
    - eapply range_own; eauto.
    - eauto. }
  destruct c; cbn [carry_ids] in E; try (injection E as <-; exact H);
    try (eapply C; [|  |exact E]; [exact H|]; cbv beta; intros t1 E1; repeat bstep E1; injection E1 as <-; cbn [own_of]; eauto; fail).
  destruct lazy.
  - repeat bstep E. injection E as <-. cbn [own_of]. eauto.
  - eapply C; [| |exact E]; [exact H|]; cbv beta; intros t1 E1; repeat bstep E1; injection E1 as <-; cbn [own_of]; eauto.
Qed.
Lemma slices_own ops : forall c t c' t', slices (c, t) ops = Ok (c', t') -> own_of t <> None -> own_of t' <> None.
Proof.
  induction ops as [|[a b|cry lazy] ops IH]; intros c t c' t' E H; cbn [slices] in E.
  - injection E as _ <-. exact H.
  - unfold range_labelled in E. cbn [fst snd] in E. destruct (getitem_range_nowrap c a b); try discriminate. cbn [bind] in E.
    destruct (range_ids c t a b) eqn:Er; try discriminate. cbn [bind] in E. eapply IH; [exact E|]. eapply range_own; eauto.
  - unfold carry_labelled in E. cbn [fst snd] in E. destruct (carry c cry lazy); try discriminate. cbn [bind] in E.
    destruct (carry_ids c t cry lazy) eqn:Er; try discriminate. cbn [bind] in E. eapply IH; [exact E|]. eapply carry_own; eauto.
Qed.

(** the numbers 0, 1, 2, ... at the top *)
Lemma new_identities n buf : 0 <= n -> zlen buf = n ->
  awkward_new_Identities buf n = Ok (zseq 0 n).
Proof.
  intros Hn Hb. unfold awkward_new_Identities.
  destruct (for_inv (fun i b => zlen b = n /\ forall x, 0 <= x < i -> nthZ b x = Some x) 0 n (fun i b => wr b i i) buf) as (b & E & L & R).
  - lia.
  - split; [exact Hb|]. intros; lia.
  - intros i b Hi (L & R). destruct (wr_spec b i i) as (b' & E' & L' & N'); [lia|]. exists b'. split; [exact E'|]. split; [lia|].
    intros x Hx. rewrite N'. destruct (Z.eqb_spec x i); [congruence|]. apply R. lia.
  - rewrite E. f_equal. apply list_eqZ; [rewrite zlen_zseq; lia|]. intros i Hi. rewrite R, nthZ_zseq by lia. reflexivity.
Qed.
Definition top_identities (n : Z) : idents := newI [] 1 n (zseq 0 n).
Lemma top_wf n : 0 <= n -> wf (top_identities n).
Proof. intros Hn. unfold wf, top_identities, newI. cbn [offset width ilen ibuf]. rewrite zlen_zseq by lia. lia. Qed.
Lemma top_identity n i : 0 <= i < n -> identity (top_identities n) i = [i].
Proof.
  intros Hi. unfold identity, top_identities, newI. cbn [offset width ibuf].
  apply list_eqZ; [rewrite zlen_slice by (rewrite ?zlen_zseq; lia); change (zlen [i]) with 1; lia|].
  intros x Hx. rewrite zlen_slice in Hx by (rewrite ?zlen_zseq; lia). assert (x = 0) as -> by lia.
  rewrite nthZ_slice by lia. rewrite nthZ_zseq by lia. change (nthZ [i] 0) with (Some i). f_equal. lia.
Qed.
Lemma setidentities0_top c vs : den c = Some vs -> c <> Empty ->
  setidentities0 c = setidentities c (Some (top_identities (length_ c))).
Proof.
  intros Hd Hc. pose proof (den_nonneg _ _ Hd). destruct c; try congruence; unfold setidentities0;
    rewrite new_identities by (rewrite ?zlen_alloc; lia); reflexivity.
Qed.
