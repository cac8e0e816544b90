(** ArrayBuilder: every well-nested call succeeds and keeps the data, every other call is an error. *)
From Coq Require Import String.
From Verif Require Import Base BaseLemmas OmapLemmas SpecArray Content Builder SpecBuilder PBuilder.
Local Open Scope string_scope.
Local Open Scope list_scope.
Local Open Scope Z_scope.

Lemma nth_apply_eq {A B} (f : A -> res B) l i x : nthZ l i = Some x -> nth_apply f l i = f x.
Proof.
  revert i; induction l as [|y l IH]; intros i; [now rewrite nthZ_nil|]. rewrite nthZ_cons. cbn. destruct (i =? 0); [now intros [= ->]|apply IH].
Qed.
Lemma advance_nil l frs k : advance l frs k = option_map (fun r => (l ++ fst r, snd r)) (advance [] frs k).
Proof. rewrite <- (app_nil_r l) at 1. apply advance_app. Qed.

Lemma at_app col ext i e : at_ col i e -> at_ (col ++ ext) i e.
Proof. intros [H|H]; [now left|right]. rewrite nthZ_app. apply nthZ_Some in H as Hr. destruct (i <? zlen col) eqn:?; [assumption|lia]. Qed.
Lemma F2_impl {A B} (R S : A -> B -> Prop) l l' : (forall x y, R x y -> S x y) -> Forall2 R l l' -> Forall2 S l l'.
Proof. intros H; induction 1; constructor; auto. Qed.

Section Step.
Variable rc : Z -> Z.
Variable sizes : list Z.
Hypothesis Hsizes : zlen sizes <= 122.
Notation holds := (holds rc sizes).
Notation step := (step rc).

Definition good (b : builder) (es : list entry) (frs : list frame) : Prop := forall k,
  match advance [] frs k with
  | Some (ext, frs') => tame sizes frs k -> exists r, step b k = Ok r /\ holds (returned r) (es ++ ext) frs' /\ (frs <> [] -> snd r = None)
  | None => exists m, step b k = Err m
  end.

Lemma option_of_ok b es : holds b es [] -> filter nonnull es = es -> exists o, option_of b = Ok o /\ holds o (es ++ [ENull]) [].
Proof.
  intros H Hn. pose proof (holds_length _ _ _ _ _ H) as Hl. pose proof (zlen_nonneg es). unfold option_of. rewrite Hl.
  destruct (zlen es <? 0) eqn:?; [lia|]. eexists; split; [reflexivity|].
  assert (E : filter nonnull (es ++ [ENull]) = es) by (rewrite filter_app, Hn; cbn; apply app_nil_r).
  apply h_option; rewrite E; [exact H|]. apply Forall2_app; [|constructor; [now left|constructor]].
  pose proof (single_located es) as HL.
  assert (HG : forall es1 l, Forall2 (located [es]) (map (fun i => (0, i)) l) es1 -> Forall2 (at_ es) l es1).
  { clear. intros es1 l. revert es1. induction l as [|i l IH]; intros es1 HL; inversion HL; subst; constructor; auto.
    destruct H1 as (col & Hc & He). cbn [fst snd] in *. rewrite nthZ_cons in Hc. cbn in Hc. injection Hc as <-. now right. }
  now apply HG.
Qed.

Lemma elsewhere_ok b es kd k : holds b es [] -> bkind b = Some kd -> tkind k <> Some kd ->
  match start [] k with
  | Some (ext, frs') => tame sizes [] k -> exists r, elsewhere b k = Ok r /\ holds (returned r) (es ++ ext) frs'
  | None => exists m, elsewhere b k = Err m
  end.
Proof.
  intros H Hk Hd. pose proof (holds_kind_ok _ _ _ _ _ _ H Hk) as Hok.
  destruct (start [] k) as [[ext frs']|] eqn:Es; [intros T|destruct k; cbn in Es; try discriminate; eexists; reflexivity].
  assert (k = CNull \/ k <> CNull) as [->|Hk0] by (destruct k; (left; reflexivity) || (right; discriminate)).
  - cbn in Es. injection Es as <- <-. destruct (option_of_ok b es H (holds_kind_nonnull _ _ _ _ _ _ H Hk)) as (o & E & Ho).
    cbn [elsewhere]. rewrite E. cbn [bind]. eexists; split; [reflexivity|exact Ho].
  - destruct (union_of_ok rc sizes b es kd k ext frs' H Hk Hok Es T Hk0 Hd) as (u & Eu & Hu).
    exists (b, Some u). split; [|exact Hu]. destruct k; try discriminate; try congruence; cbn [elsewhere]; rewrite Eu; reflexivity.
Qed.

Lemma good_unknown n : 0 <= n -> good (BUnknown n) (repeat ENull (Z.to_nat n)) [].
Proof.
  intros Hn k. cbn [advance]. destruct (start [] k) as [[ext frs']|] eqn:Es; [intros T|destruct k; cbn in Es; try discriminate; eexists; reflexivity].
  assert (k = CNull \/ k <> CNull) as [->|Hk] by (destruct k; (left; reflexivity) || (right; discriminate)).
  - cbn in Es. injection Es as <- <-. eexists; split; [reflexivity|]. split; [|congruence]. cbn [returned snd fst].
    replace (repeat ENull (Z.to_nat n) ++ [ENull]) with (repeat ENull (Z.to_nat (n + 1))); [apply h_unknown; lia|].
    replace (Z.to_nat (n + 1)) with (Z.to_nat n + 1)%nat by lia. now rewrite repeat_app.
  - destruct (fresh_ok rc sizes _ _ _ Es T Hk) as (c & kd & Ef & Hc & Hkc & Htk & Hokc).
    assert (E : step (BUnknown n) k = if n =? 0 then Ok (BUnknown n, Some c) else Ok (BUnknown n, Some (BOption (repeat (-1) (Z.to_nat n) ++ if is_leaf k then [0] else []) c))).
    { destruct k; try discriminate; try congruence; cbn [Builder.step]; rewrite Ef; cbn [bind]; destruct (n =? 0); try reflexivity; destruct (n <? 0) eqn:?; try lia; reflexivity. }
    rewrite E. destruct (n =? 0) eqn:En.
    + eexists; split; [reflexivity|]. split; [|congruence]. assert (n = 0) as -> by lia. exact Hc.
    + eexists; split; [reflexivity|]. split; [|congruence]. cbn [returned snd].
      assert (EN : forall l, filter nonnull (repeat ENull (Z.to_nat n) ++ l) = filter nonnull l).
      { intros l. rewrite filter_app, filter_none; [reflexivity|]. intros x Hx. now apply repeat_spec in Hx as ->. }
      assert (EF : forall col, Forall2 (at_ col) (repeat (-1) (Z.to_nat n)) (repeat ENull (Z.to_nat n))).
      { intros col. generalize (Z.to_nat n). intros m. induction m; cbn; constructor; auto. now left. }
      assert (Ext : filter nonnull ext = ext) by (eapply holds_kind_nonnull; eauto).
      apply h_option; rewrite EN, Ext; [exact Hc|]. apply Forall2_app; [apply EF|].
      destruct (start_starts _ _ _ Es) as [(-> & _ & e & -> & _)|(-> & -> & _)]; [|constructor]. constructor; [|constructor]. now right.
Qed.

Lemma good_bool l : good (BBool l) (map EBool l) [].
Proof.
  intros k. cbn [advance]. pose proof (elsewhere_ok (BBool l) (map EBool l) KBool k (h_bool _ _ l) eq_refl) as H.
  destruct k; cbn [start Builder.step] in *; try (apply H; discriminate); try (intros T; destruct H as (r0 & E & Hr); [discriminate|exact T|]; exists r0; split; [exact E|]; split; [exact Hr|congruence]).
  intros _. eexists; split; [reflexivity|]. split; [|congruence]. cbn [returned snd fst app]. change [EBool b] with (map EBool [b]). rewrite <- map_app. apply h_bool.
Qed.
Lemma real_of_ints l : Forall2 (real_of rc) (map rc l) (map EInt l).
Proof. induction l; constructor; auto. right. eauto. Qed.
Lemma int_to_real l r : holds (BReal (map rc l ++ [r])) (map EInt l ++ [EReal r]) [].
Proof.
  apply h_real; [apply Forall2_app; [apply real_of_ints|constructor; [now left|constructor]]|].
  unfold has_real. rewrite existsb_app. cbn. apply orb_true_r.
Qed.
Lemma good_int l : good (BInt l) (map EInt l) [].
Proof.
  intros k. cbn [advance]. pose proof (elsewhere_ok (BInt l) (map EInt l) KInt k (h_int _ _ l) eq_refl) as H.
  destruct k; cbn [start Builder.step] in *; try (apply H; discriminate); try (intros T; destruct H as (r0 & E & Hr); [discriminate|exact T|]; exists r0; split; [exact E|]; split; [exact Hr|congruence]).
  - intros _. eexists; split; [reflexivity|]. split; [|congruence]. cbn [returned snd fst app]. change [EInt z] with (map EInt [z]). rewrite <- map_app. apply h_int.
  - intros _. eexists; split; [reflexivity|]. split; [|congruence]. apply int_to_real.
Qed.
Lemma good_real l es : Forall2 (real_of rc) l es -> has_real es = true -> good (BReal l) es [].
Proof.
  intros HF HR k. cbn [advance]. pose proof (elsewhere_ok (BReal l) es KReal k (h_real _ _ _ _ HF HR) eq_refl) as H.
  assert (HR' : forall x, has_real (es ++ x) = true) by (intros x; unfold has_real in *; now rewrite existsb_app, HR).
  destruct k; cbn [start Builder.step] in *; try (apply H; discriminate); try (intros T; destruct H as (r0 & E & Hr); [discriminate|exact T|]; exists r0; split; [exact E|]; split; [exact Hr|congruence]).
  - intros _. eexists; split; [reflexivity|]. split; [|congruence]. apply h_real; [|apply HR']. apply Forall2_app; [exact HF|]. constructor; [|constructor]. right. eauto.
  - intros _. eexists; split; [reflexivity|]. split; [|congruence]. apply h_real; [|apply HR']. apply Forall2_app; [exact HF|]. constructor; [|constructor]. now left.
Qed.


Lemma good_option index c es frs : holds c (filter nonnull es) frs -> Forall2 (at_ (filter nonnull es)) index es -> good c (filter nonnull es) frs -> good (BOption index c) es frs.
Proof.
  intros Hc HF G k. specialize (G k). pose proof (holds_active _ _ _ _ _ Hc) as Ha. pose proof (holds_length _ _ _ _ _ Hc) as Hl.
  set (col := filter nonnull es) in *.
  destruct frs as [|f frs].
  - cbn [advance] in *. destruct (start [] k) as [[ext frs']|] eqn:Es.
    2: { destruct k; cbn in Es; try discriminate; cbn [Builder.step]; rewrite Ha; eexists; reflexivity. }
    intros T. specialize (G T). destruct G as (r & E & Hr & _).
    assert (k = CNull \/ k <> CNull) as [->|Hk] by (destruct k; (left; reflexivity) || (right; discriminate)).
    + cbn [Builder.step]. rewrite Ha. eexists; split; [reflexivity|]. split; [|congruence]. cbn [returned snd fst]. cbn in Es. injection Es as <- <-.
      assert (E1 : filter nonnull (es ++ [ENull]) = col) by (rewrite filter_app; cbn; apply app_nil_r).
      apply h_option; rewrite E1; [exact Hc|]. apply Forall2_app; [exact HF|]. constructor; [now left|constructor].
    + assert (Estep : step (BOption index c) k = Ok (BOption (index ++ if is_leaf k then [blength c] else []) (returned r), None)).
      { destruct k; try discriminate; try congruence; cbn [Builder.step]; rewrite Ha, E; cbn [bind is_leaf]; rewrite ?app_nil_r; reflexivity. }
      rewrite Estep. eexists; split; [reflexivity|]. split; [|congruence]. cbn [returned snd fst].
      assert (Ext : filter nonnull ext = ext).
      { destruct (start_starts _ _ _ Es) as [(_ & _ & e & -> & Ek)|(_ & -> & _)]; [|reflexivity]. destruct e; try reflexivity. destruct k; try discriminate; congruence. }
      assert (E1 : filter nonnull (es ++ ext) = col ++ ext) by (now rewrite filter_app, Ext).
      apply h_option; rewrite E1; [exact Hr|]. apply Forall2_app; [eapply F2_impl; [|exact HF]; intros; now apply at_app|].
      destruct (start_starts _ _ _ Es) as [(-> & _ & e & -> & _)|(-> & -> & _)]; [|constructor]. constructor; [|constructor]. right. rewrite Hl. apply nthZ_mid.
  - destruct (advance [] (f :: frs) k) as [[ext frs']|] eqn:Ea.
    2: { destruct G as [m E]. exists m. cbn [Builder.step]. rewrite Ha, E. reflexivity. }
    intros T. destruct (G T) as (r & E & Hr & Hn). specialize (Hn ltac:(discriminate)). assert (Er : returned r = fst r) by (unfold returned; now rewrite Hn).
    rewrite Er in Hr. pose proof (holds_length _ _ _ _ _ Hr) as Hl'. rewrite zlen_app in Hl'.
    pose proof (advance_open _ _ _ _ _ Ea ltac:(discriminate)) as (f0 & rest & [= <- <-] & HG).
    cbn [Builder.step]. rewrite Ha, E. cbn [bind].
    destruct HG as [(-> & f' & rest' & -> & _)|(-> & Hend & e & -> & Ek)].
    + rewrite Hl, Hl', zlen_nil, Z.add_0_r, Z.eqb_refl, andb_false_r. eexists; split; [reflexivity|]. split; [|reflexivity].
      rewrite app_nil_r in *. cbn [returned snd fst]. apply h_option; assumption.
    + rewrite Hl, Hl', Hend. cbn [app]. replace (zlen col =? zlen col + zlen [e]) with false by (rewrite zlen_cons, zlen_nil; lia). cbn [andb negb].
      eexists; split; [reflexivity|]. split; [|reflexivity]. cbn [returned snd fst]. cbn [app] in *.
      assert (E1 : filter nonnull (es ++ [e]) = col ++ [e]) by (rewrite filter_app; cbn; destruct e; try discriminate; reflexivity).
      apply h_option; rewrite E1; [exact Hr|]. apply Forall2_app; [eapply F2_impl; [|exact HF]; intros; now apply at_app|]. constructor; [|constructor]. right. apply nthZ_mid.
Qed.

Lemma good_list c parts : holds c (concat parts) [] -> good (BList (bounds_from 0 parts) c false) (map EList parts) [].
Proof.
  intros Hc k. cbn [advance]. pose proof (elsewhere_ok _ _ KList k (h_list _ _ _ _ Hc) eq_refl) as H.
  destruct k; cbn [start Builder.step] in *; try (apply H; discriminate); try (intros T; destruct H as (r0 & E & Hr); [discriminate|exact T|]; exists r0; split; [exact E|]; split; [exact Hr|congruence]).
  intros _. eexists; split; [reflexivity|]. split; [|congruence]. cbn [returned snd fst]. rewrite app_nil_r. apply h_list_open. now rewrite app_nil_r.
Qed.
Lemma good_list_open c parts l frs : holds c (concat parts ++ l) frs -> good c (concat parts ++ l) frs -> good (BList (bounds_from 0 parts) c true) (map EList parts) (FList l :: frs).
Proof.
  intros Hc G k. specialize (G k). pose proof (holds_active _ _ _ _ _ Hc) as Ha. pose proof (holds_length _ _ _ _ _ Hc) as Hl.
  cbn [advance].
  assert (HO : (exists r, (match frs with [] => own [] (FList l) k | _ => None end) = Some r) -> frs = [] /\ k = CEndList).
  { intros [r Er]. destruct frs; [|discriminate]. destruct k; try discriminate. now split. }
  destruct (match frs with [] => own [] (FList l) k | _ => None end) as [r0|] eqn:Eo.
  - destruct (HO ltac:(eauto)) as [-> ->]. cbn in Eo. injection Eo as <-. intros _. cbn [Builder.step]. rewrite Ha.
    eexists; split; [reflexivity|]. split; [|reflexivity]. cbn [returned snd fst]. rewrite Hl, zlen_app.
    replace (bounds_from 0 parts ++ [zlen (concat parts) + zlen l]) with (bounds_from 0 (parts ++ [l])) by (rewrite bounds_from_snoc; do 2 f_equal; lia).
    change [EList l] with (map EList [l]). cbn [app]. rewrite <- map_app. apply h_list. rewrite concat_app. cbn. now rewrite app_nil_r.
  - cbn [inside]. rewrite advance_nil.
    destruct (advance [] frs k) as [[ext frs']|] eqn:Ea; cbn [option_map].
    + intros T. assert (T' : tame sizes frs k) by (destruct k; cbn in *; auto; now inversion T).
      destruct (G T') as (r & E & Hr & Hn). exists (BList (bounds_from 0 parts) (returned r) true, None).
      split; [|split; [|reflexivity]].
      * destruct k; cbn [Builder.step]; try (rewrite E; reflexivity).
        -- destruct frs; [discriminate|]. rewrite Ha, E. reflexivity.
        -- destruct frs; [discriminate|]. rewrite E. cbn [bind]. unfold returned. now rewrite (Hn ltac:(discriminate)).
        -- destruct frs; [discriminate|]. rewrite E. cbn [bind]. unfold returned. now rewrite (Hn ltac:(discriminate)).
        -- destruct frs; [discriminate|]. rewrite E. cbn [bind]. unfold returned. now rewrite (Hn ltac:(discriminate)).
        -- destruct frs; [discriminate|]. rewrite E. cbn [bind]. unfold returned. now rewrite (Hn ltac:(discriminate)).
      * cbn [returned snd fst]. rewrite app_nil_r. apply h_list_open. now rewrite app_assoc.
    + destruct G as [m E]. exists m. destruct k; cbn [Builder.step]; try (rewrite E; reflexivity).
      destruct frs; [discriminate|]. rewrite Ha, E. reflexivity.
Qed.
End Step.
