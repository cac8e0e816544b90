(** ArrayBuilder: clear. *)
From Coq Require Import String.
From Verif Require Import Base BaseLemmas OmapLemmas Content SpecArray Core Merge Builder SpecBuilder PBuilder PBuilderStep PBuilderUnion PBuilderSnap PBuilderSpec PBuilderAll.
Local Open Scope string_scope.
Local Open Scope list_scope.
Local Open Scope Z_scope.

Section Ind.
Variable P : builder -> Prop.
Hypothesis H1 : forall n, P (BUnknown n).
Hypothesis H2 : forall l, P (BBool l).
Hypothesis H3 : forall l, P (BInt l).
Hypothesis H4 : forall l, P (BReal l).
Hypothesis H5 : forall index c, P c -> P (BOption index c).
Hypothesis H6 : forall offsets c begun, P c -> P (BList offsets c begun).
Hypothesis H7 : forall cs len begun next, Forall P cs -> P (BTuple cs len begun next).
Hypothesis H8 : forall cs keys len begun next ntt, Forall P cs -> P (BRecord cs keys len begun next ntt).
Hypothesis H9 : forall tags index cs cur, Forall P cs -> P (BUnion tags index cs cur).
Fixpoint builder_ind' (b : builder) : P b :=
  let go := fix go l : Forall P l := match l with [] => Forall_nil P | x :: l => Forall_cons x (builder_ind' x) (go l) end in
  match b with
  | BUnknown n => H1 n | BBool l => H2 l | BInt l => H3 l | BReal l => H4 l
  | BOption index c => H5 index c (builder_ind' c)
  | BList offsets c begun => H6 offsets c begun (builder_ind' c)
  | BTuple cs len begun next => H7 cs len begun next (go cs)
  | BRecord cs keys len begun next ntt => H8 cs keys len begun next ntt (go cs)
  | BUnion tags index cs cur => H9 tags index cs cur (go cs)
  end.
End Ind.

(** nodes without real numbers, tuples and records *)
Fixpoint simple (b : builder) : Prop :=
  match b with
  | BReal _ | BTuple _ _ _ _ | BRecord _ _ _ _ _ _ => False
  | BOption _ c | BList _ c _ => simple c
  | BUnion _ _ cs _ => fold_right and True (map simple cs)
  | _ => True
  end.
Lemma simple_all cs : fold_right and True (map simple cs) <-> Forall simple cs.
Proof. induction cs as [|c cs IH]; cbn; [split; [constructor|auto]|]. rewrite IH, Forall_cons_iff. tauto. Qed.

Section Clear.
Variable rc : Z -> Z.
Notation step := (step rc).
Lemma fresh_simple k c : plain_call k -> fresh_for k = Ok c -> simple c.
Proof. destruct k; cbn; intros Hk E; try destruct Hk; try discriminate; injection E as <-; exact I. Qed.
Lemma option_simple b o : simple b -> option_of b = Ok o -> simple o.
Proof. unfold option_of. destruct (blength b <? 0); [discriminate|]. now intros H [= <-]. Qed.
Lemma union_simple b k u : plain_call k -> simple b -> union_of b k = Ok u -> simple u.
Proof.
  unfold union_of. destruct (blength b <? 0); [discriminate|]. intros Hk Hb E. apply bind_Ok in E as (c & Ec & E). apply fresh_simple in Ec; [|exact Hk].
  destruct (is_leaf k); injection E as <-; cbn; auto.
Qed.
Definition keeps (r : outcome) : Prop := simple (fst r) /\ simple (returned r).
Lemma elsewhere_simple b k r : plain_call k -> simple b -> elsewhere b k = Ok r -> keeps r.
Proof.
  intros Hk Hb E. unfold elsewhere in E.
  assert (HU : (let* u := union_of b k in Ok (b, Some u)) = Ok r -> keeps r).
  { intros H. apply bind_Ok in H as (u & Eu & H). injection H as <-. split; [exact Hb|]. eapply union_simple; eauto. }
  destruct k; try discriminate; auto. apply bind_Ok in E as (o & Eo & E). injection E as <-. split; [exact Hb|]. eapply option_simple; eauto.
Qed.
Lemma nth_apply_inv {A B} (f : A -> res B) l i y : nth_apply f l i = Ok y -> exists x, nthZ l i = Some x /\ f x = Ok y.
Proof.
  destruct (nthZ l i) as [x|] eqn:E.
  - rewrite (nth_apply_eq _ _ _ _ E). eauto.
  - intros H. exfalso. revert i E H. induction l as [|x l IH]; intros i E H; cbn in H; [discriminate|]. rewrite nthZ_cons in E. destruct (i =? 0); [discriminate|]. eauto.
Qed.
Lemma upd_simple cs n c : Forall simple cs -> simple c -> Forall simple (upd cs n c).
Proof. revert n. induction cs as [|x cs IH]; intros [|n] H Hc; cbn; auto; apply Forall_cons_iff in H as [Hx H]; constructor; auto. Qed.
Lemma step_simple b : forall k r, plain_call k -> simple b -> step b k = Ok r -> keeps r.
Proof.
  induction b as [n|l|l|l|index c IH|offsets c begun IH|cs len begun next IH|cs keys len begun next ntt IH|tags index cs cur IH] using builder_ind'; intros k r Hk Hb E.
  - cbn [Builder.step] in E.
    assert (HF : (let* c := fresh_for k in if n =? 0 then Ok (BUnknown n, Some c) else if n <? 0 then UB else Ok (BUnknown n, Some (BOption (repeat (-1) (Z.to_nat n) ++ if is_leaf k then [0] else []) c))) = Ok r -> keeps r).
    { intros H. apply bind_Ok in H as (c & Ec & H). apply fresh_simple in Ec; [|exact Hk]. destruct (n =? 0); [injection H as <-; split; [exact I|exact Ec]|]. destruct (n <? 0); [discriminate|]. injection H as <-. split; [exact I|exact Ec]. }
    destruct k; try discriminate; auto. injection E as <-. split; exact I.
  - cbn [Builder.step] in E. destruct k; try (eapply elsewhere_simple; eauto; fail). injection E as <-. split; exact I.
  - cbn [Builder.step] in E. destruct k; try (eapply elsewhere_simple; eauto; fail); [|destruct Hk]. injection E as <-. split; exact I.
  - destruct Hb.
  - cbn [Builder.step] in E. cbn [simple] in Hb. destruct (active c).
    + apply bind_Ok in E as (x & Ex & E). destruct (IH _ _ Hk Hb Ex) as [Ha _]. destruct (is_end k && _); injection E as <-; split; exact Ha.
    + destruct k; try discriminate; try (apply bind_Ok in E as (x & Ex & E); destruct (IH _ _ Hk Hb Ex) as [_ Ha]); injection E as <-; split; assumption.
  - cbn [Builder.step] in E. cbn [simple] in Hb. destruct begun.
    + destruct k; try (destruct Hk; fail); try (apply bind_Ok in E as (x & Ex & E); destruct (IH _ _ Hk Hb Ex) as [Ha Ha']; injection E as <-; split; assumption).
      destruct (active c); [apply bind_Ok in E as (x & Ex & E); destruct (IH _ _ Hk Hb Ex) as [Ha Ha']; injection E as <-; split; assumption|]. injection E as <-; split; assumption.
    + destruct k; try exact (elsewhere_simple (BList offsets c false) _ _ Hk Hb E). injection E as <-; split; assumption.
  - destruct Hb.
  - destruct Hb.
  - cbn [Builder.step] in E. cbn [simple] in Hb. apply simple_all in Hb.
    destruct (cur =? -1).
    + assert (HC : match choose cs k with
            | Some i =>
                let* p := nth_apply (fun c => match c, k with
                                              | BInt l, CReal x => Ok (zlen l, BReal (map rc l ++ [x]))
                                              | _, _ => let* r := step c k in Ok (blength c, fst r)
                                              end) cs i in
                let cs := upd cs (Z.to_nat i) (snd p) in
                if is_leaf k then Ok (BUnion (tags ++ [int8 i]) (index ++ [fst p]) cs (-1), None)
                else Ok (BUnion tags index cs (int8 i), None)
            | None =>
                let* c := fresh_for k in
                if is_leaf k then Ok (BUnion (tags ++ [int8 (zlen cs)]) (index ++ [0]) (cs ++ [c]) (-1), None)
                else Ok (BUnion tags index (cs ++ [c]) (int8 (zlen cs)), None)
            end = Ok r -> keeps r).
      { destruct (choose cs k) as [i|]; intros H; apply bind_Ok in H as (p & Ep & H).
        - apply nth_apply_inv in Ep as (c & Ec & Ep). apply nthZ_In in Ec. rewrite Forall_forall in IH, Hb. assert (Hp : simple (snd p)).
          { assert (HS : (let* r := step c k in Ok (blength c, fst r)) = Ok p -> simple (snd p)).
            { intros HX. apply bind_Ok in HX as (x & Ex & HX). injection HX as <-. eapply (IH c Ec); eauto. }
            destruct k; try (destruct Hk; fail); destruct c; auto. }
          assert (HU : Forall simple (upd cs (Z.to_nat i) (snd p))) by (apply upd_simple; [apply Forall_forall; exact Hb|exact Hp]). apply simple_all in HU. cbn zeta in H.
          destruct (is_leaf k); injection H as <-; split; exact HU.
        - apply fresh_simple in Ep; [|exact Hk]. assert (HU : Forall simple (cs ++ [p])) by (apply Forall_app; auto). apply simple_all in HU. destruct (is_leaf k); injection H as <-; split; exact HU. }
      destruct k; try discriminate; auto. apply bind_Ok in E as (o & Eo & E). injection E as <-. split; [now apply simple_all|]. eapply option_simple; [|exact Eo]. now apply simple_all.
    + apply bind_Ok in E as (p & Ep & E). apply nth_apply_inv in Ep as (c & Ec & Ep). apply nthZ_In in Ec. rewrite Forall_forall in IH, Hb. apply bind_Ok in Ep as (x & Ex & Ep). injection Ep as <-. destruct (IH c Ec _ _ Hk (Hb c Ec) Ex) as [Ha _].
      assert (HU : Forall simple (upd cs (Z.to_nat cur) (fst x))) by (apply upd_simple; [apply Forall_forall; exact Hb|exact Ha]). apply simple_all in HU. cbn [fst snd] in E. destruct (is_end k && _); injection E as <-; split; exact HU.
Qed.
Lemma run_simple ks : Forall plain_call ks -> forall b b', simple b -> run rc b ks = Ok b' -> simple b'.
Proof.
  induction 1 as [|k ks Hk F IH]; intros b b' Hb E; cbn in E; [now injection E as <-|]. apply bind_Ok in E as (r & Er & E). eapply IH; [|exact E]. eapply step_simple; eauto.
Qed.

Variable sizes : list Z.
Hypothesis Hsizes : zlen sizes <= 122.
Notation holds := (holds rc sizes).
Lemma clear_kind b : simple b -> bkind (clear b) = bkind b.
Proof. destruct b; cbn; intros H; try reflexivity; destruct H. Qed.
Lemma clear_holds b es frs : holds b es frs -> frs = [] -> simple b -> holds (clear b) [] [].
Proof.
  induction 1 as [n Hn|l|l|l es HF HR|index c es frs H IH HF|c parts H IH|c parts l frs H IH|cs next cols rows Hl Hh IH Hc Hs|cs next cols rows fs now frs Hl Hh IH Hc Hb Hn Hs
    |cs next ntt cols rows keys Hl Hk Hh IH Hc|cs next ntt cols rows fs now frs keys Hl Hk Hh IH Hc Hb Hn|pos cs cur cols es frs Hl Hh IH Hkinds Hnd Hp Hpos Hcur Hne]; intros Hf HS; try discriminate; try (destruct HS; fail); cbn [clear].
  - apply (h_unknown rc sizes 0). lia.
  - apply (h_bool rc sizes []).
  - apply (h_int rc sizes []).
  - apply h_option; [now apply IH|constructor].
  - apply (h_list rc sizes (clear c) []). now apply IH.
  - assert (cur = -1) as -> by (destruct Hcur as [[? _]|[_ ?]]; [assumption|congruence]). cbn [simple] in HS. apply simple_all in HS. rewrite Forall_forall in HS.
    assert (HK : map bkind (map clear cs) = map bkind cs). { rewrite map_map. apply map_ext_in. intros c Hi. apply clear_kind. auto. }
    apply (h_union rc sizes [] (map clear cs) (-1) (map (fun _ => []) cs) [] []).
    + now rewrite !zlen_map.
    + intros j c col Hj Hcol. rewrite nthZ_map in Hj; rewrite nthZ_map in Hcol. destruct (nthZ cs j) as [c0|] eqn:E0; [|discriminate]. cbn in Hj, Hcol. injection Hj as <-. injection Hcol as <-.
      destruct (nthZ_lt cols j) as [col0 Ecol]; [apply nthZ_Some in E0; lia|]. replace (if j =? -1 then [] else []) with (@nil frame) by now destruct (j =? -1).
      apply (IH _ _ _ E0 Ecol); [destruct (j =? -1); congruence|]. apply HS. eapply nthZ_In; exact E0.
    + intros j c Hj. rewrite nthZ_map in Hj. destruct (nthZ cs j) as [c0|] eqn:E0; [|discriminate]. cbn in Hj. injection Hj as <-. rewrite clear_kind by (apply HS; eapply nthZ_In; exact E0). eapply Hkinds; eauto.
    + now rewrite HK.
    + intros j c col Hj Hcol. rewrite nthZ_map in Hj; rewrite nthZ_map in Hcol. destruct (nthZ cs j) as [c0|] eqn:E0; [|discriminate]. cbn in Hj, Hcol. injection Hj as <-. injection Hcol as <-. rewrite clear_kind by (apply HS; eapply nthZ_In; exact E0).
      destruct (Hkinds _ _ E0) as (kd & -> & _). cbn. destruct (numeric kd); [apply incl_refl|reflexivity].
    + constructor.
    + left. split; reflexivity.
    + now rewrite zlen_map.
Qed.
Lemma holds_continues b ks es frs : holds b [] [] -> describes sizes ks es frs -> exists b', run rc b ks = Ok b' /\ holds b' es frs.
Proof.
  intros H0 D. revert H0. induction D as [|ks k es frs es' frs' D IH T A]; intros H0.
  - exists b. split; [reflexivity|exact H0].
  - destruct (IH H0) as (b1 & E1 & H1). pose proof (holds_good rc sizes Hsizes _ _ _ H1 k) as G. rewrite advance_nil in A. destruct (advance [] frs k) as [[ext frs1]|]; [|discriminate]. cbn in A. injection A as <- <-.
    destruct (G T) as (r & Er & Hr & _). exists (returned r). split; [|exact Hr]. rewrite run_snoc, E1. cbn [bind]. now rewrite Er.
Qed.
Lemma restarts_ok segs : Forall (fun ks => Forall plain_call ks /\ exists es, describes sizes ks es []) segs -> forall b, holds b [] [] -> simple b -> exists b', restarts rc b segs = Ok b' /\ holds b' [] [] /\ simple b'.
Proof.
  induction 1 as [|ks segs [HP [es D]] F IH]; intros b Hb Sb; cbn; [eauto|]. destruct (holds_continues b ks es [] Hb D) as (b1 & E1 & H1). rewrite E1. cbn [bind].
  assert (S1 : simple b1) by (eapply run_simple; eauto). apply IH; [eapply clear_holds; eauto|]. clear - S1.
  induction b1 as [n|l|l|l|index c IH|offsets c begun IH|cs len begun next IH|cs keys len begun next ntt IH|tags index cs cur IH] using builder_ind'; cbn in *; auto.
  apply simple_all. apply simple_all in S1. rewrite Forall_forall in *. intros c Hc. apply in_map_iff in Hc as (c0 & <- & Hc0). auto.
Qed.
End Clear.
