(** Replacing the content of a node by one with related values relates the values of the node. *)
From Verif Require Import Base BaseLemmas OmapLemmas Content SpecArray PList POption PPromote PMergeR PMerge PTidy.
Local Open Scope Z_scope.

Section Lift.
Variable R : value -> value -> Prop.
Hypothesis R_list : forall l l', Forall2 R l l' -> R (VList l) (VList l').
Hypothesis R_row : forall keys l l', Forall2 R l l' -> R (mkrow keys l) (mkrow keys l').
Notation FR := (Forall2 R).

Lemma sublist_lift ws us a b v : FR ws us -> sublist ws a b = Some v -> exists u, sublist us a b = Some u /\ R v u.
Proof.
  intros H. unfold sublist. rewrite (F2_zlen _ _ _ H). destruct (a =? b); [intros E; injection E as <-; eexists; split; [reflexivity|apply R_list; constructor]|].
  destruct ((0 <=? a) && (a <=? b) && (b <=? zlen us)); [|discriminate]. intros E; injection E as <-. eexists; split; [reflexivity|]. apply R_list. apply F2_slice. exact H.
Qed.
Lemma lista_lift starts stops c c' ws us vs : den c = Some ws -> den c' = Some us -> FR ws us -> den (ListA starts stops c) = Some vs ->
  exists vs', den (ListA starts stops c') = Some vs' /\ FR vs vs'.
Proof.
  intros D D' H. cbn [den]. rewrite D, D'. destruct (zlen starts <=? zlen stops); [|discriminate]. apply omap_F2. intros ab v _. apply sublist_lift. exact H.
Qed.
Lemma listoffset_lift offsets c c' ws us vs : den c = Some ws -> den c' = Some us -> FR ws us -> den (ListOffset offsets c) = Some vs ->
  exists vs', den (ListOffset offsets c') = Some vs' /\ FR vs vs'.
Proof.
  intros D D' H. cbn [den]. rewrite D, D'. destruct (1 <=? zlen offsets); [|discriminate]. apply omap_F2. intros ab v _. apply sublist_lift. exact H.
Qed.
Lemma regular_lift size zl c c' ws us vs : den c = Some ws -> den c' = Some us -> FR ws us -> den (Regular size zl c) = Some vs ->
  exists vs', den (Regular size zl c') = Some vs' /\ FR vs vs'.
Proof.
  intros D D' H. cbn [den]. rewrite D, D', (F2_zlen _ _ _ H). destruct (0 <? size).
  - apply omap_F2. intros i v _. apply sublist_lift. exact H.
  - destruct ((size =? 0) && (0 <=? zl)); [|discriminate]. intros E; injection E as <-. eexists; split; [reflexivity|]. generalize (Z.to_nat zl) as n. induction n; simpl; constructor; [apply R_list; constructor|assumption].
Qed.
Lemma indexed_lift index c c' ws us vs : den c = Some ws -> den c' = Some us -> FR ws us -> den (Indexed index c) = Some vs ->
  exists vs', den (Indexed index c') = Some vs' /\ FR vs vs'.
Proof. intros D D' H. cbn [den]. rewrite D, D'. apply omap_F2. intros i v _. apply F2_nthZ. exact H. Qed.
Lemma row_lift C C' i row : Forall2 FR C C' -> omap (fun vs => nthZ vs i) C = Some row -> exists row', omap (fun vs => nthZ vs i) C' = Some row' /\ FR row row'.
Proof.
  intros HC; revert row. induction HC as [|c c' C C' Hc HC IH]; intros row Er; simpl in *; [injection Er as <-; eauto|].
  destruct (nthZ c i) as [v|] eqn:Ev; [|discriminate]. destruct (omap _ C) as [r|] eqn:Eo; [|discriminate]. injection Er as <-. destruct (F2_nthZ _ _ _ _ _ Hc Ev) as (v' & -> & Hp). destruct (IH r eq_refl) as (r' & -> & HP). eauto.
Qed.
Lemma record_lift keys len cs cs' wss uss vs : omap den cs = Some wss -> omap den cs' = Some uss -> Forall2 FR wss uss -> den (Record keys len cs) = Some vs ->
  exists vs', den (Record keys len cs') = Some vs' /\ FR vs vs'.
Proof.
  clear R_list. intros D D' H. cbn [den]. rewrite D, D'. apply omap_zlen in D. apply omap_zlen in D'. pose proof (F2_zlen _ _ _ H). replace (zlen cs') with (zlen cs) by lia.
  destruct ((0 <=? len) && keys_ok keys (zlen cs)); [|discriminate]. apply omap_F2. intros i v _ Hv. destruct (omap (fun vs => nthZ vs i) wss) as [row|] eqn:E; [|discriminate]. injection Hv as <-.
  destruct (row_lift _ _ _ _ H E) as (row' & -> & HP). eexists; split; [reflexivity|]. apply R_row. exact HP.
Qed.
Lemma union_lift tags index cs cs' wss uss vs : omap den cs = Some wss -> omap den cs' = Some uss -> Forall2 FR wss uss -> den (Union tags index cs) = Some vs ->
  exists vs', den (Union tags index cs') = Some vs' /\ FR vs vs'.
Proof.
  clear R_list R_row. intros D D' H. cbn [den]. rewrite D, D'. apply omap_zlen in D. apply omap_zlen in D'. pose proof (F2_zlen _ _ _ H). replace (zlen cs') with (zlen cs) by lia.
  destruct ((1 <=? zlen cs) && (zlen tags <=? zlen index)); [|discriminate]. apply omap_F2. intros [t j] v _ Hv. cbn [fst snd] in *. destruct (nthZ wss t) as [ws|] eqn:E; [|discriminate].
  destruct (F2_nthZ _ _ _ _ _ H E) as (us & -> & HU). exact (F2_nthZ _ _ _ _ _ HU Hv).
Qed.
End Lift.
