(** Slicing, carrying and converting keep the type of an array and do not make it deeper. *)
From Verif Require Import Base BaseLemmas Content KCore Core KConvert Convert KOption Option SpecArray SpecForm OmapLemmas PCarry.

(** A bound on the number of nested calls a recursive method makes: the depth, with a spare level for records,
    because carrying a record lazily puts an IndexedArray on top of it. *)
Definition maxl (l : list nat) : nat := fold_right Nat.max O l.
Fixpoint bound (c : content) : nat :=
  match c with
  | Empty | Numpy _ _ => 1
  | ListA _ _ c | ListOffset _ c | Regular _ _ c => S (bound c)
  | Indexed _ c => match c with Record _ _ _ => bound c | _ => S (bound c) end
  | IndexedOption _ c | ByteMasked _ _ c | BitMasked _ _ _ _ c | Unmasked c => S (bound c)
  | Record _ _ cs => S (S (maxl (map bound cs)))
  | Union _ _ cs => S (maxl (map bound cs))
  end.
Definition need (c : content) : nat := match c with Record _ _ _ => pred (bound c) | _ => bound c end.
Lemma need_bound c : (need c <= bound c)%nat.
Proof. destruct c; simpl; lia. Qed.
Lemma maxl_In n l : In n l -> (n <= maxl l)%nat.
Proof. induction l as [|x l IH]; intros H; [destruct H|]. destruct H as [->|H]; simpl; [lia|specialize (IH H); lia]. Qed.

Ltac binv H :=
  repeat match type of H with
  | bind ?r ?k = Ok _ => apply bind_Ok in H; let a := fresh "a" in let E := fresh "E" in destruct H as [a [E H]]; cbv beta in H
  | match ?b with true => _ | false => _ end = Ok _ => destruct b eqn:?; try discriminate H
  | (let '(_, _) := ?p in _) = Ok _ => destruct p
  end.

Lemma mkListA_inv a b c c' : mkListA a b c = Ok c' -> c' = ListA a b c.
Proof. unfold mkListA; intros H; binv H. injection H as <-; reflexivity. Qed.
Lemma mkListOffset_inv a c c' : mkListOffset a c = Ok c' -> c' = ListOffset a c.
Proof. unfold mkListOffset; intros H; binv H. injection H as <-; reflexivity. Qed.
Lemma mkRegular_inv a b c c' : mkRegular a b c = Ok c' -> c' = Regular a b c.
Proof. unfold mkRegular; intros H; binv H. injection H as <-; reflexivity. Qed.
Lemma mkByteMasked_inv a b c c' : mkByteMasked a b c = Ok c' -> c' = ByteMasked a b c.
Proof. unfold mkByteMasked; intros H; binv H. injection H as <-; reflexivity. Qed.
Lemma mkRecord_inv a b c c' : mkRecord a b c = Ok c' -> c' = Record a b c.
Proof. unfold mkRecord; intros H. destruct a; binv H; injection H as <-; reflexivity. Qed.
Lemma mkUnion_inv a b c c' : mkUnion a b c = Ok c' -> c' = Union a b c.
Proof. unfold mkUnion; intros H. destruct c; binv H; try discriminate; injection H as <-; reflexivity. Qed.
Ltac mkinv H := first [apply mkListA_inv in H | apply mkListOffset_inv in H | apply mkRegular_inv in H | apply mkByteMasked_inv in H
  | apply mkRecord_inv in H | apply mkUnion_inv in H | injection H as H].

(** same type, same depth *)
Definition same (c c' : content) : Prop := form_of c' = form_of c /\ bound c' = bound c.
Lemma same_refl c : same c c. Proof. split; reflexivity. Qed.

Lemma mapres_same (f : content -> res content) cs cs' :
  Forall (fun c => forall c', f c = Ok c' -> same c c') cs -> mapres f cs = Ok cs' ->
  map form_of cs' = map form_of cs /\ map bound cs' = map bound cs.
Proof.
  intros HF; revert cs'; induction HF as [|c cs Hc _ IH]; intros cs' H; simpl in H; [injection H as <-; split; reflexivity|].
  binv H. injection H as <-. destruct (Hc _ E) as [A B]. destruct (IH _ E0) as [A' B']. simpl. rewrite A, B, A', B'. split; reflexivity.
Qed.

Lemma range_same c : forall a b c', getitem_range_nowrap c a b = Ok c' -> same c c'.
Proof.
  induction c using content_ind'; intros a b c' H0; simpl in H0; binv H0; try (mkinv H0; subst; split; reflexivity).
  - mkinv H0; subst. destruct (IHc _ _ _ E) as [A B]. split; simpl; congruence.
  - mkinv H0; subst. destruct (IHc _ _ _ E0) as [A B]. split; simpl; congruence.
  - mkinv H0; subst. destruct (IHc _ _ _ E2) as [A B]. split; simpl; congruence.
  - injection H0 as <-. destruct (IHc _ _ _ E) as [A B]. split; simpl; congruence.
  - destruct cs as [|c0 cs]; [mkinv H0; subst; split; reflexivity|]. binv H0; [injection H0 as <-; apply same_refl|].
    mkinv H0; subst. pose proof (mapres_same (fun c => getitem_range_nowrap c a b) (c0 :: cs) a0) as HM.
    destruct HM as [A B]; [eapply Forall_impl; [|exact H]; intros c Hc c' Hc'; eapply Hc; exact Hc'|exact E|].
    split; cbn [form_of bound]; rewrite ?A, ?B; reflexivity.
Qed.

Lemma contiguous_same c cry k c' : carry_contiguous c cry k = Ok c' -> (k tt = Ok c' -> same c c') -> same c c'.
Proof.
  unfold carry_contiguous; intros H Hk. binv H.
  - injection H as <-. apply same_refl.
  - eapply range_same; exact H.
  - auto.
Qed.

Lemma same_indexed i i' c : same (Indexed i c) (Indexed i' c).
Proof. split; reflexivity. Qed.

Lemma carry_same c : forall cry lz c', carry c cry lz = Ok c' -> same c c'.
Proof.
  induction c using content_ind'; intros cry lz c' H0; cbn [carry] in H0;
    try (eapply contiguous_same; [exact H0|clear H0; intros H0; cbv beta in H0]); binv H0; try (mkinv H0; subst; split; reflexivity).
  - mkinv H0; subst. destruct (IHc _ _ _ E0) as [A B]. split; simpl; congruence.
  - mkinv H0; subst. destruct (IHc _ _ _ E0) as [A B]. split; simpl; congruence.
  - assert (HX : same (ByteMasked a vw c) c').
    { eapply contiguous_same; [exact H0|clear H0; intros H0; cbv beta in H0]. binv H0. mkinv H0; subst. destruct (IHc _ _ _ E2) as [A B]. split; simpl; congruence. }
    destruct HX as [A B]. split; simpl in *; assumption.
  - injection H0 as <-. destruct (IHc _ _ _ E) as [A B]. split; simpl; congruence.
  - eapply contiguous_same; [exact H0|clear H0; intros H0; cbv beta in H0]. binv H0. mkinv H0; subst.
    pose proof (mapres_same (fun c => carry c cry false) cs a) as HM.
    destruct HM as [A B]; [eapply Forall_impl; [|exact H]; intros c Hc c' Hc'; eapply Hc; exact Hc'|exact E|].
    split; cbn [form_of bound]; rewrite ?A, ?B; reflexivity.
Qed.

(** conversions *)
Lemma broadcast_same_shape c o c' : broadcast_tooffsets64 c o = Ok c' -> exists c'', c' = ListOffset o c'' /\ same c c'.
Proof.
  assert (K : forall x y cry lz k, carry x cry lz = Ok y -> form_of k = FList (form_of x) -> bound k = S (bound x) -> same k (ListOffset o y)).
  { intros x y cry lz k HC A B. destruct (carry_same _ _ _ _ HC) as [A' B']. split; simpl; congruence. }
  destruct c; simpl; intros H; try discriminate; unfold starts_at_0 in H; binv H; mkinv H; subst; eexists; (split; [reflexivity|]);
    try (eapply K; [eassumption|reflexivity|reflexivity]). split; reflexivity.
Qed.
Lemma tolistoffset_same is64 saz c c' : toListOffsetArray64 is64 saz c = Ok c' -> exists o c'', c' = ListOffset o c'' /\ same c c'.
Proof.
  unfold toListOffsetArray64. destruct c; intros H; try (simpl in H; discriminate); binv H;
    try (destruct (broadcast_same_shape _ _ _ H) as [c'' [-> HS]]; eauto; fail).
  injection H as <-. do 2 eexists; split; [reflexivity|apply same_refl].
Qed.
Lemma tobytemasked_same c c' : toByteMaskedArray c = Ok c' -> exists m vw c'', c' = ByteMasked m vw c'' /\ same c c'.
Proof. destruct c; simpl; intros H; try discriminate; binv H; mkinv H; subst; do 3 eexists; (split; [reflexivity|split; reflexivity]). Qed.
Lemma toindexedoption_same c c' : toIndexedOptionArray64 c = Ok c' -> exists i c'', c' = IndexedOption i c'' /\ same c c'.
Proof. destruct c; simpl; intros H; try discriminate; binv H; mkinv H; subst; do 2 eexists; (split; [reflexivity|split; reflexivity]). Qed.
Lemma indexed_project_same i c c' : project (Indexed i c) = Ok c' -> same c c'.
Proof. simpl; intros H; binv H. eapply carry_same; exact H. Qed.
Lemma carry_record keys len cs cry c' : carry (Record keys len cs) cry false = Ok c' -> exists k n cs', c' = Record k n cs'.
Proof.
  cbn [carry]. unfold carry_contiguous. intros H. binv H.
  - injection H as <-. eauto.
  - simpl in H. destruct cs; binv H; solve [injection H as <-; eauto | mkinv H; subst; eauto].
  - mkinv H; subst; eauto.
Qed.
Lemma carry_need i c cry c' : carry c cry false = Ok c' -> (S (need c') <= need (Indexed i c))%nat.
Proof.
  intros H. destruct (carry_same _ _ _ _ H) as [_ B]. pose proof (need_bound c').
  destruct c; try (cbn [need]; change (bound (Indexed i ?c)) with (S (bound c)); rewrite <- B; lia).
  destruct (carry_record _ _ _ _ _ H) as (k & n & cs' & ->). cbn [need bound pred] in *. lia.
Qed.
Lemma project_need i c c' : project (Indexed i c) = Ok c' -> (S (need c') <= need (Indexed i c))%nat.
Proof. simpl project; intros H; binv H. eapply carry_need; exact H. Qed.
Lemma bound_pos c : (1 <= bound c)%nat.
Proof. induction c using content_ind'; cbn [bound]; try lia. destruct c; cbn [bound]; lia. Qed.
Lemma need_pos c : (1 <= need c)%nat.
Proof. pose proof (bound_pos c). destruct c; cbn [need] in *; try lia. cbn [bound pred] in *; lia. Qed.
