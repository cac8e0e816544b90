(** Proofs about types: equal() is an equivalence and equal types have the same values; empty(). *)
From Coq Require Import String Permutation.
From Verif Require Import Base BaseLemmas OmapLemmas Content KCore Core KOption Option SpecArray Getitem Types SpecTypes PCore PForm PTypes.
Local Open Scope string_scope.
Local Open Scope list_scope.
Local Open Scope Z_scope.

Section Induction.
  Variable P : ty -> Prop.
  Hypothesis HUnknown : P YUnknown.
  Hypothesis HNum : forall dt, P (YNum dt).
  Hypothesis HList : forall t, P t -> P (YList t).
  Hypothesis HRegular : forall t n, P t -> P (YRegular t n).
  Hypothesis HOption : forall t, P t -> P (option_type t) -> P (YOption t).
  Hypothesis HRecord : forall keys ts, Forall P ts -> P (YRecord keys ts).
  Hypothesis HUnion : forall ts, Forall P ts -> P (YUnion ts).
  Lemma ty_ind' (t : ty) : P t.
  Proof.
    assert (H : P t /\ P (option_type t)); [|apply H].
    revert t. fix go 1. intros t.
    assert (F : forall ts, (forall t, In t ts -> P t /\ P (option_type t)) -> Forall P ts).
    { intros ts Hts. apply Forall_forall. intros x Hx. apply Hts; exact Hx. }
    assert (G : forall ts, (fix all (ts : list ty) : Prop := match ts with [] => True | t :: ts => (P t /\ P (option_type t)) /\ all ts end) ts -> Forall P ts).
    { induction ts; intros Hts; constructor; [apply Hts|apply IHts; apply Hts]. }
    destruct t; cbn [option_type].
    - split; exact HUnknown.
    - split; apply HNum.
    - destruct (go t) as [A _]. split; apply HList; exact A.
    - destruct (go t) as [A _]. split; apply HRegular; exact A.
    - destruct (go t) as [A B]. split; [apply HOption; assumption|exact B].
    - split; apply HRecord; apply G; clear F G; induction ts as [|t ts IH]; [exact I|split; [apply go|exact IH]|exact I|split; [apply go|exact IH]].
    - split; apply HUnion; apply G; clear F G; induction ts as [|t ts IH]; [exact I|split; [apply go|exact IH]|exact I|split; [apply go|exact IH]].
  Qed.
End Induction.

(** ** What equal() tests *)
Lemma option_equal t u : ty_equal (YOption t) (YOption u) = ty_equal (option_type t) (option_type u).
Proof. induction t; try reflexivity. exact IHt. Qed.
Lemma forallb_zseq f n : 0 <= n -> forallb f (zseq 0 n) = true <-> forall j, 0 <= j < n -> f j = true.
Proof. intros Hn. rewrite forallb_forall. split; intros H j Hj; apply H; apply In_zseq; exact Hj. Qed.
Definition pointwise (ts us : list ty) : Prop := zlen ts = zlen us /\ forall j t u, nthZ ts j = Some t -> nthZ us j = Some u -> ty_equal t u = true.
Lemma pointwise_iff ts us : forallb (fun j => match nthZ (map ty_equal ts) j, nthZ us j with Some eq, Some u => eq u | _, _ => false end) (zseq 0 (zlen ts)) = true ->
  zlen ts = zlen us -> pointwise ts us.
Proof.
  intros H HL. rewrite forallb_zseq in H by apply zlen_nonneg. split; [exact HL|]. intros j t u Et Eu. pose proof (H j (nthZ_Some _ _ _ Et)) as Hj.
  rewrite nthZ_map, Et, Eu in Hj. exact Hj.
Qed.
Lemma pointwise_back ts us : pointwise ts us -> forallb (fun j => match nthZ (map ty_equal ts) j, nthZ us j with Some eq, Some u => eq u | _, _ => false end) (zseq 0 (zlen ts)) = true.
Proof.
  intros [HL H]. rewrite forallb_zseq by apply zlen_nonneg. intros j Hj. destruct (nthZ_lt ts j Hj) as [t Et]. destruct (nthZ_lt us j) as [u Eu]; [lia|].
  rewrite nthZ_map, Et, Eu. cbn. eapply H; eassumption.
Qed.
Lemma union_equal ts us : ty_equal (YUnion ts) (YUnion us) = true <-> pointwise ts us.
Proof.
  cbn [ty_equal]. destruct (Z.eqb_spec (zlen ts) (zlen us)); cbn [negb].
  - split; [intros H; now apply pointwise_iff|apply pointwise_back].
  - split; [discriminate|]. intros [H _]. contradiction.
Qed.
Lemma tuple_equal ts us : ty_equal (YRecord None ts) (YRecord None us) = true <-> pointwise ts us.
Proof.
  cbn [ty_equal]. destruct (Z.eqb_spec (zlen ts) (zlen us)); cbn [negb].
  - split; [intros H; now apply pointwise_iff|apply pointwise_back].
  - split; [discriminate|]. intros [H _]. contradiction.
Qed.
Lemma record_equal ks ks' ts us : ty_equal (YRecord (Some ks) ts) (YRecord (Some ks') us) = true <->
  zlen ts = zlen us /\ forall key, In key ks -> exists i j t u,
    fieldindex (Some ks) key (zlen ts) = Ok i /\ fieldindex (Some ks') key (zlen ts) = Ok j /\ nthZ ts i = Some t /\ nthZ us j = Some u /\ ty_equal t u = true.
Proof.
  cbn [ty_equal]. destruct (Z.eqb_spec (zlen ts) (zlen us)) as [HL|HL]; cbn [negb]; [|split; [discriminate|intros [H _]; contradiction]].
  rewrite forallb_forall. split.
  - intros H. split; [exact HL|]. intros key Hk. specialize (H key Hk). apply andb_true_iff in H. destruct H as [_ H].
    destruct (fieldindex (Some ks) key (zlen ts)) as [i| |] eqn:Ei; try discriminate. destruct (fieldindex (Some ks') key (zlen ts)) as [j| |] eqn:Ej; try discriminate.
    rewrite nthZ_map in H. destruct (nthZ ts i) as [t|] eqn:Et; [|discriminate]. cbn [option_map] in H. destruct (nthZ us j) as [u|] eqn:Eu; [|discriminate].
    exists i, j, t, u. auto.
  - intros [_ H] key Hk. destruct (H key Hk) as (i & j & t & u & Ei & Ej & Et & Eu & E). unfold haskey. rewrite Ej, Ei, nthZ_map, Et, Eu. exact E.
Qed.

Lemma key_index_shift ks key : forall a, key_index ks key a = option_map (Z.add a) (key_index ks key 0).
Proof.
  induction ks as [|k ks IH]; intros a; cbn [key_index]; [reflexivity|]. destruct (String.eqb k key); [cbn; f_equal; lia|].
  rewrite (IH (a + 1)), (IH (0 + 1)). destruct (key_index ks key 0); cbn; [f_equal; lia|reflexivity].
Qed.
Lemma key_index_nth ks key i : key_index ks key 0 = Some i -> nthZ ks i = Some key.
Proof.
  revert i; induction ks as [|k ks IH]; intros i; cbn [key_index]; [discriminate|]. destruct (String.eqb_spec k key) as [->|Hk].
  - intros [= <-]. reflexivity.
  - rewrite key_index_shift. destruct (key_index ks key 0) as [j|] eqn:E; [|discriminate]. cbn. intros [= <-]. pose proof (IH j eq_refl) as Hj. rewrite nthZ_cons.
    pose proof (nthZ_Some _ _ _ Hj). destruct (Z.eqb_spec (0 + 1 + j) 0); [lia|]. replace (0 + 1 + j - 1) with j by lia. exact Hj.
Qed.
Lemma key_index_In ks key : In key ks -> exists i, key_index ks key 0 = Some i.
Proof.
  induction ks as [|k ks IH]; [intros []|]. intros H. cbn [key_index]. destruct (String.eqb_spec k key) as [->|Hk]; [eauto|].
  destruct H as [->|H]; [congruence|]. rewrite key_index_shift. destruct (IH H) as [i ->]. cbn. eauto.
Qed.
Lemma NoDup_nthZ {A} (l : list A) i j x : NoDup l -> nthZ l i = Some x -> nthZ l j = Some x -> i = j.
Proof.
  intros H Ei Ej. pose proof (nthZ_Some _ _ _ Ei). pose proof (nthZ_Some _ _ _ Ej). unfold nthZ in Ei, Ej.
  destruct (Z.ltb_spec i 0); [lia|]. destruct (Z.ltb_spec j 0); [lia|].
  assert (Z.to_nat i = Z.to_nat j); [|lia]. rewrite NoDup_nth_error in H. apply H; [|congruence]. apply nth_error_Some. congruence.
Qed.
Lemma word_stoi k : word k -> stoi k = None.
Proof.
  destruct k as [|a k]; [reflexivity|]. unfold word, wordy. cbn [stoi]. intros H. apply negb_true_iff in H. repeat (apply orb_false_iff in H; destruct H as [H ?]).
  unfold space. cbv zeta in *. replace (Z.of_nat (nat_of_ascii a) =? 32) with false by lia. match goal with H : (9 <=? _) && _ = false |- _ => rewrite H end. cbn [orb].
  destruct (Ascii.eqb_spec a "-") as [->|]; [discriminate|]. destruct (Ascii.eqb_spec a "+") as [->|]; [discriminate|]. cbn [number]. unfold digit. cbv zeta. rewrite H. reflexivity.
Qed.

(** For plain keys: the field of the same key. *)
Lemma word_index ks key n i : word key -> fieldindex (Some ks) key n = Ok i <-> key_index ks key 0 = Some i.
Proof. intros Hw. unfold fieldindex. rewrite (word_stoi _ Hw). destruct (key_index ks key 0); split; congruence. Qed.
Lemma record_plain ks ks' ts us : NoDup ks -> Forall word ks -> zlen ks = zlen ts -> NoDup ks' -> zlen ks' = zlen us ->
  ty_equal (YRecord (Some ks) ts) (YRecord (Some ks') us) = true <->
  zlen ts = zlen us /\ forall i k t, nthZ ks i = Some k -> nthZ ts i = Some t -> exists j u, nthZ ks' j = Some k /\ nthZ us j = Some u /\ ty_equal t u = true.
Proof.
  intros ND HW HL ND' HL'. rewrite record_equal. split; intros [H0 H]; (split; [exact H0|]).
  - intros i k t Ek Et. destruct (H k (nthZ_In _ _ _ Ek)) as (i' & j & t' & u & Ei & Ej & Et' & Eu & E).
    assert (Wk : word k) by (rewrite Forall_forall in HW; apply HW; eapply nthZ_In; exact Ek).
    apply (word_index _ _ _ _ Wk) in Ei, Ej. apply key_index_nth in Ei, Ej. pose proof (NoDup_nthZ _ _ _ _ ND Ek Ei). subst i'. rewrite Et in Et'. injection Et' as <-.
    exists j, u. auto.
  - intros key Hk. destruct (key_index_In _ _ Hk) as [i Ei]. pose proof (key_index_nth _ _ _ Ei) as Ek. pose proof (nthZ_Some _ _ _ Ek) as Hi. destruct (nthZ_lt ts i) as [t Et]; [lia|].
    destruct (H i key t Ek Et) as (j & u & Ej & Eu & E). assert (Wk : word key) by (rewrite Forall_forall in HW; auto).
    destruct (key_index_In ks' key (nthZ_In _ _ _ Ej)) as [j' Ej']. pose proof (key_index_nth _ _ _ Ej') as Ek'. pose proof (NoDup_nthZ _ _ _ _ ND' Ej Ek'). subst j'.
    exists i, j, t, u. rewrite (word_index _ _ _ _ Wk), (word_index _ _ _ _ Wk). auto.
Qed.

Lemma plain_In ts t : fold_right and True (map plain_keys ts) -> In t ts -> plain_keys t.
Proof. induction ts; cbn; [contradiction|]. intros [H1 H2] [->|H]; auto. Qed.
Lemma proper_In ts t : fold_right and True (map proper ts) -> In t ts -> proper t.
Proof. induction ts; cbn; [contradiction|]. intros [H1 H2] [->|H]; auto. Qed.
Lemma plain_option t : plain_keys t -> plain_keys (option_type t).
Proof. induction t; cbn [option_type plain_keys]; auto. Qed.
Lemma proper_option t : proper t -> proper (option_type t).
Proof. induction t; cbn [option_type proper]; auto. Qed.

Lemma dt_equal dt du : (match dt, du with DBool, DBool | DInt, DInt | DReal, DReal => true | _, _ => false end) = true <-> dt = du.
Proof. destruct dt, du; split; congruence. Qed.

Lemma equal_refl t : proper t -> ty_equal t t = true.
Proof.
  induction t using ty_ind'; intros Hp; cbn [proper] in Hp.
  - reflexivity.
  - now apply dt_equal.
  - apply IHt. exact Hp.
  - cbn [ty_equal]. rewrite Z.eqb_refl. apply IHt. apply Hp.
  - rewrite option_equal. apply IHt0. now apply proper_option.
  - destruct Hp as [Hk Hp]. rewrite Forall_forall in H. destruct keys as [ks|].
    + apply record_equal. split; [reflexivity|]. intros key Hkey. destruct (key_index_In _ _ Hkey) as [i Ei]. unfold fieldindex. rewrite Ei.
      pose proof (nthZ_Some _ _ _ (key_index_nth _ _ _ Ei)). cbn [keys_ok] in Hk. destruct (nthZ_lt ts i) as [t Et]; [lia|]. exists i, i, t, t. repeat split; auto.
      apply H; [|eapply proper_In; [exact Hp|]]; eapply nthZ_In; exact Et.
    + apply tuple_equal. split; [reflexivity|]. intros j t u Et Eu. rewrite Et in Eu. injection Eu as <-. apply H; [|eapply proper_In; [exact Hp|]]; eapply nthZ_In; exact Et.
  - rewrite Forall_forall in H. apply union_equal. split; [reflexivity|]. intros j t u Et Eu. rewrite Et in Eu. injection Eu as <-. destruct Hp as [_ Hp].
    apply H; [|eapply proper_In; [exact Hp|]]; eapply nthZ_In; exact Et.
Qed.

Lemma incl_back {A} (a b : list A) : NoDup a -> zlen a = zlen b -> (forall x, In x a -> In x b) -> Permutation a b.
Proof. intros ND HL HI. apply NoDup_Permutation_bis; [exact ND|unfold zlen in HL; lia|exact HI]. Qed.

Ltac rec_case H :=
  match type of H with ty_equal (YRecord ?k ?ts) (YRecord ?k' ?us) = true =>
    destruct k as [?|], k' as [?|];
    [| cbn [ty_equal] in H; destruct (negb _); discriminate H | cbn [ty_equal] in H; destruct (negb _); discriminate H | ]
  end.

Ltac rec_case2 H :=
  match type of H with
  | ty_equal (YRecord (Some ?ks) ?ts) (YRecord ?k' ?us) = true => destruct k' as [?|]; [|cbn [ty_equal] in H; destruct (negb _); discriminate H]
  | ty_equal (YRecord None ?ts) (YRecord ?k' ?us) = true => destruct k' as [?|]; [cbn [ty_equal] in H; destruct (negb _); discriminate H|]
  end.

Lemma keys_perm (ks ks' : list string) ts us : NoDup ks -> zlen ks = zlen ts -> zlen ks' = zlen us -> zlen ts = zlen us ->
  (forall i k t, nthZ ks i = Some k -> nthZ ts i = Some t -> exists j u, nthZ ks' j = Some k /\ nthZ us j = Some u /\ ty_equal t u = true) -> Permutation ks ks'.
Proof.
  intros ND L1 L2 L3 H. apply incl_back; [exact ND|lia|]. intros x Hx. destruct (In_nthZ _ _ Hx) as [i Ei]. pose proof (nthZ_Some _ _ _ Ei). destruct (nthZ_lt ts i) as [t Et]; [lia|].
  destruct (H i x t Ei Et) as (j & u & Ej & _). eapply nthZ_In; exact Ej.
Qed.

Lemma equal_sym t : forall u, plain_keys t -> plain_keys u -> ty_equal t u = true -> ty_equal u t = true.
Proof.
  induction t using ty_ind'; intros u Pt Pu E; destruct u; try discriminate E; cbn [plain_keys] in Pt, Pu.
  - reflexivity.
  - apply dt_equal in E. subst. now apply dt_equal.
  - apply IHt; assumption.
  - cbn [ty_equal] in *. apply andb_true_iff in E. destruct E as [E1 E2]. apply andb_true_iff. split; [lia|]. now apply IHt.
  - rewrite option_equal in *. apply IHt0; auto using plain_option.
  - destruct Pt as [Pk Pt], Pu as [Pk' Pu]. rewrite Forall_forall in H. rec_case E.
    + destruct Pk as (ND & HW & HL), Pk' as (ND' & HW' & HL'). apply record_plain in E; auto. destruct E as [H0 E]. apply record_plain; auto. split; [lia|].
      pose proof (keys_perm _ _ _ _ ND HL HL' H0 E) as HP. intros j k u Ek Eu. assert (Hin : In k l) by (eapply Permutation_in; [apply Permutation_sym; exact HP|eapply nthZ_In; exact Ek]).
      destruct (In_nthZ _ _ Hin) as [i Ei]. pose proof (nthZ_Some _ _ _ Ei). destruct (nthZ_lt ts i) as [t Et]; [lia|]. destruct (E i k t Ei Et) as (j' & u' & Ej & Eu' & E').
      pose proof (NoDup_nthZ _ _ _ _ ND' Ek Ej). subst j'. rewrite Eu in Eu'. injection Eu' as <-. exists i, t. split; [exact Ei|]. split; [exact Et|].
      apply H; [eapply nthZ_In; exact Et|eapply plain_In; [exact Pt|eapply nthZ_In; exact Et]|eapply plain_In; [exact Pu|eapply nthZ_In; exact Eu]|exact E'].
    + apply tuple_equal in E. apply tuple_equal. destruct E as [HL E]. split; [lia|]. intros j u t Eu Et.
      apply H; [eapply nthZ_In; exact Et|eapply plain_In; [exact Pt|eapply nthZ_In; exact Et]|eapply plain_In; [exact Pu|eapply nthZ_In; exact Eu]|eapply E; eassumption].
  - rewrite Forall_forall in H. apply union_equal in E. apply union_equal. destruct E as [HL E]. split; [lia|]. intros j u t Eu Et.
    apply H; [eapply nthZ_In; exact Et|eapply plain_In; [exact Pt|eapply nthZ_In; exact Et]|eapply plain_In; [exact Pu|eapply nthZ_In; exact Eu]|eapply E; eassumption].
Qed.

Lemma pointwise_trans ts us ws : (forall t, In t ts -> forall u w, plain_keys t -> plain_keys u -> plain_keys w -> ty_equal t u = true -> ty_equal u w = true -> ty_equal t w = true) ->
  fold_right and True (map plain_keys ts) -> fold_right and True (map plain_keys us) -> fold_right and True (map plain_keys ws) -> pointwise ts us -> pointwise us ws -> pointwise ts ws.
Proof.
  intros IH Pt Pu Pw [L1 E1] [L2 E2]. split; [lia|]. intros j t w Et Ew. pose proof (nthZ_Some _ _ _ Et). destruct (nthZ_lt us j) as [u Eu]; [lia|].
  eapply (IH t (nthZ_In _ _ _ Et) u w); [eapply plain_In; [exact Pt|eapply nthZ_In; exact Et]|eapply plain_In; [exact Pu|eapply nthZ_In; exact Eu]|eapply plain_In; [exact Pw|eapply nthZ_In; exact Ew]|eapply E1; eassumption|eapply E2; eassumption].
Qed.
Lemma equal_trans t : forall u w, plain_keys t -> plain_keys u -> plain_keys w -> ty_equal t u = true -> ty_equal u w = true -> ty_equal t w = true.
Proof.
  induction t using ty_ind'; intros u w Pt Pu Pw E1 E2; destruct u; try discriminate E1; destruct w; try discriminate E2; cbn [plain_keys] in Pt, Pu, Pw.
  - reflexivity.
  - apply dt_equal in E1, E2. subst. now apply dt_equal.
  - cbn [ty_equal] in *. eapply IHt; [exact Pt|exact Pu|exact Pw|exact E1|exact E2].
  - cbn [ty_equal] in *. apply andb_true_iff in E1, E2. apply andb_true_iff. split; [lia|]. eapply IHt; [exact Pt|exact Pu|exact Pw|apply E1|apply E2].
  - rewrite option_equal in *. eapply IHt0; [| | |exact E1|exact E2]; auto using plain_option.
  - destruct Pt as [Pk Pt], Pu as [Pk' Pu], Pw as [Pk'' Pw]. rewrite Forall_forall in H. rec_case E1; rec_case2 E2.
    + destruct Pk as (ND & HW & HL), Pk' as (ND' & HW' & HL'), Pk'' as (ND'' & HW'' & HL''). apply record_plain in E1; auto. apply record_plain in E2; auto. apply record_plain; auto.
      destruct E1 as [L1 E1], E2 as [L2 E2]. split; [lia|]. intros i k t Ek Et. destruct (E1 i k t Ek Et) as (j & u & Ej & Eu & A). destruct (E2 j k u Ej Eu) as (m & w & Em & Ew & B).
      exists m, w. split; [exact Em|]. split; [exact Ew|]. eapply (H t (nthZ_In _ _ _ Et) u w); [eapply plain_In; [exact Pt|eapply nthZ_In; exact Et]|eapply plain_In; [exact Pu|eapply nthZ_In; exact Eu]|eapply plain_In; [exact Pw|eapply nthZ_In; exact Ew]|exact A|exact B].
    + apply tuple_equal in E1, E2. apply tuple_equal. eapply pointwise_trans; [|exact Pt|exact Pu|exact Pw|exact E1|exact E2]. exact H.
  - rewrite Forall_forall in H. apply union_equal in E1, E2. apply union_equal. eapply pointwise_trans; [|exact Pt|exact Pu|exact Pw|exact E1|exact E2]. exact H.
Qed.
