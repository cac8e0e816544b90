(** The layout conditions of the reducers are kept by slicing and carrying. *)
From Verif Require Import Base BaseLemmas OmapLemmas LoopLemmas Content KCore Core KConvert Convert KOption Option KAxis Axis KReduce Reduce SpecArray SpecForm SpecMerge SpecReduce
  PCore PCarry PList PConvert POption PForm PAxis PNat PPadK PNum PFlatten PReduceK.

(** ** number of levels *)
Section FormInd.
Variable P : form -> Prop.
Hypothesis Hunk : P FUnknown.
Hypothesis Hnum : forall dt, P (FNum dt).
Hypothesis Hlist : forall f, P f -> P (FList f).
Hypothesis Hopt : forall f, P f -> P (FOption f).
Hypothesis Hrec : forall keys fs, Forall P fs -> P (FRecord keys fs).
Hypothesis Hunion : forall fs, Forall P fs -> P (FUnion fs).
Fixpoint form_ind' (f : form) : P f :=
  let all := fix go (fs : list form) : Forall P fs := match fs with [] => Forall_nil _ | f :: fs => Forall_cons f (form_ind' f) (go fs) end in
  match f with
  | FUnknown => Hunk | FNum dt => Hnum dt | FList f => Hlist f (form_ind' f) | FOption f => Hopt f (form_ind' f)
  | FRecord keys fs => Hrec keys fs (all fs) | FUnion fs => Hunion fs (all fs)
  end.
End FormInd.
Lemma levels_pos f : forall d, levels f = Some d -> 1 <= d.
Proof.
  induction f using form_ind'; intros d Hd; cbn [levels] in Hd; try (injection Hd as <-; lia); try (eapply IHf; exact Hd).
  - destruct (levels f) as [e|] eqn:E; [|discriminate]. injection Hd as <-. specialize (IHf e eq_refl). lia.
  - destruct fs as [|g fs]; [injection Hd as <-; lia|]. cbn [map] in Hd. destruct (levels g) as [e|] eqn:E; [|discriminate]. inversion H as [|? ? Hg _]; subst. destruct (forallb _ _); [|discriminate]. injection Hd as <-. apply Hg. exact E.
  - destruct fs as [|g fs]; [injection Hd as <-; lia|]. cbn [map] in Hd. destruct (levels g) as [e|] eqn:E; [|discriminate]. inversion H as [|? ? Hg _]; subst. destruct (forallb _ _); [|discriminate]. injection Hd as <-. apply Hg. exact E.
Qed.
Lemma levels_branch c : forall d, levels (form_of c) = Some d -> union_free (form_of c) = true -> branch_depth c = (false, d).
Proof.
  induction c using content_ind'; intros d Hd Hu; cbn [levels form_of] in Hd; cbn [union_free form_of] in Hu; cbn [branch_depth]; try (injection Hd as <-; reflexivity); try (apply IHc; assumption); try discriminate Hu.
  - destruct (levels (form_of c)) as [e|] eqn:E; [|discriminate]. injection Hd as <-. rewrite (IHc e eq_refl Hu). f_equal. lia.
  - destruct (levels (form_of c)) as [e|] eqn:E; [|discriminate]. injection Hd as <-. rewrite (IHc e eq_refl Hu). f_equal. lia.
  - destruct (levels (form_of c)) as [e|] eqn:E; [|discriminate]. injection Hd as <-. rewrite (IHc e eq_refl Hu). f_equal. lia.
  - destruct cs as [|c cs]; [injection Hd as <-; reflexivity|]. cbn [map] in Hd, Hu. destruct (levels (form_of c)) as [e|] eqn:E; [|discriminate].
    destruct (forallb _ _) eqn:Ef; [|discriminate]. injection Hd as <-. cbn [forallb] in Hu. apply andb_true_iff in Hu as [Hu1 Hu2]. inversion H as [|? ? Hc Hcs]; subst.
    cbn [map fold_left]. rewrite (Hc e E Hu1). pose proof (levels_pos _ _ E) as He. unfold branch_step at 2. simpl (-1 =? -1). cbv iota. rewrite Z.eqb_refl, Z.ltb_irrefl. cbn [negb orb].
    clear -Hcs Ef Hu2 He. rewrite map_map, forallb_map in Ef. rewrite forallb_map in Hu2. revert Ef Hu2. induction Hcs as [|x cs Hx _ IH]; intros Ef Hu2; [reflexivity|]. cbn [forallb] in Ef, Hu2. apply andb_true_iff in Ef as [E1 E2]. apply andb_true_iff in Hu2 as [U1 U2].
    cbn [map fold_left]. destruct (levels (form_of x)) as [d'|] eqn:Ex; [|discriminate]. apply Z.eqb_eq in E1. subst d'. rewrite (Hx e eq_refl U1). unfold branch_step at 2.
    destruct (Z.eqb_spec e (-1)); [lia|]. rewrite Z.eqb_refl, Z.ltb_irrefl. cbn [negb orb]. apply IH; assumption.
Qed.
Lemma has_levels_eq f k : has_levels f k = true <-> levels f = Some k.
Proof. unfold has_levels. destruct (levels f) as [d|]; [|split; discriminate]. rewrite Z.eqb_eq. split; congruence. Qed.
Lemma flat_record_levels keys fs : forallb (fun f => has_levels f 1) fs = true -> levels (FRecord keys fs) = Some 1.
Proof.
  intros H. cbn [levels]. destruct fs as [|f fs]; [reflexivity|]. cbn [forallb map] in *. apply andb_true_iff in H as [H1 H2]. apply has_levels_eq in H1. rewrite H1.
  rewrite forallb_map. match goal with |- (if ?b then _ else _) = _ => enough (E : b = true) by (rewrite E; reflexivity) end. apply forallb_forall. intros x Hx. rewrite forallb_forall in H2. specialize (H2 x Hx). apply has_levels_eq in H2. rewrite H2. apply Z.eqb_refl.
Qed.
Lemma levels_record keys fs : levels (FRecord keys fs) = Some 1 -> forallb (fun f => has_levels f 1) fs = true.
Proof.
  cbn [levels]. destruct fs as [|f fs]; [reflexivity|]. cbn [map]. destruct (levels f) as [d|] eqn:E; [|discriminate]. destruct (forallb _ _) eqn:Ef; [|discriminate]. intros [= ->].
  cbn [forallb]. apply andb_true_iff. split; [apply has_levels_eq; exact E|]. rewrite forallb_map in Ef. apply forallb_forall. intros x Hx. rewrite forallb_forall in Ef. specialize (Ef x Hx). destruct (levels x) as [d'|] eqn:Ex; [|discriminate].
  apply has_levels_eq. rewrite Ex. apply Z.eqb_eq in Ef. congruence.
Qed.

(** ** kinds of nodes *)
Lemma range_kind c : forall a b c', getitem_range_nowrap c a b = Ok c' -> is_list c' = is_list c /\ unindexed c' = unindexed c.
Proof.
  induction c using content_ind'; intros a b c' H0; simpl in H0; binv H0; try (mkinv H0; subst; split; reflexivity); try (injection H0 as <-; split; reflexivity).
  - mkinv H0; subst. split; [reflexivity|]. simpl. eapply IHc; eassumption.
  - mkinv H0; subst. split; [reflexivity|]. simpl. eapply IHc; eassumption.
  - injection H0 as <-. split; [reflexivity|]. simpl. eapply IHc; eassumption.
  - destruct cs; [mkinv H0; subst; split; reflexivity|]. binv H0; [injection H0 as <-; split; reflexivity|]. mkinv H0; subst. split; reflexivity.
Qed.
Definition kind_le (c c' : content) : Prop := (is_list c = true -> is_list c' = true) /\ (unindexed c = true -> unindexed c' = true).
Lemma contiguous_kind c cry kk c' : carry_contiguous c cry kk = Ok c' -> (kk tt = Ok c' -> kind_le c c') -> kind_le c c'.
Proof.
  unfold carry_contiguous; intros H Hk. binv H.
  - injection H as <-. split; auto.
  - apply range_kind in H as [A B]. split; congruence.
  - auto.
Qed.
Lemma carry_kind c : forall cry lz c', carry c cry lz = Ok c' -> kind_le c c'.
Proof.
  induction c using content_ind'; intros cry lz c' H0; cbn [carry] in H0;
    try (eapply contiguous_kind; [exact H0|clear H0; intros H0; cbv beta in H0]); binv H0; try (mkinv H0; subst; split; auto; fail); try (injection H0 as <-; split; auto; discriminate).
  - mkinv H0; subst. split; [auto|]. simpl. eapply IHc; eassumption.
  - eapply (contiguous_kind (ByteMasked a vw c)) in H0; [exact H0|clear H0; intros H0; cbv beta in H0]. binv H0. mkinv H0; subst. split; [auto|]. simpl. eapply IHc; eassumption.
  - injection H0 as <-. split; [auto|]. simpl. eapply IHc; eassumption.
  - split; discriminate.
Qed.

(** ** prepared *)
Section Prep.
Variables zb pos : bool.
Notation prep := (prepared zb pos).
Definition inner_ok (c' : content) : Prop := has_levels (form_of c') 1 = true \/ (zb = true /\ is_list c' = true).
Definition pos_ok (c' : content) : Prop := pos = true -> is_list c' = true \/ unindexed c' = true.
Lemma prep_all cs : fold_right and True (map prep cs) <-> Forall prep cs.
Proof. induction cs as [|c cs IH]; simpl; [split; auto|]. rewrite IH. split; [intros []; constructor; assumption|intros H; inversion H; auto]. Qed.
Lemma inner_kept c c' : form_of c' = form_of c -> kind_le c c' -> inner_ok c -> inner_ok c'.
Proof. intros Hf [K _] [H|[H1 H2]]; [left; rewrite Hf; exact H|right; auto]. Qed.
Lemma pos_kept c c' : kind_le c c' -> pos_ok c -> pos_ok c'.
Proof. intros [K1 K2] H Hp. destruct (H Hp); auto. Qed.
Lemma range_le c a b c' : getitem_range_nowrap c a b = Ok c' -> kind_le c c'.
Proof. intros H. apply range_kind in H as [A B]. split; congruence. Qed.

Lemma range_prep c : forall a b c', (zb = true -> a = 0) -> prep c -> getitem_range_nowrap c a b = Ok c' -> prep c'.
Proof.
  induction c using content_ind'; intros a' b' c' Ha HZ H0; simpl in H0; binv H0; try (mkinv H0; subst; exact HZ).
  - unfold mkListOffset in H0. destruct (Z.eqb_spec (zlen a) 0) as [|Hne]; [discriminate|]. injection H0 as <-. cbn [prepared] in *. destruct HZ as [A B]. split; [|exact B]. destruct zb.
    + rewrite (Ha eq_refl) in E. rewrite (iview_head _ _ _ E Hne). exact A.
    + eapply iview_sub; [exact E|exact A].
  - mkinv H0; subst. cbn [prepared] in *. eapply IHc; [|exact HZ|exact E]. intros Hz. rewrite (Ha Hz). reflexivity.
  - mkinv H0; subst. cbn [prepared] in *. destruct HZ as (Z1 & Z2 & Z3). split; [eapply inner_kept; [apply (range_same _ _ _ _ E0)|eapply range_le; exact E0|exact Z1]|]. split; [eapply pos_kept; [eapply range_le; exact E0|exact Z2]|]. eapply IHc; [exact Ha|exact Z3|exact E0].
  - mkinv H0; subst. cbn [prepared] in *. destruct HZ as (Z1 & Z2 & Z3). split; [eapply inner_kept; [apply (range_same _ _ _ _ E2)|eapply range_le; exact E2|exact Z1]|]. split; [eapply pos_kept; [eapply range_le; exact E2|exact Z2]|]. eapply IHc; [exact Ha|exact Z3|exact E2].
  - injection H0 as <-. cbn [prepared] in *. destruct HZ as (Z1 & Z2 & Z3). split; [eapply inner_kept; [apply (range_same _ _ _ _ E)|eapply range_le; exact E|exact Z1]|]. split; [eapply pos_kept; [eapply range_le; exact E|exact Z2]|]. eapply IHc; [exact Ha|exact Z3|exact E].
  - destruct cs as [|c0 cs]; [mkinv H0; subst; exact HZ|]. binv H0; [injection H0 as <-; exact HZ|].
    mkinv H0; subst. cbn [prepared] in *. rewrite prep_all in *. eapply (mapres_P prep); [|exact HZ|exact E].
    eapply Forall_impl; [|exact H]. intros x Hx Hz x' Hx'. eapply Hx; [exact Ha|exact Hz|exact Hx'].
Qed.
Lemma contiguous_prep c cry kk c' : prep c -> carry_contiguous c cry kk = Ok c' -> (kk tt = Ok c' -> prep c') -> prep c'.
Proof.
  unfold carry_contiguous; intros HZ H Hk. binv H.
  - injection H as <-. exact HZ.
  - eapply range_prep; [reflexivity|exact HZ|exact H].
  - auto.
Qed.
Lemma carry_prep c : forall cry lz c', (lz = true -> flat_records (form_of c) = true) -> prep c -> carry c cry lz = Ok c' -> prep c'.
Proof.
  induction c using content_ind'; intros cry lz c' Hlz HZ H0; cbn [carry] in H0;
    try (eapply contiguous_prep; [exact HZ|exact H0|clear H0; intros H0; cbv beta in H0]); binv H0; try (mkinv H0; subst; exact HZ).
  - mkinv H0; subst. cbn [prepared] in *. apply HZ.
  - mkinv H0; subst. cbn [prepared] in *. eapply IHc; [exact Hlz|exact HZ|exact E0].
  - mkinv H0; subst. cbn [prepared] in *. destruct HZ as (Z1 & Z2 & Z3). split; [eapply inner_kept; [apply (carry_same _ _ _ _ E0)|eapply carry_kind; exact E0|exact Z1]|]. split; [eapply pos_kept; [eapply carry_kind; exact E0|exact Z2]|]. eapply IHc; [exact Hlz|exact Z3|exact E0].
  - eapply (contiguous_prep (ByteMasked a vw c)); [exact HZ|exact H0|clear H0; intros H0; cbv beta in H0]. binv H0. mkinv H0; subst. cbn [prepared] in *. destruct HZ as (Z1 & Z2 & Z3). split; [eapply inner_kept; [apply (carry_same _ _ _ _ E2)|eapply carry_kind; exact E2|exact Z1]|]. split; [eapply pos_kept; [eapply carry_kind; exact E2|exact Z2]|]. eapply IHc; [exact Hlz|exact Z3|exact E2].
  - injection H0 as <-. cbn [prepared] in *. destruct HZ as (Z1 & Z2 & Z3). split; [eapply inner_kept; [apply (carry_same _ _ _ _ E)|eapply carry_kind; exact E|exact Z1]|]. split; [eapply pos_kept; [eapply carry_kind; exact E|exact Z2]|]. eapply IHc; [exact Hlz|exact Z3|exact E].
  - injection H0 as <-. cbn [prepared] in *. split; [left; apply has_levels_eq, flat_record_levels; apply Hlz; reflexivity|exact HZ].
  - eapply contiguous_prep; [exact HZ|exact H0|clear H0; intros H0; cbv beta in H0]. binv H0. mkinv H0; subst. cbn [prepared] in *. rewrite prep_all in *. eapply (mapres_P prep); [|exact HZ|exact E].
    eapply Forall_impl; [|exact H]. intros x Hx Hz x' Hx'. eapply Hx; [|exact Hz|exact Hx']. intros Hf. discriminate Hf.
Qed.
Lemma tolistoffset_prep w c l x o c'' : list_view c = Some (l, x) -> flat_records (form_of x) = true -> prep x -> toListOffsetArray64 w true c = Ok (ListOffset o c'') -> prep c''.
Proof.
  intros Hv Hf HZ H. unfold toListOffsetArray64 in H. destruct c; try discriminate Hv; cbn [list_view] in Hv; injection Hv as <- <-; binv H; try (injection H as <- <-; exact HZ);
    cbn [broadcast_tooffsets64] in H; unfold starts_at_0 in H; binv H; mkinv H; injection H as <- <-; first [exact HZ|eapply carry_prep; [intros _; exact Hf|exact HZ|eassumption]].
Qed.
End Prep.
