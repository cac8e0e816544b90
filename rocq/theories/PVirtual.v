(** Proofs about virtual arrays. *)
From Verif Require Import Base BaseLemmas LoopLemmas OmapLemmas Content KCore Core KRange KConvert Convert KOption Option KAxis Axis KGetitem
  SpecArray SpecForm SpecSlice SpecOption PCore PRange PCarry PList POption PForm PAxis PNat PNum Getitem SpecGetitem PGetitemK PGetitem1 PField PGetitem PGetitem2
  Virtual SpecVirtual ThmC03.
From Coq Require Import String.
From Coq Require Import List.
Import ListNotations.
Local Open Scope string_scope.
Local Open Scope list_scope.
Local Open Scope Z_scope.

(** ** forms *)
Section LInd.
  Variable P : lform -> Prop.
  Hypothesis H0 : P LEmpty.
  Hypothesis H1 : forall dt, P (LNumpy dt).
  Hypothesis H2 : forall f, P f -> P (LList f).
  Hypothesis H3 : forall f, P f -> P (LListOffset f).
  Hypothesis H4 : forall s f, P f -> P (LRegular s f).
  Hypothesis H5 : forall f, P f -> P (LIndexed f).
  Hypothesis H6 : forall f, P f -> P (LIndexedOption f).
  Hypothesis H7 : forall v f, P f -> P (LByteMasked v f).
  Hypothesis H8 : forall v l f, P f -> P (LBitMasked v l f).
  Hypothesis H9 : forall f, P f -> P (LUnmasked f).
  Hypothesis H10 : forall ks fs, Forall P fs -> P (LRecord ks fs).
  Hypothesis H11 : forall fs, Forall P fs -> P (LUnion fs).
  Fixpoint lform_ind' (f : lform) : P f :=
    let go := fix go (fs : list lform) : Forall P fs := match fs with [] => Forall_nil P | f :: fs => Forall_cons f (lform_ind' f) (go fs) end in
    match f with
    | LEmpty => H0 | LNumpy dt => H1 dt | LList f => H2 f (lform_ind' f) | LListOffset f => H3 f (lform_ind' f) | LRegular s f => H4 s f (lform_ind' f)
    | LIndexed f => H5 f (lform_ind' f) | LIndexedOption f => H6 f (lform_ind' f) | LByteMasked v f => H7 v f (lform_ind' f) | LBitMasked v l f => H8 v l f (lform_ind' f)
    | LUnmasked f => H9 f (lform_ind' f) | LRecord ks fs => H10 ks fs (go fs) | LUnion fs => H11 fs (go fs)
    end.
End LInd.

Lemma key_index_app pre k t i : existsb (String.eqb k) pre = false -> key_index (pre ++ k :: t) k i = Some (i + zlen pre).
Proof.
  revert i. induction pre as [|x pre IH]; intros i H; cbn [app key_index].
  - rewrite String.eqb_refl. change (zlen (@nil string)) with 0. f_equal. lia.
  - cbn [existsb] in H. apply Bool.orb_false_iff in H. destruct H as [H1 H2]. rewrite String.eqb_sym, H1. rewrite IH by exact H2. rewrite zlen_cons. f_equal. lia.
Qed.
Lemma existsb_app_cons k pre x t : existsb (String.eqb k) (pre ++ x :: t) = false -> existsb (String.eqb k) pre = false.
Proof. rewrite existsb_app. intros H. apply Bool.orb_false_iff in H. tauto. Qed.
Lemma distinct_app pre k t : distinct (pre ++ k :: t) = true -> existsb (String.eqb k) pre = false.
Proof.
  induction pre as [|x pre IH]; cbn [app distinct existsb]; intros H; [reflexivity|]. apply andb_prop in H. destruct H as [H1 H2]. rewrite (IH H2), Bool.orb_false_r.
  apply Bool.negb_true_iff in H1. rewrite existsb_app in H1. apply Bool.orb_false_iff in H1. destruct H1 as [_ H1]. cbn [existsb] in H1. apply Bool.orb_false_iff in H1. rewrite String.eqb_sym. tauto.
Qed.
Lemma nthZ_mid {A} (pre : list A) x t : nthZ (pre ++ x :: t) (zlen pre) = Some x.
Proof. rewrite nthZ_app. destruct (Z.ltb_spec (zlen pre) (zlen pre)); [lia|]. rewrite Z.sub_diag. reflexivity. Qed.

Lemma form_equal_refl f : steady f = true -> form_equal f f = true.
Proof.
  induction f using lform_ind'; cbn [steady form_equal]; intros HS; auto; try discriminate.
  - destruct dt; reflexivity.
  - rewrite IHf, Z.eqb_refl by exact HS. reflexivity.
  - rewrite IHf by exact HS. destruct v; reflexivity.
  - apply andb_prop in HS. destruct HS as [HK HF]. destruct ks as [ks|].
    + apply andb_prop in HK. destruct HK as [HL HD]. rewrite Z.eqb_refl. cbn [andb]. apply Z.eqb_eq in HL.
      assert (G : forall pk pf k2 f2, pk ++ k2 = ks -> pf ++ f2 = fs -> zlen pk = zlen pf -> zlen k2 = zlen f2 ->
        (fix go (fs0 : list lform) (ks0 : list string) {struct fs0} : bool :=
           match fs0, ks0 with
           | f :: fs0, k :: ks0 => match key_index ks k 0 with Some j => match nthZ fs j with Some g => form_equal f g | None => false end | None => false end && go fs0 ks0
           | _, _ => true
           end) f2 k2 = true).
      { intros pk pf k2 f2. revert pk pf k2. induction f2 as [|f f2 IH]; intros pk pf k2 E1 E2 L1 L2; [reflexivity|]. destruct k2 as [|k k2]; [reflexivity|].
        rewrite <- E1 in HD. pose proof (distinct_app _ _ _ HD) as Hk. rewrite <- E1 at 1. rewrite (key_index_app _ _ _ _ Hk), Z.add_0_l, L1. rewrite <- E2 at 1. rewrite nthZ_mid.
        assert (Hin : In f fs) by (rewrite <- E2; apply in_or_app; right; left; reflexivity). rewrite Forall_forall in H. rewrite forallb_forall in HF. rewrite (H f Hin (HF f Hin)). cbn [andb].
        apply (IH (pk ++ [k]) (pf ++ [f])); rewrite <- ?app_assoc; cbn [app]; auto; rewrite ?zlen_app, ?zlen_cons in *; change (zlen (@nil string)) with 0; change (zlen (@nil lform)) with 0; lia. }
      apply (G [] []); auto.
    + rewrite Z.eqb_refl. cbn [andb]. clear HK. induction fs as [|f fs IH]; [reflexivity|]. inversion H; subst. cbn [forallb] in HF. apply andb_prop in HF. destruct HF as [HF1 HF2]. rewrite H2 by exact HF1. cbn [andb]. apply IH; assumption.
Qed.

(** ** ranges and carries keep the layout, as far as it matters *)
Lemma mapres_layout (f : content -> res content) cs cs' :
  Forall (fun c => forall c', steady (layout c) = true -> f c = Ok c' -> layout c' = layout c) cs -> forallb steady (map layout cs) = true -> mapres f cs = Ok cs' -> map layout cs' = map layout cs.
Proof.
  revert cs'. induction cs as [|c cs IH]; intros cs' HF HS E; cbn [mapres] in E; [injection E as <-; reflexivity|]. inversion HF; subst. cbn [map forallb] in HS. apply andb_prop in HS. destruct HS as [S1 S2].
  binv E. injection E as <-. cbn [map]. rewrite (H1 _ S1 E0), (IH _ H2 S2 E1). reflexivity.
Qed.
Lemma range_layout c : forall a b c', steady (layout c) = true -> getitem_range_nowrap c a b = Ok c' -> layout c' = layout c.
Proof.
  induction c using content_ind'; intros x y c' HS E; cbn [getitem_range_nowrap] in E; cbn [layout steady] in HS; try discriminate HS.
  all: try (binv E; mkinv E; subst; cbn [layout]; try reflexivity; f_equal; eauto; fail).
  destruct cs as [|c0 cs0] eqn:Ecs; [binv E; mkinv E; subst; reflexivity|]. rewrite <- Ecs in *. destruct ((x =? 0) && (y =? len)); [injection E as <-; reflexivity|].
  binv E. mkinv E. subst c'. cbn [layout]. f_equal. apply andb_prop in HS. destruct HS as [_ HS]. eapply mapres_layout; [|exact HS|exact E0].
  eapply Forall_impl; [|exact H]. cbn beta. intros c Hc c' S1 E1. eapply Hc; eassumption.
Qed.
Lemma contiguous_steady c cry k c' : carry_contiguous c cry k = Ok c' -> steady (layout c) = true -> (k tt = Ok c' -> steady (layout c') = true) -> steady (layout c') = true.
Proof.
  intros E HS Hk. unfold carry_contiguous in E. apply bind_Ok in E. destruct E as (b & _ & E). destruct b; [|exact (Hk E)]. destruct (_ =? _); [injection E as <-; exact HS|]. rewrite (range_layout _ _ _ _ HS E). exact HS.
Qed.
Lemma carry_steady c : forall cry lz c', steady (layout c) = true -> carry c cry lz = Ok c' -> steady (layout c') = true.
Proof.
  induction c using content_ind'; intros cry lz c' HS E; cbn [carry] in E.
  all: try discriminate HS.
  all: try (destruct lz; [injection E as <-; exact HS|]).
  all: try (eapply contiguous_steady; [exact E|exact HS|]; clear E; intros E; cbv beta in E; binv E; mkinv E; subst; cbn [layout steady] in *; eauto; fail).
  - destruct (_ =? _); [injection E as <-; reflexivity|discriminate].
  - eapply contiguous_steady; [exact E|exact HS|]. clear E. intros E. cbv beta in E. binv E. mkinv E. subst c'. cbn [layout steady] in *. apply andb_prop in HS. destruct HS as [HK HS].
    assert (G : zlen a = zlen cs /\ forallb steady (map layout a) = true).
    { clear HK. revert a E0. induction cs as [|c cs IH]; intros a E0; cbn [mapres] in E0; [injection E0 as <-; split; reflexivity|]. inversion H; subst. cbn [map forallb] in HS. apply andb_prop in HS. destruct HS as [S1 S2].
      binv E0. injection E0 as <-. destruct (IH H3 S2 _ E1) as [G1 G2]. cbn [map forallb]. rewrite (H2 _ _ _ S1 E), G2, !zlen_cons, G1. split; reflexivity. }
    destruct G as [G1 G2]. rewrite !zlen_map in *. rewrite G1, G2. destruct keys; [rewrite HK|]; reflexivity.
Qed.

(** ** fields *)
Lemma simplify_inner_layout c o : simplify_inner c = Ok o -> forall io i c', o = Some (io, i, c') ->
  layout c = (if io then layout c else LIndexed (layout c')) /\
  (forall b, form_indexed_simplify b (layout c) = if b || io then LIndexedOption (layout c') else LIndexed (layout c')).
Proof.
  intros E io i c' ->. destruct c; cbn [simplify_inner] in E; try discriminate.
  1-2: injection E as <- <- <-; cbn [layout form_indexed_simplify]; split; [reflexivity|intros []; reflexivity].
  all: binv E; destruct a; try discriminate; injection E as <- <- <-; split; [reflexivity|]; intros b; rewrite Bool.orb_true_r.
  - cbn [toIndexedOptionArray64] in E0. binv E0. injection E0 as _ <-. reflexivity.
  - cbn [toIndexedOptionArray64] in E0. binv E0. injection E0 as _ <-. reflexivity.
  - cbn [toIndexedOptionArray64] in E0. binv E0. injection E0 as _ <-. reflexivity.
Qed.
Lemma layout_option c : form_option (layout c) = needs_simplify c.
Proof. destruct c; reflexivity. Qed.
Lemma indexed_simplify_layout b index c c' : Indexed_simplify b index c = Ok c' -> layout c' = form_indexed_simplify b (layout c).
Proof.
  unfold Indexed_simplify. intros E. binv E. destruct a as [[[io i] c'']|].
  - binv E. injection E as <-. destruct (simplify_inner_layout _ _ E0 _ _ _ eq_refl) as [_ ->]. destruct (b || io); reflexivity.
  - injection E as <-. destruct c; cbn [simplify_inner] in E0; try discriminate; try (destruct b; reflexivity).
    all: binv E0; destruct a; discriminate.
Qed.
Lemma simplify_layout c c' : simplify_optiontype c = Ok c' -> layout c' = form_simplify (layout c).
Proof.
  intros E. destruct c; cbn [simplify_optiontype] in E; try discriminate; cbn [layout form_simplify]; rewrite ?layout_option.
  - eapply indexed_simplify_layout; exact E.
  - eapply indexed_simplify_layout; exact E.
  - destruct (needs_simplify c); [|injection E as <-; reflexivity]. binv E. cbn [toIndexedOptionArray64] in E0. binv E0. injection E0 as <-. eapply indexed_simplify_layout; exact E.
  - destruct (needs_simplify c); [|injection E as <-; reflexivity]. binv E. cbn [toIndexedOptionArray64] in E0. binv E0. injection E0 as <-. eapply indexed_simplify_layout; exact E.
  - destruct (needs_simplify c); injection E as <-; reflexivity.
Qed.
Lemma form_simplify_steady f : steady f = true -> steady (form_simplify f) = true.
Proof.
  assert (G : forall b g, steady g = true -> steady (form_indexed_simplify b g) = true) by (intros b g H; destruct g, b; try exact H; discriminate H).
  destruct f; cbn [form_simplify steady]; intros HS; auto; try discriminate.
  - destruct (form_option f); [apply G; exact HS|exact HS].
  - destruct (form_option f); exact HS.
Qed.
Lemma mkBitMasked_inv a b l n c c' : mkBitMasked a b l n c = Ok c' -> c' = BitMasked a b l n c.
Proof. unfold mkBitMasked. intros E. binv E. congruence. Qed.

Lemma field_layout key c : forall c', steady (layout c) = true -> getitem_field key c = Ok c' ->
  form_field key (layout c) = Ok (layout c') /\ steady (layout c') = true.
Proof.
  induction c using content_ind'; intros c' HS E; cbn [getitem_field] in E; cbn [layout steady] in HS; try discriminate.
  all: cbn [layout form_field].
  all: try (apply bind_Ok in E; destruct E as (next & En & E); destruct (IHc _ HS En) as [-> HSn]; cbn [bind]).
  1-3: mkinv E; subst c'; split; [reflexivity|exact HSn].
  1-2: rewrite (simplify_layout _ _ E); split; [reflexivity|apply form_simplify_steady; exact HSn].
  - binv E. apply mkByteMasked_inv in E0. subst a. rewrite (simplify_layout _ _ E). split; [reflexivity|apply form_simplify_steady; exact HSn].
  - rewrite (simplify_layout _ _ E). split; [reflexivity|apply form_simplify_steady; exact HSn].
  - rewrite zlen_map. binv E. rewrite E0. cbn [bind]. apply rd_Ok in E1. apply andb_prop in HS. destruct HS as [_ HS]. rewrite forallb_forall in HS.
    assert (Sx : steady (layout a0) = true) by (apply HS; apply in_map; eapply nthZ_In; exact E1). rewrite (range_layout _ _ _ _ Sx E). split; [|exact Sx].
    apply rd_Ok. rewrite nthZ_map, E1. reflexivity.
Qed.

(** the type of a field, without its missing values *)
Fixpoint bare (f : form) : form :=
  match f with
  | FOption f => bare f
  | FList f => FList (bare f)
  | FRecord ks fs => FRecord ks (map bare fs)
  | FUnion fs => FUnion (map bare fs)
  | f => f
  end.
Lemma bare_simplify_inner c o : simplify_inner c = Ok o -> forall io i c', o = Some (io, i, c') -> bare (form_of c') = bare (form_of c).
Proof.
  intros E io i c' ->. destruct c; cbn [simplify_inner] in E; try discriminate.
  1-2: injection E as <- <- <-; reflexivity.
  all: binv E; destruct a; try discriminate; injection E as <- <- <-; cbn [toIndexedOptionArray64] in E0; binv E0; injection E0 as _ <-; reflexivity.
Qed.
Lemma bare_indexed_simplify b index c c' : Indexed_simplify b index c = Ok c' -> bare (form_of c') = bare (form_of c).
Proof.
  unfold Indexed_simplify. intros E. binv E. destruct a as [[[io i] c'']|].
  - binv E. injection E as <-. rewrite <- (bare_simplify_inner _ _ E0 _ _ _ eq_refl). destruct (b || io); reflexivity.
  - injection E as <-. destruct b; reflexivity.
Qed.
Lemma bare_simplify c c' : simplify_optiontype c = Ok c' -> bare (form_of c') = bare (form_of c).
Proof.
  intros E. destruct c; cbn [simplify_optiontype] in E; try discriminate.
  - apply bare_indexed_simplify in E. exact E.
  - apply bare_indexed_simplify in E. exact E.
  - destruct (needs_simplify c); [|injection E as <-; reflexivity]. binv E. cbn [toIndexedOptionArray64] in E0. binv E0. injection E0 as <-. apply bare_indexed_simplify in E. exact E.
  - destruct (needs_simplify c); [|injection E as <-; reflexivity]. binv E. cbn [toIndexedOptionArray64] in E0. binv E0. injection E0 as <-. apply bare_indexed_simplify in E. exact E.
  - destruct (needs_simplify c); injection E as <-; reflexivity.
Qed.
Lemma find_key_index {A} ks (fs : list A) key : forall i, zlen ks = zlen fs -> existsb (String.eqb key) ks = true ->
  exists j k f, key_index ks key i = Some (i + j) /\ nthZ fs j = Some f /\ find (fun kf => String.eqb (fst kf) key) (combine ks fs) = Some (k, f).
Proof.
  revert fs. induction ks as [|k ks IH]; intros fs i HL HE; [discriminate|]. destruct fs as [|f fs]; [rewrite zlen_cons in HL; pose proof (zlen_nonneg ks); change (zlen (@nil A)) with 0 in HL; lia|].
  cbn [key_index combine find fst existsb] in *. rewrite String.eqb_sym in HE. destruct (String.eqb k key) eqn:Ek.
  - exists 0, k, f. rewrite Z.add_0_r. repeat split; reflexivity.
  - cbn [orb] in HE. rewrite !zlen_cons in HL. destruct (IH fs (i + 1) ltac:(lia) HE) as (j & k' & f' & A1 & A2 & A3). exists (j + 1), k', f'. rewrite A1, A3. split; [f_equal; lia|]. split; [|reflexivity].
    rewrite nthZ_cons. pose proof (nthZ_Some _ _ _ A2). destruct (Z.eqb_spec (j + 1) 0); [lia|]. replace (j + 1 - 1) with j by lia. exact A2.
Qed.
Lemma combine_map_snd {A B C} (g : B -> C) (a : list A) b : combine a (map g b) = map (fun x => (fst x, g (snd x))) (combine a b).
Proof. revert b. induction a as [|x a IH]; intros [|y b]; cbn [combine map]; try reflexivity. rewrite IH. reflexivity. Qed.
Lemma find_map_snd {A B} (g : A -> B) (l : list (string * A)) key :
  find (fun kf => String.eqb (fst kf) key) (map (fun x => (fst x, g (snd x))) l) = option_map (fun x => (fst x, g (snd x))) (find (fun kf => String.eqb (fst kf) key) l).
Proof. induction l as [|[k x] l IH]; cbn [map find fst snd]; [reflexivity|]. destruct (String.eqb k key); [reflexivity|exact IH]. Qed.
Section FInd.
  Variable P : form -> Prop.
  Hypothesis H0 : P FUnknown.
  Hypothesis H1 : forall dt, P (FNum dt).
  Hypothesis H2 : forall f, P f -> P (FList f).
  Hypothesis H3 : forall f, P f -> P (FOption f).
  Hypothesis H10 : forall ks fs, Forall P fs -> P (FRecord ks fs).
  Hypothesis H11 : forall fs, Forall P fs -> P (FUnion fs).
  Fixpoint form_ind2 (f : form) : P f :=
    let go := fix go (fs : list form) : Forall P fs := match fs with [] => Forall_nil P | f :: fs => Forall_cons f (form_ind2 f) (go fs) end in
    match f with
    | FUnknown => H0 | FNum dt => H1 dt | FList f => H2 f (form_ind2 f) | FOption f => H3 f (form_ind2 f) | FRecord ks fs => H10 ks fs (go fs) | FUnion fs => H11 fs (go fs)
    end.
End FInd.
Lemma has_field_bare key f : has_field key (bare f) = has_field key f.
Proof. induction f using form_ind2; cbn [bare has_field]; auto. rewrite zlen_map. reflexivity. Qed.
Lemma field_form_bare key f : bare (field_form key f) = bare (field_form key (bare f)).
Proof.
  assert (I : forall f, bare (bare f) = bare f).
  { clear f. induction f using form_ind2; cbn [bare]; auto; try congruence; f_equal; rewrite map_map; apply map_ext_Forall; exact H. }
  induction f using form_ind2; cbn [bare field_form]; auto.
  - f_equal. exact IHf.
  - destruct ks as [ks|].
    + rewrite combine_map_snd, find_map_snd. destruct (find _ (combine ks fs)) as [[k g]|]; [cbn [option_map snd]; symmetry; apply I|reflexivity].
    + destruct (stoi key) as [i|]; [|reflexivity]. rewrite nthZ_map. destruct (nthZ fs i) as [g|]; [symmetry; apply I|reflexivity].
  - rewrite map_map. f_equal. apply map_ext. intros. symmetry. apply I.
Qed.
Lemma field_bare key c : forall c', has_field key (form_of c) = true -> getitem_field key c = Ok c' -> bare (form_of c') = bare (field_form key (form_of c)).
Proof.
  induction c using content_ind'; intros c' HF E; cbn [getitem_field] in E; cbn [form_of has_field] in HF; try discriminate.
  all: cbn [form_of field_form].
  all: try (apply bind_Ok in E; destruct E as (next & En & E); specialize (IHc _ HF En)).
  1-3: mkinv E; subst c'; cbn [form_of bare]; congruence.
  1-2: rewrite (bare_simplify _ _ E); exact IHc.
  - binv E. apply mkByteMasked_inv in E0. subst a. rewrite (bare_simplify _ _ E); exact IHc.
  - binv E. apply mkBitMasked_inv in E0. subst a. rewrite (bare_simplify _ _ E); exact IHc.
  - rewrite (bare_simplify _ _ E); exact IHc.
  - binv E. apply rd_Ok in E1. rewrite (proj1 (range_same _ _ _ _ E)). destruct keys as [ks|].
    + apply andb_prop in HF. destruct HF as [HL HX]. apply Z.eqb_eq in HL. destruct (find_key_index ks (map form_of cs) key 0 HL HX) as (j & k & f & A1 & A2 & A3). rewrite A3. cbn [snd].
      unfold fieldindex in E0. rewrite A1 in E0. injection E0 as <-. rewrite Z.add_0_l in E1. rewrite nthZ_map, E1 in A2. injection A2 as <-. reflexivity.
    + unfold fieldindex in E0. destruct (stoi key) as [i|]; [|discriminate]. destruct ((0 <=? i) && (i <? zlen cs)); [|discriminate]. injection E0 as <-. rewrite nthZ_map, E1. reflexivity.
Qed.
