(** mergeable depends on the types only, and is the relation [compatible]. *)
From Coq Require Import Permutation.
From Verif Require Import Base BaseLemmas OmapLemmas Content SpecArray SpecForm SpecMerge KCore Core KConvert Convert KOption Option KMerge Merge PForm PTidy PPromote.

(** the same computation on types *)
Fixpoint fmerge (mb : bool) (f g : form) {struct f} : bool :=
  match f with
  | FUnknown | FUnion _ => true
  | FOption f => fmerge mb f g
  | FNum a => match no_option g with FUnknown | FUnion _ => true | FNum b => mb || Bool.eqb (is_dbool a) (is_dbool b) | _ => false end
  | FList f => match no_option g with FUnknown | FUnion _ => true | FList g => fmerge mb f g | _ => false end
  | FRecord keys fs =>
      match no_option g with
      | FUnknown | FUnion _ => true
      | FRecord keys' gs =>
          match keys, keys' with
          | None, None =>
              (zlen fs =? zlen gs) && (fix all (fs gs : list form) {struct fs} : bool :=
                 match fs, gs with x :: fs, y :: gs => fmerge mb x y && all fs gs | _, _ => true end) fs gs
          | Some ks, Some ks' =>
              same_keys ks ks' && (fix all (ks : list string) (fs : list form) {struct fs} : bool :=
                 match fs, ks with
                 | x :: fs, k :: ks =>
                     match keypos ks' k with
                     | Some p => match nthZ gs p with Some y => fmerge mb x y | None => false end
                     | None => false
                     end && all ks fs
                 | _, _ => true
                 end) ks fs
          | _, _ => false
          end
      | _ => false
      end
  end.
Section MB.
Variable mb : bool.
Notation fm := (fmerge mb).
(** the field-by-field part, named *)
Fixpoint all2 (fs gs : list form) : bool := match fs, gs with x :: fs, y :: gs => fm x y && all2 fs gs | _, _ => true end.
Section Allk.
Variables (ks' : list string) (gs : list form).
Fixpoint allk (ks : list string) (fs : list form) {struct fs} : bool :=
  match fs, ks with
  | x :: fs, k :: ks =>
      match keypos ks' k with
      | Some p => match nthZ gs p with Some y => fm x y | None => false end
      | None => false
      end && allk ks fs
  | _, _ => true
  end.
End Allk.
Definition frec (keys keys' : option (list string)) (fs gs : list form) : bool :=
  match keys, keys' with
  | None, None => (zlen fs =? zlen gs) && all2 fs gs
  | Some ks, Some ks' => same_keys ks ks' && allk ks' gs ks fs
  | _, _ => false
  end.
Lemma fmerge_record keys fs g : fm (FRecord keys fs) g =
  match no_option g with FUnknown | FUnion _ => true | FRecord keys' gs => frec keys keys' fs gs | _ => false end.
Proof.
  cbn [fmerge]. destruct (no_option g) as [| | | |keys' gs|]; reflexivity.
Qed.

Lemma unwrap_form k k' o : k' FUnknown = true -> (forall fs, k' (FUnion fs) = true) ->
  (forall x, needs_simplify x = false -> x <> Empty -> is_union x = false -> k x = k' (form_of x)) ->
  unwrap_other k o = k' (no_option (form_of o)).
Proof.
  intros H1 H2 H3. assert (HN : forall x, needs_simplify x = false -> no_option (form_of x) = form_of x) by (intros x; destruct x; simpl; intros; congruence || reflexivity).
  induction o using content_ind'; cbn [unwrap_other form_of no_option]; try exact IHo; try (symmetry; auto; fail).
  - apply (H3 (Numpy _ _)); [reflexivity|discriminate|reflexivity].
  - apply (H3 (ListA _ _ _)); [reflexivity|discriminate|reflexivity].
  - apply (H3 (ListOffset _ _)); [reflexivity|discriminate|reflexivity].
  - apply (H3 (Regular _ _ _)); [reflexivity|discriminate|reflexivity].
  - apply (H3 (Record _ _ _)); [reflexivity|discriminate|reflexivity].
Qed.
Lemma fm_unknown f : fm f FUnknown = true. Proof. induction f; simpl; try reflexivity; assumption. Qed.
Lemma fm_union f fs : fm f (FUnion fs) = true. Proof. induction f; simpl; try reflexivity; assumption. Qed.
Lemma fm_no_option f g : fm f (no_option g) = fm f g.
Proof.
  assert (HN : no_option (no_option g) = no_option g) by (clear; induction g; simpl; auto).
  induction f; try rewrite !fmerge_record; cbn [fmerge]; rewrite ?HN; auto.
Qed.
Lemma fm_option_r f g : fm f (FOption g) = fm f g.
Proof. rewrite <- fm_no_option. cbn [no_option]. apply fm_no_option. Qed.

Lemma mergeable_form c : forall o, mergeable mb c o = fm (form_of c) (form_of o).
Proof.
  assert (OPT : forall c' o, (forall o, mergeable mb c' o = fm (form_of c') (form_of o)) ->
     match o with
     | Empty | Union _ _ _ => true
     | Indexed _ o | IndexedOption _ o | ByteMasked _ _ o | BitMasked _ _ _ _ o | Unmasked o => mergeable mb c' o
     | _ => mergeable mb c' o
     end = fm (form_of c') (form_of o)).
  { intros c' o IH. destruct o; cbn [form_of]; rewrite ?IH, ?fm_option_r, ?fm_unknown, ?fm_union; try reflexivity. }
  assert (LST : forall c' o, (forall o, mergeable mb c' o = fm (form_of c') (form_of o)) ->
     unwrap_other (fun o => match o with ListA _ _ o' | ListOffset _ o' | Regular _ _ o' => mergeable mb c' o' | _ => false end) o = fm (FList (form_of c')) (form_of o)).
  { intros c' o IH. cbn [fmerge]. rewrite (unwrap_form _ (fun g => match g with FUnknown | FUnion _ => true | FList g => fm (form_of c') g | _ => false end)); try reflexivity.
    intros x Hx He Hu. destruct x; simpl in *; try discriminate; try reflexivity; try apply IH; congruence. }
  induction c using content_ind'; intros o; try (exact (OPT _ o IHc)); try (exact (LST _ o IHc)); try reflexivity.
  - cbn [mergeable form_of fmerge]. apply (unwrap_form _ (fun g => match g with FUnknown | FUnion _ => true | FNum b => mb || Bool.eqb (is_dbool dt) (is_dbool b) | _ => false end)); try reflexivity.
    intros x Hx He Hu. destruct x; simpl in *; try discriminate; try reflexivity; congruence.
  - cbn [form_of]. rewrite fmerge_record. cbn [mergeable].
    apply (unwrap_form _ (fun g => match g with FUnknown | FUnion _ => true | FRecord keys' gs => frec keys keys' (map form_of cs) gs | _ => false end)); try reflexivity.
    intros x Hx He Hu. destruct x as [| | | | | | | | | |keys' len' cs'|]; simpl in Hx, Hu; try discriminate; try reflexivity; try congruence. cbn [form_of]. unfold frec.
    destruct keys as [ks|], keys' as [ks'|]; try reflexivity.
    + f_equal. revert ks. induction H as [|c cs Hc HF IH]; intros ks; [reflexivity|]. destruct ks as [|k ks]; [reflexivity|]. cbn [map allk]. rewrite IH. f_equal.
      destruct (keypos ks' k) as [p|]; [|reflexivity]. rewrite nthZ_map. destruct (nthZ cs' p); [|reflexivity]. simpl. apply Hc.
    + clear He. rewrite !zlen_map. f_equal. revert cs'. induction H as [|c cs Hc HF IH]; intros cs'; [reflexivity|]. destruct cs' as [|c' cs']; [reflexivity|]. cbn [map all2]. rewrite IH, Hc. reflexivity.
Qed.

Lemma same_keys_perm a b : same_keys a b = true <-> Permutation a b.
Proof.
  unfold same_keys. rewrite andb_true_iff, forallb_forall. split.
  - intros [HL H]. rewrite (Permutation_count_occ string_dec). intros k. destruct (in_dec string_dec k (a ++ b)) as [Hin|Hn].
    + apply Nat.eqb_eq. apply H. exact Hin.
    + rewrite in_app_iff in Hn. assert (HA : ~ In k a) by tauto. assert (HB : ~ In k b) by tauto. apply (count_occ_not_In string_dec) in HA, HB. congruence.
  - intros H. split; [apply Permutation_length in H; unfold zlen; lia|]. intros k _. apply Nat.eqb_eq. apply (Permutation_count_occ string_dec). exact H.
Qed.
Lemma keypos_some ks k p : keypos ks k = Some p -> nthZ ks p = Some k.
Proof.
  revert p; induction ks as [|a ks IH]; intros p H; simpl in H; [discriminate|]. destruct (String.eqb_spec a k); [injection H as <-; subst; rewrite nthZ_cons; reflexivity|].
  destruct (keypos ks k) as [q|]; [|discriminate]. injection H as <-. specialize (IH q eq_refl). pose proof (nthZ_Some _ _ _ IH). rewrite nthZ_cons. destruct (Z.eqb_spec (q + 1) 0); [lia|].
  replace (q + 1 - 1) with q by lia. exact IH.
Qed.
Lemma keypos_in ks k : In k ks -> exists p, keypos ks k = Some p.
Proof.
  induction ks as [|a ks IH]; intros H; [destruct H|]. simpl. destruct (String.eqb_spec a k); [eauto|]. destruct H as [H|H]; [congruence|]. destruct (IH H) as (p & ->). simpl; eauto.
Qed.
Lemma NoDup_nthZ {A} (l : list A) i j x : NoDup l -> nthZ l i = Some x -> nthZ l j = Some x -> i = j.
Proof.
  intros HN Hi Hj. pose proof (nthZ_Some _ _ _ Hi). pose proof (nthZ_Some _ _ _ Hj). unfold nthZ in Hi, Hj.
  destruct (Z.ltb_spec i 0); [lia|]. destruct (Z.ltb_spec j 0); [lia|]. rewrite NoDup_nth_error in HN. assert (Z.to_nat i = Z.to_nat j); [|lia]. apply HN; [unfold zlen in *; lia|congruence].
Qed.

(** types of tidy arrays *)
Fixpoint fwf (f : form) : Prop :=
  match f with
  | FUnknown | FNum _ => True
  | FList f | FOption f => fwf f
  | FRecord keys fs => match keys with Some ks => length ks = length fs /\ NoDup ks | None => True end /\ fold_right and True (map fwf fs)
  | FUnion fs => fold_right and True (map fwf fs)
  end.
Lemma fwf_all fs : fold_right and True (map fwf fs) <-> Forall fwf fs.
Proof. induction fs as [|c cs IH]; simpl; [split; auto|]. rewrite IH. split; [intros []; constructor; assumption|intros H; inversion H; auto]. Qed.
Lemma tidy_fwf c : forall vs, den c = Some vs -> tidy c -> fwf (form_of c).
Proof.
  induction c using content_ind'; intros vs Hd Ht; try (cbn [form_of fwf]; exact I);
    try (cbn [den] in Hd; destruct (den c) as [ws|] eqn:E; [|discriminate]; simpl; eapply IHc; [reflexivity|exact Ht]).
  - destruct (record_den _ _ _ _ Hd) as (vss & Dcs & _ & Hk & _). apply tidy_record in Ht as (_ & T2 & _ & T4). cbn [form_of fwf]. split.
    + destruct keys as [ks|]; [|exact I]. split; [|exact T2]. rewrite map_length. simpl in Hk. unfold zlen in Hk. lia.
    + rewrite fwf_all. rewrite Forall_forall in *. intros f Hf. apply in_map_iff in Hf as (x & <- & Hx). destruct (omap_in _ _ _ _ Dcs Hx) as (w & Dw & _). eapply H; eauto.
  - cbn [den] in Hd. destruct (omap den cs) as [vss|] eqn:E; [|discriminate]. apply tidy_union in Ht. cbn [form_of fwf]. rewrite fwf_all. rewrite Forall_forall in *.
    intros f Hf. apply in_map_iff in Hf as (x & <- & Hx). destruct (omap_in _ _ _ _ E Hx) as (w & Dw & _). eapply H; eauto.
Qed.
Fixpoint fsize (f : form) : nat :=
  match f with FUnknown | FNum _ => 1 | FList f | FOption f => S (fsize f) | FRecord _ fs | FUnion fs => S (list_sum (map fsize fs)) end.
Lemma no_option_size f : (fsize (no_option f) <= fsize f)%nat.
Proof. induction f; simpl; lia. Qed.
Lemma compatible_no_option f g : compatible mb f (no_option g) -> compatible mb f g.
Proof. induction g; simpl; intros H; try exact H. apply co_option_r. apply IHg. exact H. Qed.
Lemma fwf_no_option g : fwf g -> fwf (no_option g).
Proof. induction g; simpl; auto. Qed.
Lemma numeric_compat_dec a b : (mb || Bool.eqb (is_dbool a) (is_dbool b)) = true <-> numeric_compat mb a b.
Proof. unfold numeric_compat. destruct mb, a, b; simpl; split; intros H; try reflexivity; try discriminate; try (left; reflexivity); try (right; split; intros; congruence); destruct H as [H|H]; try discriminate; destruct H as [H1 H2]; try (discriminate H1; reflexivity); try (discriminate H2; reflexivity); try (specialize (H1 eq_refl); discriminate); specialize (H2 eq_refl); discriminate. Qed.
Lemma In_combine_nthZ {A B} (a : list A) (b : list B) x y : In (x, y) (combine a b) -> exists i, nthZ a i = Some x /\ nthZ b i = Some y.
Proof. intros H. apply In_nthZ in H as (i & Hi). rewrite nthZ_combine in Hi. exists i. destruct (nthZ a i); [|discriminate]. destruct (nthZ b i); [|discriminate]. injection Hi as -> ->. auto. Qed.
Lemma nthZ_In_combine {A B} (a : list A) (b : list B) i x y : nthZ a i = Some x -> nthZ b i = Some y -> In (x, y) (combine a b).
Proof. intros H1 H2. apply (nthZ_In _ i). rewrite nthZ_combine, H1, H2. reflexivity. Qed.
Lemma allk_iff ks' gs ks fs : length ks = length fs ->
  (allk ks' gs ks fs = true <-> forall k f, In (k, f) (combine ks fs) -> exists p g, keypos ks' k = Some p /\ nthZ gs p = Some g /\ fm f g = true).
Proof.
  revert ks; induction fs as [|f fs IH]; intros [|k ks] HL; simpl in HL; try discriminate; [simpl; split; [intros _ ? ? []|reflexivity]|]. cbn [allk combine].
  rewrite andb_true_iff, IH by lia. split.
  - intros [H1 H2] k' f' [E|Hin]; [injection E as <- <-|apply H2; exact Hin]. destruct (keypos ks' k) as [p|]; [|discriminate]. destruct (nthZ gs p) as [g|] eqn:Eg; [|discriminate]. eauto.
  - intros H. split; [|intros; apply H; right; assumption]. destruct (H k f (or_introl eq_refl)) as (p & g & -> & -> & Hf). exact Hf.
Qed.
Lemma all2_iff fs gs : length fs = length gs -> (all2 fs gs = true <-> Forall2 (fun f g => fm f g = true) fs gs).
Proof.
  revert gs; induction fs as [|f fs IH]; intros [|g gs] HL; simpl in HL; try discriminate; [simpl; split; [constructor|reflexivity]|]. cbn [all2].
  rewrite andb_true_iff, IH by lia. split; [intros []; constructor; assumption|intros H; inversion H; auto].
Qed.
Lemma fm_compatible f : forall g, fwf f -> fwf g -> (fm f g = true <-> compatible mb f g).
Proof.
  remember (fsize f) as n eqn:En. assert (Hn : (fsize f <= n)%nat) by lia. clear En. revert f Hn.
  induction n as [|n IHn]; intros f Hn g Hf Hg; [destruct f; simpl in Hn; lia|].
  split.
  - intros H. destruct f as [|a|f|f|keys fs|fs].
    + apply co_unknown_l.
    + apply compatible_no_option. simpl in H. destruct (no_option g); try discriminate; constructor. apply numeric_compat_dec; exact H.
    + apply compatible_no_option. simpl in H. apply fwf_no_option in Hg. destruct (no_option g) as [| |g'| | |]; try discriminate; constructor. apply IHn; simpl in *; auto; lia.
    + apply co_option_l. apply IHn; simpl in *; auto; lia.
    + apply compatible_no_option. rewrite fmerge_record in H. apply fwf_no_option in Hg. destruct (no_option g) as [| | | |keys' gs|]; try discriminate; try constructor.
      cbn [fwf] in Hf, Hg. destruct Hf as [Hk Hf], Hg as [Hk' Hg]. rewrite fwf_all in Hf, Hg. unfold frec in H. destruct keys as [ks|], keys' as [ks'|]; try discriminate.
      * apply andb_true_iff in H as [H1 H2]. apply same_keys_perm in H1. destruct Hk as [HL HN], Hk' as [HL' HN']. rewrite allk_iff in H2 by exact HL. constructor; auto.
        intros k f0 g0 Hin Hin'. destruct (H2 k f0 Hin) as (p & g1 & E1 & E2 & E3). apply keypos_some in E1. destruct (In_combine_nthZ _ _ _ _ Hin') as (i & I1 & I2).
        assert (i = p) by (eapply NoDup_nthZ; eassumption). subst i. rewrite E2 in I2. injection I2 as <-. rewrite Forall_forall in Hf, Hg. apply IHn; [|apply Hf; eapply in_combine_r; eassumption|apply Hg; eapply nthZ_In; eassumption|exact E3].
        simpl in Hn. pose proof (list_sum_in fsize fs f0 (in_combine_r _ _ _ _ Hin)). lia.
      * apply andb_true_iff in H as [H1 H2]. assert (HL : length fs = length gs) by (unfold zlen in H1; lia). rewrite all2_iff in H2 by exact HL. constructor.
        assert (Hs : forall x, In x fs -> (fsize x <= n)%nat) by (intros x Hx; simpl in Hn; pose proof (list_sum_in fsize fs x Hx); lia). clear HL H1 Hn Hk Hk'.
        induction H2; [constructor|]. inversion Hf; inversion Hg; subst. constructor; [apply IHn; auto; apply Hs; left; reflexivity|]. apply IHForall2; auto. intros; apply Hs; right; assumption.
    + apply co_union_l.
  - intros H. revert n IHn Hn. induction H; intros n IHn Hn; try reflexivity.
    + apply fm_unknown.
    + apply fm_union.
    + simpl. apply (IHn f); simpl in *; auto; lia.
    + rewrite fm_option_r. apply (IHcompatible Hf Hg n); auto.
    + simpl. apply numeric_compat_dec; assumption.
    + simpl. apply (IHn f); simpl in *; auto; lia.
    + rewrite fmerge_record. cbn [no_option]. unfold frec. cbn [fwf] in Hf, Hg. destruct Hf as [_ Hf], Hg as [_ Hg]. rewrite fwf_all in Hf, Hg.
      assert (HL : length fs = length gs) by (clear - H; induction H; simpl; congruence).
      apply andb_true_iff. split; [unfold zlen; lia|]. apply all2_iff; [exact HL|].
      assert (Hs : forall x, In x fs -> (fsize x <= n)%nat) by (intros x Hx; simpl in Hn; pose proof (list_sum_in fsize fs x Hx); lia). clear HL Hn.
      induction H; [constructor|]. inversion Hf; inversion Hg; subst. constructor; [apply IHn; auto; apply Hs; left; reflexivity|]. apply IHForall2; auto. intros; apply Hs; right; assumption.
    + rewrite fmerge_record. cbn [no_option]. unfold frec. cbn [fwf] in Hf, Hg. destruct Hf as [_ Hf], Hg as [_ Hg]. rewrite fwf_all in Hf, Hg.
      apply andb_true_iff. split; [apply same_keys_perm; assumption|]. apply allk_iff; [assumption|]. intros k f Hin.
      assert (Hk : In k ks') by (eapply Permutation_in; [eassumption|eapply in_combine_l; eassumption]). destruct (keypos_in _ _ Hk) as (p & Hp).
      pose proof (keypos_some _ _ _ Hp) as Hp'. destruct (nthZ_lt gs p) as (g & Hg'); [apply nthZ_Some in Hp'; unfold zlen in *; lia|].
      exists p, g. split; [exact Hp|]. split; [exact Hg'|]. rewrite Forall_forall in Hf, Hg. apply IHn.
      * simpl in Hn. pose proof (list_sum_in fsize fs f (in_combine_r _ _ _ _ Hin)). lia.
      * apply Hf. eapply in_combine_r; eassumption.
      * apply Hg. eapply nthZ_In; eassumption.
      * eapply H2; [exact Hin|]. eapply nthZ_In_combine; eassumption.
Qed.
End MB.
