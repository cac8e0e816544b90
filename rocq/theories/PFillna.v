(** Proofs about fillna. *)
From Verif Require Import Base BaseLemmas OmapLemmas LoopLemmas Content SpecArray SpecForm SpecMerge SpecFillna KCore Core Convert KOption Option KMerge Merge Fillna
  PCore PCarry PList PConvert POption PForm PTidy PPromote PMergeable PMergeK PMerge PMergeC PMergeR PMergeM PSimplify PLift.
Local Open Scope Z_scope.

Section ValueInd.
Variable P : value -> Prop.
Hypothesis Hint : forall z, P (VInt z).
Hypothesis Hbool : forall z, P (VBool z).
Hypothesis Hreal : forall z, P (VReal z).
Hypothesis Hnone : P VNone.
Hypothesis Hlist : forall l, Forall P l -> P (VList l).
Hypothesis Hrec : forall r, Forall (fun p => P (snd p)) r -> P (VRec r).
Hypothesis Htuple : forall l, Forall P l -> P (VTuple l).
Fixpoint value_ind' (v : value) : P v :=
  match v with
  | VInt z => Hint z | VBool z => Hbool z | VReal z => Hreal z | VNone => Hnone
  | VList l => Hlist l ((fix go l := match l return Forall P l with [] => Forall_nil _ | x :: t => Forall_cons x (value_ind' x) (go t) end) l)
  | VRec r => Hrec r ((fix go r := match r return Forall (fun p => P (snd p)) r with [] => Forall_nil _ | x :: t => Forall_cons x (value_ind' (snd x)) (go t) end) r)
  | VTuple l => Htuple l ((fix go l := match l return Forall P l with [] => Forall_nil _ | x :: t => Forall_cons x (value_ind' x) (go t) end) l)
  end.
End ValueInd.

(** arrays without option types have no missing values *)
Section NoNone.
Variable w : value.
Let same_ (v v' : value) : Prop := v = fill w v'.
Lemma same_all l : Forall2 same_ l l <-> map (fill w) l = l.
Proof. unfold same_. split; [|intros H; induction l as [|x l IH]; constructor; simpl in H; injection H as H1 H2; auto].
  induction l as [|x l IH]; intros H; [reflexivity|]. inversion H; subst. simpl. rewrite <- H3. f_equal. apply IH. assumption. Qed.
Lemma same_list l l' : Forall2 same_ l l' -> same_ (VList l) (VList l').
Proof. intros H. unfold same_. simpl. f_equal. induction H as [|x y l l' Hx H IH]; [reflexivity|]. simpl. unfold same_ in Hx. congruence. Qed.
Lemma fill_row keys l : fill w (mkrow keys l) = mkrow keys (map (fill w) l).
Proof. destruct keys as [ks|]; simpl; [|reflexivity]. f_equal. revert ks; induction l as [|x l IH]; intros [|k ks]; simpl; try reflexivity. f_equal. apply IH. Qed.
Lemma same_row keys l l' : Forall2 same_ l l' -> same_ (mkrow keys l) (mkrow keys l').
Proof. intros H. unfold same_. rewrite fill_row. f_equal. induction H as [|x y l l' Hx H IH]; [reflexivity|]. simpl. unfold same_ in Hx. congruence. Qed.
Lemma fill_id : forall c vs, den c = Some vs -> option_free (form_of c) = true -> Forall2 same_ vs vs.
Proof.
  assert (K : forall a vs, (exists vs', a = Some vs' /\ Forall2 same_ vs vs') -> a = Some vs -> Forall2 same_ vs vs) by (intros a vs (vs' & -> & H) E; injection E as ->; exact H).
  assert (KS : forall cs vss, Forall (fun c => forall vs, den c = Some vs -> option_free (form_of c) = true -> Forall2 same_ vs vs) cs -> forallb option_free (map form_of cs) = true -> omap den cs = Some vss -> Forall2 (Forall2 same_) vss vss).
  { intros cs; induction cs as [|c cs IH]; intros vss HF HO HE; simpl in *; [injection HE as <-; constructor|]. inversion HF; subst. apply andb_true_iff in HO as [H1' H2']. destruct (den c) as [v|]; [|discriminate]. destruct (omap den cs) as [vv|]; [|discriminate]. injection HE as <-. constructor; auto. }
  intros c; induction c using content_ind'; intros vs Hd HO; cbn [form_of option_free] in HO; try discriminate.
  - injection Hd as <-. constructor.
  - injection Hd as <-. clear HO. induction data; simpl; constructor; [destruct dt; reflexivity|assumption].
  - cbn [den] in Hd. destruct (den c) as [ws|] eqn:E; [|discriminate]. eapply K; [eapply (lista_lift same_ same_list _ _ c c ws ws vs E E); [apply IHc; auto|cbn [den]; rewrite E; exact Hd]|cbn [den]; rewrite E; exact Hd].
  - cbn [den] in Hd. destruct (den c) as [ws|] eqn:E; [|discriminate]. eapply K; [eapply (listoffset_lift same_ same_list _ c c ws ws vs E E); [apply IHc; auto|cbn [den]; rewrite E; exact Hd]|cbn [den]; rewrite E; exact Hd].
  - cbn [den] in Hd. destruct (den c) as [ws|] eqn:E; [|discriminate]. eapply K; [eapply (regular_lift same_ same_list _ _ c c ws ws vs E E); [apply IHc; auto|cbn [den]; rewrite E; exact Hd]|cbn [den]; rewrite E; exact Hd].
  - cbn [den] in Hd. destruct (den c) as [ws|] eqn:E; [|discriminate]. eapply K; [eapply (indexed_lift same_ _ c c ws ws vs E E); [apply IHc; auto|cbn [den]; rewrite E; exact Hd]|cbn [den]; rewrite E; exact Hd].
  - cbn [den] in Hd. destruct (omap den _) as [wss|] eqn:E; [|discriminate]. eapply K; [eapply (record_lift same_ same_row _ _ _ _ wss wss vs E E); [eapply KS; eauto|cbn [den]; rewrite E; exact Hd]|cbn [den]; rewrite E; exact Hd].
  - cbn [den] in Hd. destruct (omap den _) as [wss|] eqn:E; [|discriminate]. eapply K; [eapply (union_lift same_ _ _ _ _ wss wss vs E E); [eapply KS; eauto|cbn [den]; rewrite E; exact Hd]|cbn [den]; rewrite E; exact Hd].
Qed.
Lemma no_none c vs v : den c = Some vs -> option_free (form_of c) = true -> In v vs -> fill w v = v.
Proof.
  intros Hd HO Hv. pose proof (proj1 (same_all _) (fill_id c vs Hd HO)) as H. clear - H Hv. induction vs as [|x vs IH]; [contradiction|]. simpl in H. injection H as H1 H2. destruct Hv as [<-|Hv]; auto.
Qed.
End NoNone.

Lemma option_free_one : forall f, option_free f = true -> one_option f = true.
Proof.
  fix IH 1. intros [|dt|f|f|keys fs|fs]; cbn [option_free one_option]; intros H; try reflexivity; try discriminate; [apply IH; exact H| |];
  revert H; induction fs as [|g fs IHf]; intros H; simpl in *; try reflexivity; apply andb_true_iff in H as [H1 H2]; rewrite (IH g H1); apply IHf; exact H2.
Qed.

Lemma fill_union valc w (Hval : den valc = Some [w]) (R : value -> value -> Prop) index c vs ws : den c = Some ws -> omap (fun i => if i <? 0 then Some VNone else nthZ ws i) index = Some vs ->
  R VNone w -> (forall v, In v ws -> R v v) ->
  exists tags idx us, bytemask (IndexedOption index c) = Ok tags /\ awkward_UnionArray_fillna (alloc (zlen tags)) index (zlen tags) = Ok idx /\
    mkUnion tags idx [c; valc] = Ok (Union tags idx [c; valc]) /\ den (Union tags idx [c; valc]) = Some us /\ Forall2 R vs us.
Proof.
  intros E Hd RN RV. pose proof (omap_zlen _ _ _ Hd) as HL. pose proof (zlen_nonneg index) as Hpi.
  cbn [bytemask]. unfold awkward_IndexedArray_mask. rewrite (for_fill_all _ (fun i => match nthZ index i with Some x => b2z (x <? 0) | None => 0 end)).
  2:{ apply zlen_alloc. lia. }
  2:{ intros i o Hi Hio. destruct (rd_in index i) as (x & -> & ->); [lia|]. reflexivity. }
  match goal with |- exists t i u, Ok ?x = Ok _ /\ _ => set (tags := x); exists tags end.
  assert (Lt : zlen tags = zlen index) by (unfold tags; rewrite zlen_map, zlen_zseq; lia). rewrite Lt.
  set (idx := map (fun i => match nthZ index i with Some x => if 0 <=? x then x else 0 | None => 0 end) (zseq 0 (zlen index))).
  assert (Li : zlen idx = zlen index) by (unfold idx; rewrite zlen_map, zlen_zseq; lia).
  assert (EI : awkward_UnionArray_fillna (alloc (zlen index)) index (zlen index) = Ok idx).
  { unfold awkward_UnionArray_fillna. rewrite (for_fill_all _ (fun i => match nthZ index i with Some x => if 0 <=? x then x else 0 | None => 0 end)); [reflexivity|apply zlen_alloc; lia|].
    intros i o Hi Hio. destruct (rd_in index i) as (x & -> & ->); [lia|]. reflexivity. }
  assert (HD : exists us, den (Union tags idx [c; valc]) = Some us /\ Forall2 R vs us).
  { cbn [den omap]. rewrite E, Hval, Lt, Li, Z.leb_refl. change (1 <=? zlen [c; valc]) with true. cbn [andb].
    apply (omap_positions R); [rewrite zlen_combine_le by lia; lia|]. intros i [t p] v Htp Hv. cbn [fst snd].
    pose proof (nthZ_Some _ _ _ Hv) as Hi. destruct (nthZ_lt index i) as (x & Hx); [lia|]. destruct (omap_nth _ _ _ _ _ Hd Hx) as (Hv' & _). rewrite Hv in Hv'.
    rewrite nthZ_combine in Htp. unfold tags, idx in Htp. rewrite !nthZ_map, !nthZ_zseq in Htp by lia. cbn [option_map] in Htp. rewrite Z.add_0_l, Hx in Htp. injection Htp as <- <-.
    destruct (Z.ltb_spec x 0).
    - injection Hv' as <-. exists w. destruct (Z.leb_spec 0 x); [lia|]. split; [reflexivity|]. exact RN.
    - exists v. destruct (Z.leb_spec 0 x); [|lia]. split; [exact Hv'|]. apply RV. eapply nthZ_In; exact Hv'. }
  destruct HD as (us & Du & Fu). exists idx, us. split; [reflexivity|]. split; [exact EI|]. split; [|split; [exact Du|exact Fu]].
  unfold mkUnion. rewrite Lt, Li, Z.ltb_irrefl. reflexivity.
Qed.

Section PFillna.
Variable rc : Z -> Z.
Variable narrow : content -> bool.
Variable refeq : content -> content -> bool.
Hypothesis Href : forall a b, refeq a b = true -> a = b.
Variable fuel : nat.
Variable valc : content.
Variable w : value.
Hypothesis Hval : den valc = Some [w].
Hypothesis Htv : tidy valc.
Hypothesis Hov : option_free (form_of valc) = true.
Notation pr := (promotes rc).
Definition fillR (v u : value) : Prop := pr (fill w v) u.
Let K := (3 + weight valc)%nat.

Lemma fillR_list l l' : Forall2 fillR l l' -> fillR (VList l) (VList l').
Proof. intros H. unfold fillR. simpl. constructor. induction H; simpl; constructor; assumption. Qed.
Lemma fillR_row keys l l' : Forall2 fillR l l' -> fillR (mkrow keys l) (mkrow keys l').
Proof. intros H. unfold fillR. rewrite fill_row. apply mkrow_promotes. induction H; simpl; constructor; assumption. Qed.
Lemma fillR_id c vs : den c = Some vs -> option_free (form_of c) = true -> Forall2 fillR vs vs.
Proof. intros H1 H2. pose proof (fill_id w c vs H1 H2) as H. clear -H. induction vs as [|x vs IH]; constructor; inversion H; subst; [unfold fillR; rewrite <- H3; constructor|auto]. Qed.
Lemma fillR_pr vs us us' : Forall2 fillR vs us -> Forall2 pr us us' -> Forall2 fillR vs us'.
Proof. intros H; revert us'; induction H as [|x y vs us Hx H IH]; intros us' HP; inversion HP; subst; constructor; [unfold fillR in *; eapply promotes_trans; eassumption|auto]. Qed.

Lemma length_val : length_ valc = 1.
Proof. rewrite (den_length _ _ Hval). reflexivity. Qed.

Definition fexcuse (n : nat) : Prop := (exists x, narrow x = true) \/ 127 < Z.of_nat n.
Definition fout (vs : list value) (n : nat) (r : res content) : Prop :=
  match r with
  | Ok c' => exists vs', den c' = Some vs' /\ Forall2 fillR vs vs' /\ tidy c' /\ ofree c' /\ (weight c' <= n)%nat
  | Err _ => fexcuse n
  | UB => False
  end.
Lemma leaf_of c : tidy c -> ofree c -> Forall (leaf_ok true) (leaves c).
Proof.
  intros H1 H2. destruct c; try (constructor; [split; assumption|constructor]). simpl. apply tidy_union in H1. unfold ofree in H2. cbn [form_of option_free] in H2. rewrite forallb_forall in H2. rewrite Forall_forall in *. intros x Hx. split; [auto|]. apply H2. apply in_map. exact Hx.
Qed.
Lemma fill_option index c vs : den (IndexedOption index c) = Some vs -> tidy c -> ofree c -> (S (weight c) * K + 1 <= fuel)%nat ->
  fout vs (S (weight c) * K) (IndexedOption_fillna rc narrow refeq fuel valc index c).
Proof.
  intros Hd Ht Ho Hf. unfold IndexedOption_fillna. rewrite length_val. change (negb (1 =? 1)) with false. cbv iota.
  cbn [den] in Hd. destruct (den c) as [ws|] eqn:E; [|discriminate].
  destruct (fill_union valc w Hval fillR index c vs ws E Hd) as (tags & idx & us & -> & EI & EU & Du & Fu); [constructor|intros v Hv; unfold fillR; rewrite (no_none w c ws v E Ho Hv); constructor|].
  cbn [bind]. rewrite EI. cbn [bind]. rewrite EU. cbn [bind].
  assert (HB : (sumw [c; valc] + 1 <= S (weight c) * K)%nat) by (unfold sumw, K; cbn [map list_sum fold_right]; unfold list_sum; cbn [fold_right]; nia).
  pose proof (simplify_ok' rc narrow true true fuel true refeq tags idx [c; valc] us Href Du) as HS.
  assert (HL' : Forall (fun x => Forall (leaf_ok true) (leaves x)) [c; valc]) by (repeat constructor; apply leaf_of; assumption).
  specialize (HS HL' ltac:(lia)). destruct (simplify_uniontype _ _ _ _ _ _ _ _ _) as [c'| |]; [|destruct HS as [HS|HS]; [left; exact HS|right; lia]|contradiction].
  destruct HS as (vs' & D' & P' & T' & O' & W'). exists vs'. split; [exact D'|]. split; [exact (fillR_pr _ _ _ Fu P')|]. split; [exact T'|]. split; [exact (O' eq_refl)|]. lia.
Qed.
Lemma fout_weaken vs n m r : (n <= m)%nat -> fout vs n r -> fout vs m r.
Proof. intros Hn. destruct r; simpl; [intros (vs' & A & B & C & D & E); exists vs'; repeat (split; [assumption|]); lia|intros [H|H]; [left; exact H|right; lia]|auto]. Qed.

Lemma mapres_fout cs vss : dens cs vss ->
  Forall2 (fun c vs => fout vs (weight c * K) (fillna rc narrow refeq fuel valc c)) cs vss ->
  match mapres (fillna rc narrow refeq fuel valc) cs with
  | Ok ns => exists uss, dens ns uss /\ Forall2 (Forall2 fillR) vss uss /\ Forall tidy ns /\ Forall ofree ns /\ (sumw ns <= sumw cs * K)%nat
  | Err _ => fexcuse (sumw cs * K)
  | UB => False
  end.
Proof.
  intros HD HF. revert HD. induction HF as [|c vs cs vss H HF IH]; intros HD.
  - simpl. exists []. repeat split; try constructor.
  - inversion HD; subst. simpl mapres. unfold fout in H. destruct (fillna _ _ _ _ _ c) as [n| |]; cbn [bind]; [|destruct H as [H|H]; [left; exact H|right; rewrite sumw_cons; nia]|contradiction].
    destruct H as (us & D & F & T & O & W). specialize (IH ltac:(assumption)). destruct (mapres _ cs) as [ns| |]; cbn [bind]; [|destruct IH as [IH|IH]; [left; exact IH|right; rewrite sumw_cons; nia]|contradiction].
    destruct IH as (uss & D' & F' & T' & O' & W'). exists (us :: uss). split; [constructor; assumption|]. split; [constructor; assumption|]. split; [constructor; assumption|]. split; [constructor; assumption|]. rewrite !sumw_cons. nia.
Qed.

Lemma fillna_ok c : forall vs, den c = Some vs -> tidy c -> one_option (form_of c) = true -> (weight c * K + 1 <= fuel)%nat ->
  fout vs (weight c * K) (fillna rc narrow refeq fuel valc c).
Proof.
  induction c using content_ind'; intros vs Hd Ht Ho Hf; cbn [form_of one_option tidy weight] in *.
  - injection Hd as <-. exists []. repeat split; try constructor. unfold K; simpl; lia.
  - cbn [fillna]. exists vs. split; [exact Hd|]. split; [eapply fillR_id; [exact Hd|reflexivity]|]. split; [exact I|]. split; [reflexivity|]. unfold K; cbn [weight]; lia.
  - pose proof Hd as Hd0. cbn [den] in Hd0. destruct (den c) as [ws|] eqn:E; [|discriminate]. specialize (IHc ws eq_refl Ht Ho ltac:(unfold K in *; nia)). cbn [fillna]. unfold fout in IHc |- *.
    destruct (fillna _ _ _ _ _ c) as [n| |]; cbn [bind]; [|destruct IHc as [H|H]; [left; exact H|right; unfold K in *; nia]|contradiction]. destruct IHc as (us & D & F & T & O & W).
    unfold mkListA. destruct (Z.leb_spec (zlen starts) (zlen stops)); [|discriminate]. destruct (Z.ltb_spec (zlen stops) (zlen starts)); [lia|].
    destruct (lista_lift fillR fillR_list _ _ c n ws us vs E D F Hd) as (vs' & D' & F'). exists vs'. split; [exact D'|]. split; [exact F'|]. split; [exact T|]. split; [exact O|]. cbn [weight]. unfold K in *; nia.
  - pose proof Hd as Hd0. cbn [den] in Hd0. destruct (den c) as [ws|] eqn:E; [|discriminate]. specialize (IHc ws eq_refl Ht Ho ltac:(unfold K in *; nia)). cbn [fillna]. unfold fout in IHc |- *.
    destruct (fillna _ _ _ _ _ c) as [n| |]; cbn [bind]; [|destruct IHc as [H|H]; [left; exact H|right; unfold K in *; nia]|contradiction]. destruct IHc as (us & D & F & T & O & W).
    unfold mkListOffset. destruct (Z.leb_spec 1 (zlen offsets)); [|discriminate]. destruct (Z.eqb_spec (zlen offsets) 0); [lia|].
    destruct (listoffset_lift fillR fillR_list _ c n ws us vs E D F Hd) as (vs' & D' & F'). exists vs'. split; [exact D'|]. split; [exact F'|]. split; [exact T|]. split; [exact O|]. cbn [weight]. unfold K in *; nia.
  - pose proof Hd as Hd0. cbn [den] in Hd0. destruct (den c) as [ws|] eqn:E; [|discriminate]. specialize (IHc ws eq_refl Ht Ho ltac:(unfold K in *; nia)). cbn [fillna]. unfold fout in IHc |- *.
    destruct (fillna _ _ _ _ _ c) as [n| |]; cbn [bind]; [|destruct IHc as [H|H]; [left; exact H|right; unfold K in *; nia]|contradiction]. destruct IHc as (us & D & F & T & O & W).
    pose proof (den_length _ _ Hd) as HLn. pose proof (zlen_nonneg vs) as Hnn.
    assert (Hd' : den (Regular size (length_ (Regular size zl c)) c) = Some vs).
    { cbn [den]. rewrite E. cbn [length_]. destruct (Z.ltb_spec 0 size); [exact Hd0|]. destruct (Z.eqb_spec size 0); [exact Hd0|discriminate]. }
    destruct (regular_lift fillR fillR_list _ _ c n ws us vs E D F Hd') as (vs' & D' & F'). pose proof (den_length _ _ D') as HLn'. pose proof (zlen_nonneg vs').
    unfold mkRegular. destruct (Z.ltb_spec size 0); [destruct (Z.ltb_spec 0 size); [lia|]; destruct (Z.eqb_spec size 0); [lia|discriminate]|]. destruct (Z.ltb_spec (length_ (Regular size (length_ (Regular size zl c)) n)) 0); [lia|].
    exists vs'. split; [exact D'|]. split; [exact F'|]. split; [exact T|]. split; [exact O|]. cbn [weight]. unfold K in *; nia.
  - pose proof Hd as Hd0. cbn [den] in Hd0. destruct (den c) as [ws|] eqn:E; [|discriminate]. specialize (IHc ws eq_refl Ht Ho ltac:(unfold K in *; nia)). cbn [fillna]. rewrite length_val. change (negb (1 =? 1)) with false. cbv iota. unfold fout in IHc |- *.
    destruct (fillna _ _ _ _ _ c) as [n| |]; cbn [bind]; [|destruct IHc as [H|H]; [left; exact H|right; unfold K in *; nia]|contradiction]. destruct IHc as (us & D & F & T & O & W).
    destruct (indexed_lift fillR _ c n ws us vs E D F Hd) as (vs' & D' & F'). exists vs'. split; [exact D'|]. split; [exact F'|]. split; [exact T|]. split; [exact O|]. cbn [weight]. unfold K in *; nia.
  - cbn [fillna]. apply fill_option; assumption.
  - cbn [fillna]. destruct (to_indexed_option _ _ Hd) as (i & c' & E & D & _); [eauto|]. rewrite E. cbn [bind]. destruct (toindexedoption_shape _ _ E) as (i' & Ei). injection Ei as <- ->. apply fill_option; assumption.
  - cbn [fillna]. destruct (to_indexed_option _ _ Hd) as (i & c' & E & D & _); [eauto 10|]. rewrite E. cbn [bind]. destruct (toindexedoption_shape _ _ E) as (i' & Ei). injection Ei as <- ->. apply fill_option; assumption.
  - cbn [fillna]. cbn [den] in Hd. eapply fout_weaken; [|apply IHc; [exact Hd|exact Ht| |]]; [unfold K; nia| |unfold K in *; nia].
    apply option_free_one; exact Ho.
  - cbn [fillna]. pose proof Hd as Hd0. cbn [den] in Hd0. destruct (omap den _) as [wss|] eqn:E; [|discriminate]. pose proof E as E'. apply dens_omap in E'. destruct Ht as (N1 & N2 & N3 & N4). apply tidy_all in N4.
    pose proof (mapres_fout _ wss E') as HM. 
    match type of HM with ?A -> _ => assert (HA : A) end.
    { clear HM E Hd Hd0 N1 N2 N3. revert Ho Hf. unfold sumw in *. induction E' as [|x xv cs wss Dx E' IH]; intros Ho Hf; constructor.
      - inversion H; subst. inversion N4; subst. simpl in Ho. apply andb_true_iff in Ho as [Ho1 _]. apply H2; try assumption. simpl in Hf. unfold list_sum in Hf. cbn [fold_right] in Hf. nia.
      - inversion H; subst. inversion N4; subst. simpl in Ho. apply andb_true_iff in Ho as [_ Ho2]. apply IH; try assumption. simpl in Hf. unfold list_sum in *. cbn [fold_right] in Hf. nia. }
    specialize (HM HA). unfold fout. destruct (mapres _ _) as [ns| |]; cbn [bind]; [|destruct HM as [H'|H']; [left; exact H'|right; unfold sumw in H'; unfold K in *; nia]|contradiction].
    destruct HM as (uss & D & F & T & O & W). destruct (record_lift fillR fillR_row _ _ _ ns wss uss vs E (proj1 (dens_omap _ _) D) F Hd) as (vs' & D' & F').
    pose proof (F2_zlen _ _ _ D) as Z1. pose proof (F2_zlen _ _ _ E') as Z2. pose proof (F2_zlen _ _ _ F) as Z3.
    assert (EM : mkRecord keys len ns = Ok (Record keys len ns)).
    { unfold mkRecord. destruct keys as [ks|]; [|reflexivity]. destruct (0 <=? len); [|discriminate]. cbn [andb keys_ok] in Hd0. destruct (Z.eqb_spec (zlen ks) (zlen cs)); [|discriminate]. destruct (Z.eqb_spec (zlen ks) (zlen ns)); [reflexivity|lia]. }
    rewrite EM. exists vs'. split; [exact D'|]. split; [exact F'|]. split.
    { apply tidy_record. split; [intros ->; apply N1; apply zlen_0; change (zlen (@nil content)) with 0 in Z1; lia|]. split; [exact N2|]. split; [|exact T].
      apply Forall_forall. intros n Hn. apply In_nthZ in Hn as (i & Hi). destruct (F2_nthZ _ _ _ _ _ D Hi) as (un & Hun & Dn). destruct (F2_nthZ _ _ _ _ _ (F2_flip _ _ _ F) Hun) as (wn & Hwn & Fn). destruct (F2_nthZ _ _ _ _ _ (F2_flip _ _ _ E') Hwn) as (cn & Hcn & Dcn).
      rewrite Forall_forall in N3. specialize (N3 cn (nthZ_In _ _ _ Hcn)). rewrite (den_length _ _ Dcn) in N3. rewrite (den_length _ _ Dn). rewrite <- (F2_zlen _ _ _ Fn). exact N3. }
    split; [unfold ofree; cbn [form_of option_free]; apply forallb_forall; intros g Hg; apply in_map_iff in Hg as (x & <- & Hx); rewrite Forall_forall in O; exact (O x Hx)|].
    unfold sumw in W. cbn [weight]. unfold K in *; nia.
  - cbn [fillna]. pose proof Hd as Hd0. cbn [den] in Hd0. destruct (omap den _) as [wss|] eqn:E; [|discriminate]. pose proof E as E'. apply dens_omap in E'. apply tidy_all in Ht.
    pose proof (mapres_fout _ wss E') as HM. 
    match type of HM with ?A -> _ => assert (HA : A) end.
    { clear HM E Hd Hd0. revert Ho Hf. unfold sumw in *. induction E' as [|x xv cs wss Dx E' IH]; intros Ho Hf; constructor.
      - inversion H; subst. inversion Ht; subst. simpl in Ho. apply andb_true_iff in Ho as [Ho1 _]. apply H2; try assumption. simpl in Hf. unfold list_sum in Hf. cbn [fold_right] in Hf. nia.
      - inversion H; subst. inversion Ht; subst. simpl in Ho. apply andb_true_iff in Ho as [_ Ho2]. apply IH; try assumption. simpl in Hf. unfold list_sum in *. cbn [fold_right] in Hf. nia. }
    specialize (HM HA). unfold fout. destruct (mapres _ _) as [ns| |]; cbn [bind]; [|destruct HM as [H'|H']; [left; exact H'|right; unfold sumw in H'; unfold K in *; nia]|contradiction].
    destruct HM as (uss & D & F & T & O & W). destruct (union_lift fillR _ _ _ ns wss uss vs E (proj1 (dens_omap _ _) D) F Hd) as (vs' & D' & F').
    assert (EM : mkUnion tags index ns = Ok (Union tags index ns)).
    { cbn [den] in D'. unfold mkUnion. destruct (omap den ns); [|discriminate]. destruct ns as [|n0 ns]; [discriminate|]. destruct (Z.leb_spec (zlen tags) (zlen index)); [|rewrite andb_false_r in D'; discriminate]. destruct (Z.ltb_spec (zlen index) (zlen tags)); [lia|reflexivity]. }
    rewrite EM. cbn [bind].
    assert (HL' : Forall (fun x => Forall (leaf_ok true) (leaves x)) ns). { rewrite Forall_forall in *. intros x Hx. exact (leaf_of x (T x Hx) (O x Hx)). }
    pose proof (simplify_ok' rc narrow false true fuel true refeq tags index ns vs' Href D' HL') as HS. unfold sumw in *. specialize (HS ltac:(unfold K in *; nia)).
    destruct (simplify_uniontype _ _ _ _ _ _ _ _ _) as [c'| |]; [|destruct HS as [HS|HS]; [left; exact HS|right; unfold K in *; nia]|contradiction].
    destruct HS as (us' & D2 & P2 & T2 & O2 & W2). exists us'. split; [exact D2|]. split; [exact (fillR_pr _ _ _ F' P2)|]. split; [exact T2|]. split; [exact (O2 eq_refl)|]. unfold K in *; nia.
Qed.
End PFillna.
