(** Concatenation of records, and of everything. *)
From Coq Require Import Permutation.
From Verif Require Import Base BaseLemmas OmapLemmas LoopLemmas Content SpecArray SpecForm SpecOption SpecMerge KCore Core KConvert Convert KOption Option KMerge Merge
  PCore PCarry PList PConvert POption PForm PTidy PPromote PMergeable PMergeK PMerge PMergeC.

Definition rowsden (keys : option (list string)) (cols : list (list value)) (n : Z) : option (list value) :=
  omap (fun i => option_map (mkrow keys) (omap (fun vs => nthZ vs i) cols)) (zseq 0 n).
Fixpoint zipapp {A} (a b : list (list A)) : list (list A) :=
  match a, b with x :: a, y :: b => (x ++ y) :: zipapp a b | _, _ => [] end.
Lemma zlen_rowsden keys cols n R : 0 <= n -> rowsden keys cols n = Some R -> zlen R = n.
Proof. intros Hn H. apply omap_F in H. apply F2_zlen in H. rewrite zlen_zseq in H by lia. lia. Qed.
Lemma zipapp_low (C1 C2 : list (list value)) n1 i : zlen C1 = zlen C2 -> Forall (fun c => zlen c = n1) C1 -> i < n1 ->
  omap (fun vs => nthZ vs i) (zipapp C1 C2) = omap (fun vs => nthZ vs i) C1.
Proof.
  revert C2; induction C1 as [|c C1 IH]; intros C2 HL HF Hi; [reflexivity|]. destruct C2 as [|c2 C2]; [rewrite zlen_cons in HL; change (zlen (@nil (list value))) with 0 in HL; pose proof (zlen_nonneg C1); lia|].
  inversion HF; subst. rewrite !zlen_cons in HL. simpl. rewrite IH by (assumption || lia). rewrite nthZ_app. destruct (Z.ltb_spec i (zlen c)); [reflexivity|lia].
Qed.
Lemma zipapp_high (C1 C2 : list (list value)) n1 i : zlen C1 = zlen C2 -> Forall (fun c => zlen c = n1) C1 -> 0 <= i ->
  omap (fun vs => nthZ vs (n1 + i)) (zipapp C1 C2) = omap (fun vs => nthZ vs i) C2.
Proof.
  revert C2; induction C1 as [|c C1 IH]; intros C2 HL HF Hi; (destruct C2 as [|c2 C2]; [|]); try reflexivity.
  - rewrite zlen_cons in HL. change (zlen (@nil (list value))) with 0 in HL. pose proof (zlen_nonneg C2). lia.
  - inversion HF; subst. rewrite !zlen_cons in HL. simpl. rewrite IH by (assumption || lia). rewrite nthZ_app. destruct (Z.ltb_spec (zlen c + i) (zlen c)); [lia|]. replace (zlen c + i - zlen c) with i by lia. reflexivity.
Qed.
Lemma rowsden_app keys C1 C2 n1 n2 R1 R2 : zlen C1 = zlen C2 -> Forall (fun c => zlen c = n1) C1 -> 0 <= n1 -> 0 <= n2 ->
  rowsden keys C1 n1 = Some R1 -> rowsden keys C2 n2 = Some R2 -> rowsden keys (zipapp C1 C2) (n1 + n2) = Some (R1 ++ R2).
Proof.
  intros HL HF H1 H2 E1 E2. unfold rowsden. rewrite (zseq_split 0 n1 (n1 + n2)) by lia. apply omap_F_app.
  - unfold rowsden in E1. rewrite <- E1. apply omap_ext. intros i Hi. apply In_zseq in Hi. rewrite (zipapp_low C1 C2 n1) by (assumption || lia). reflexivity.
  - replace (zseq n1 (n1 + n2)) with (map (fun i => n1 + i) (zseq 0 n2)).
    + rewrite omap_map. unfold rowsden in E2. rewrite <- E2. apply omap_ext. intros i Hi. apply In_zseq in Hi. rewrite (zipapp_high C1 C2 n1) by (assumption || lia). reflexivity.
    + pose proof (map_zseq_shift (fun i => i) 0 n2 n1) as HM. rewrite map_id in HM. replace (0 + n1) with n1 in HM by lia. replace (n2 + n1) with (n1 + n2) in HM by lia. rewrite HM. apply map_ext. intros; lia.
Qed.
Lemma mkrow_promotes rc keys row row' : Forall2 (promotes rc) row row' -> promotes rc (mkrow keys row) (mkrow keys row').
Proof.
  intros H. destruct keys as [ks|]; simpl; [|apply pr_tuple; exact H]. eapply pr_rec; [apply Permutation_refl|]. revert ks. induction H as [|x y l l' Hxy H IH]; intros [|k ks]; simpl; constructor; [split; [reflexivity|exact Hxy]|apply IH].
Qed.
Lemma rowsden_promote rc keys C C' n R : Forall2 (Forall2 (promotes rc)) C C' -> rowsden keys C n = Some R -> exists R', rowsden keys C' n = Some R' /\ Forall2 (promotes rc) R R'.
Proof.
  intros HC. apply omap_F2. intros i v _ Hv. destruct (omap (fun vs => nthZ vs i) C) as [row|] eqn:Er; [|discriminate]. injection Hv as <-.
  assert (G : exists row', omap (fun vs => nthZ vs i) C' = Some row' /\ Forall2 (promotes rc) row row').
  { clear - HC Er. revert row Er. induction HC as [|c c' C C' Hc HC IH]; intros row Er; simpl in *; [injection Er as <-; eauto|].
    destruct (nthZ c i) as [v|] eqn:Ev; [|discriminate]. destruct (omap _ C) as [r|] eqn:Eo; [|discriminate]. injection Er as <-. destruct (F2_nthZ _ _ _ _ _ Hc Ev) as (v' & -> & Hp). destruct (IH r eq_refl) as (r' & -> & HP). eauto. }
  destruct G as (row' & -> & HP). exists (mkrow keys row'). split; [reflexivity|]. apply mkrow_promotes. exact HP.
Qed.

(** pushing one field on every column *)
Lemma push_zlen ffe fs : zlen fs = zlen ffe -> zlen (push_fields ffe fs) = zlen ffe.
Proof. revert fs; induction ffe as [|l ffe IH]; intros [|x fs] H; try reflexivity. simpl. rewrite !zlen_cons in *. rewrite IH by lia. reflexivity. Qed.
Lemma push_nth ffe fs i col : zlen fs = zlen ffe -> nthZ (push_fields ffe fs) i = Some col -> exists l x, nthZ ffe i = Some l /\ nthZ fs i = Some x /\ col = l ++ [x].
Proof.
  revert fs i; induction ffe as [|l ffe IH]; intros [|x fs] i HL H; simpl in H; rewrite ?zlen_cons in HL; try (rewrite nthZ_nil in H; discriminate).
  - change (zlen (@nil content)) with 0 in HL. pose proof (zlen_nonneg ffe). lia.
  - rewrite nthZ_cons in H. rewrite !nthZ_cons. destruct (i =? 0); [injection H as <-; eauto|]. apply IH; [lia|exact H].
Qed.
Lemma push_F2 ffe fs cols wa : Forall2 (fun col cv => exists vcol, dens col vcol /\ cv = concat vcol) ffe cols -> dens fs wa -> zlen fs = zlen ffe ->
  Forall2 (fun col cv => exists vcol, dens col vcol /\ cv = concat vcol) (push_fields ffe fs) (zipapp cols wa).
Proof.
  intros H; revert fs wa; induction H as [|col cv ffe cols (vcol & D & ->) H IH]; intros fs wa HD HL.
  - simpl. constructor.
  - inversion HD as [|x w fs' wa' Hx HD']; subst; [rewrite zlen_cons in HL; change (zlen (@nil content)) with 0 in HL; pose proof (zlen_nonneg ffe); lia|]. simpl. constructor; [|apply IH; [exact HD'|rewrite !zlen_cons in HL; lia]].
    exists (vcol ++ [w]). split; [apply Forall2_app; [exact D|constructor; [exact Hx|constructor]]|]. rewrite concat_app. simpl. rewrite app_nil_r. reflexivity.
Qed.
Lemma push_sumw ffe fs : zlen fs = zlen ffe -> list_sum (map sumw (push_fields ffe fs)) = (list_sum (map sumw ffe) + sumw fs)%nat.
Proof.
  revert fs; induction ffe as [|l ffe IH]; intros [|x fs] HL; rewrite ?zlen_cons in HL; try reflexivity.
  - change (zlen (@nil (list content))) with 0 in HL. pose proof (zlen_nonneg fs). lia.
  - change (zlen (@nil content)) with 0 in HL. pose proof (zlen_nonneg ffe). lia.
  - change (push_fields (l :: ffe) (x :: fs)) with ((l ++ [x]) :: push_fields ffe fs). cbn [map]. change (list_sum (sumw (l ++ [x]) :: map sumw (push_fields ffe fs))) with (sumw (l ++ [x]) + list_sum (map sumw (push_fields ffe fs)))%nat.
    rewrite IH by lia. change (list_sum (sumw l :: map sumw ffe)) with (sumw l + list_sum (map sumw ffe))%nat. sw. lia.
Qed.
Lemma zlen_zipapp {A} (a b : list (list A)) : zlen a = zlen b -> zlen (zipapp a b) = zlen a.
Proof.
  revert b; induction a as [|x a IH]; intros [|y b] H; rewrite ?zlen_cons in *; try reflexivity; [change (zlen (@nil (list A))) with 0 in *; pose proof (zlen_nonneg a); lia|]. simpl. rewrite zlen_cons, IH by lia. reflexivity.
Qed.
Lemma zipapp_lens {A} (a b : list (list A)) n m : zlen a = zlen b -> Forall (fun c => zlen c = n) a -> Forall (fun c => zlen c = m) b -> Forall (fun c => zlen c = n + m) (zipapp a b).
Proof. intros HL H; revert b HL; induction H as [|x a Hx H IH]; intros [|y b] HL Hb; simpl; try constructor; inversion Hb; subst; rewrite ?zlen_cons in HL; [rewrite zlen_app; lia|apply IH; [lia|assumption]]. Qed.

Lemma Forall2_map_l {A B C} (R : B -> C -> Prop) (f : A -> B) l l' : Forall2 R (map f l) l' <-> Forall2 (fun x y => R (f x) y) l l'.
Proof. split; revert l'; induction l as [|x l IH]; intros l' H; inversion H; subst; simpl; constructor; auto. Qed.
Lemma mapres_trim (cs : list content) vss n : dens cs vss -> Forall (fun vs => zlen vs = n) vss -> 0 <= n -> Forall tidy cs ->
  exists fs, mapres (fun c => getitem_range_nowrap c 0 n) cs = Ok fs /\ dens fs vss /\ Forall2 (fun c x => form_of x = form_of c /\ indexed_free x = indexed_free c /\ weight x = weight c /\ tidy x) cs fs.
Proof.
  intros HD; induction HD as [|c vs cs vss Hc HD IH]; intros HL Hn HT; simpl; [exists []; repeat split; constructor|]. inversion HL as [|? ? HL1 HL2]; inversion HT as [|? ? HT1 HT2]; subst.
  destruct (range_den c vs 0 (zlen vs) Hc) as (x & Ex & Dx); [lia|lia|]. rewrite slice_full in Dx. rewrite Ex. cbn [bind]. destruct (IH HL2 Hn HT2) as (fs & E & D & S). rewrite E. cbn [bind].
  exists (x :: fs). split; [reflexivity|]. split; [constructor; assumption|]. constructor; [|exact S]. repeat split.
  - destruct (range_same c 0 (zlen vs) x Ex) as [HS _]. exact HS.
  - exact (range_indexed_free c _ _ _ Ex).
  - exact (range_weight c _ _ _ Ex).
  - exact (range_tidy c vs 0 (zlen vs) x Hc ltac:(lia) ltac:(lia) HT1 Ex).
Qed.

Section PM.
Variable rc : Z -> Z.
Variable narrow : content -> bool.
Variable mb : bool.
Notation pr := (promotes rc).
Notation fm := (fmerge mb).
Notation fmc := (fmc mb).
Notation pre := (pre mb).
Notation post := (post rc mb).
Notation summ := (summ mb).
Notation excuse := (excuse narrow).
Notation outcome := (outcome rc narrow mb).

Section Keys.
Variable keys : option (list string).
(** position p of the fields [names'] is position i of [keys] *)
Definition corr (i : Z) (keys' : option (list string)) (p : Z) : Prop :=
  match keys, keys' with
  | None, None => p = i
  | Some ks, Some ks' => exists k, nthZ ks i = Some k /\ keypos ks' k = Some p
  | _, _ => False
  end.
(** x is a trimmed copy of the field of the record array a that goes with field i *)
Definition fld (i : Z) (a x : content) : Prop :=
  exists keys' len' cs' y p, a = Record keys' len' cs' /\ nthZ cs' p = Some y /\ corr i keys' p /\ match keys' with Some ks' => NoDup ks' /\ length ks' = length cs' | None => True end
    /\ form_of x = form_of y /\ indexed_free x = indexed_free y /\ tidy x.
Lemma fld_in i a x : fld i a x -> exists keys' len' cs' y, a = Record keys' len' cs' /\ In y cs' /\ form_of x = form_of y /\ indexed_free x = indexed_free y.
Proof. intros (keys' & len' & cs' & y & p & -> & Hp & _ & _ & Hf & Hi & _). exists keys', len', cs', y. repeat split; auto. eapply nthZ_In; exact Hp. Qed.
Lemma fld_ofree i a x : ofree a -> fld i a x -> ofree x.
Proof. unfold ofree. intros Ho H. destruct (fld_in _ _ _ H) as (keys' & len' & cs' & y & -> & Hy & Hf & _). rewrite Hf. cbn [form_of option_free] in Ho. rewrite forallb_forall in Ho. apply Ho. apply in_map. exact Hy. Qed.
Lemma fld_ufree i a x : ufree a -> fld i a x -> ufree x.
Proof. unfold ufree. intros Ho H. destruct (fld_in _ _ _ H) as (keys' & len' & cs' & y & -> & Hy & Hf & _). rewrite Hf. cbn [form_of union_free] in Ho. rewrite forallb_forall in Ho. apply Ho. apply in_map. exact Hy. Qed.
Lemma fld_ifree i a x : indexed_free a = true -> fld i a x -> indexed_free x = true.
Proof. intros Ho H. destruct (fld_in _ _ _ H) as (keys' & len' & cs' & y & -> & Hy & _ & Hf). rewrite Hf. cbn [indexed_free] in Ho. rewrite forallb_forall in Ho. apply Ho. exact Hy. Qed.
Lemma fld_tidy i a x : fld i a x -> tidy x.
Proof. intros (keys' & len' & cs' & y & p & _ & _ & _ & _ & _ & _ & HT). exact HT. Qed.
Lemma fld_fm i a x g keysg gs q gi : fld i a x -> fm (form_of a) g = true -> no_option g = FRecord keysg gs -> corr i keysg q -> nthZ gs q = Some gi -> fm (form_of x) gi = true.
Proof.
  intros (keys' & len' & cs' & y & p & -> & Hp & Hc & Hk & Hf & _) HF Hg Hq Hgi. rewrite Hf. cbn [form_of] in HF. rewrite fmerge_record, Hg in HF. unfold corr in *. unfold frec in HF.
  destruct keys as [ks|], keys' as [ks'|], keysg as [ksg|]; try contradiction; try discriminate.
  - destruct Hc as (k & Hk1 & Hk2), Hq as (k2 & Hk3 & Hk4). rewrite Hk1 in Hk3. injection Hk3 as <-. apply andb_true_iff in HF as [_ HF]. destruct Hk as [HN HL].
    rewrite allk_iff in HF by (rewrite map_length; exact HL). destruct (HF k (form_of y)) as (q' & g' & E1 & E2 & E3).
    + apply (nthZ_In_combine _ _ p); [apply keypos_some; exact Hk2|rewrite nthZ_map, Hp; reflexivity].
    + rewrite E1 in Hk4. injection Hk4 as ->. rewrite E2 in Hgi. injection Hgi as ->. exact E3.
  - subst p q. apply andb_true_iff in HF as [HL HF]. rewrite all2_iff in HF by (unfold zlen in HL; lia). destruct (F2_nthZ _ (map form_of cs') gs i (form_of y) HF) as (g' & E1 & E2); [rewrite nthZ_map, Hp; reflexivity|].
    rewrite E1 in Hgi. injection Hgi as ->. exact E2.
Qed.
Lemma fld_fmc i a b x y : fmc a b -> fld i a x -> fld i b y -> fmc x y.
Proof.
  unfold PMerge.fmc. intros Hab Hx Hy. pose proof Hy as (keys' & len' & cs' & y0 & p & -> & Hp & Hc & Hk & Hf & _). rewrite Hf.
  eapply fld_fm; [exact Hx|exact Hab|cbn [form_of no_option]; reflexivity|exact Hc|rewrite nthZ_map, Hp; reflexivity].
Qed.

(** one record array *)
Lemma record_block self len cs vself a va ffe : self = Record keys len cs -> den self = Some vself -> tidy self -> den a = Some va -> tidy a -> fmc self a -> (exists k' l' c', a = Record k' l' c') -> zlen ffe = zlen cs ->
  exists fs wa Ra, record_fill keys ffe a = Ok (push_fields ffe fs) /\ zlen fs = zlen cs /\ (forall i x, nthZ fs i = Some x -> fld i a x) /\ dens fs wa /\ Forall (fun w => zlen w = zlen va) wa
   /\ rowsden keys wa (zlen va) = Some Ra /\ Forall2 pr va Ra /\ (S (sumw fs) <= weight a)%nat.
Proof.
  intros -> Ds Ts Da Ta HF (keys' & len' & cs' & ->) HZ.
  destruct (record_den _ _ _ _ Ds) as (sss & Dcs & Hlen & Hk & _). destruct (record_den _ _ _ _ Da) as (vss & Dcs' & Hlen' & Hk' & Hrows). apply tidy_record in Ts as (TNE & TN & _ & _). apply tidy_record in Ta as (TNE' & TN' & TL' & TT').
  assert (HVA : zlen va = len') by (apply omap_F in Hrows; apply F2_zlen in Hrows; rewrite zlen_zseq in Hrows by lia; lia).
  assert (HVL : Forall (fun vs => zlen vs = len') vss).
  { apply omap_F in Dcs'. clear - Dcs' TL'. induction Dcs' as [|c vs cs vss Hc H IH]; [constructor|]. inversion TL'; subst. constructor; [rewrite <- (den_length _ _ Hc); reflexivity|apply IH; assumption]. }
  destruct (mapres_trim cs' vss len' (proj2 (dens_omap _ _) Dcs') HVL Hlen' TT') as (fs & Efs & Dfs & Ffs).
  unfold PMerge.fmc in HF. cbn [form_of] in HF. rewrite fmerge_record in HF. cbn [no_option] in HF. unfold frec in HF. unfold record_fill.
  destruct keys as [ks|] eqn:EK, keys' as [ks'|]; try discriminate.
  - (* records *)
    apply andb_true_iff in HF as [HS _]. cbn [record_keys]. rewrite HS. apply same_keys_perm in HS. cbn [keys_ok] in Hk, Hk'.
    assert (HLk : length ks' = length cs') by (unfold zlen in Hk'; lia).
    assert (HP : forall k, In k ks -> exists p y x w, keypos ks' k = Some p /\ nthZ cs' p = Some y /\ nthZ fs p = Some x /\ nthZ vss p = Some w /\ getitem_range_nowrap y 0 len' = Ok x).
    { intros k Hin. assert (Hin' : In k ks') by (eapply Permutation_in; eassumption). destruct (keypos_in _ _ Hin') as (p & Hp). pose proof (keypos_some _ _ _ Hp) as Hp'. pose proof (nthZ_Some _ _ _ Hp') as HR.
      destruct (nthZ_lt cs' p) as (y & Hy); [lia|]. destruct (F2_nthZ _ _ _ _ _ Ffs Hy) as (x & Hx & _). destruct (F2_nthZ _ _ _ _ _ Dfs Hx) as (w & Hw & _). exists p, y, x, w. repeat split; auto.
      clear - Efs Hy Hx. revert fs p Efs Hy Hx. induction cs' as [|c cs' IH]; intros fs p Efs Hy Hx; [rewrite nthZ_nil in Hy; discriminate|]. simpl in Efs. binv Efs. injection Efs as <-.
      rewrite nthZ_cons in Hy, Hx. destruct (p =? 0); [congruence|]. eapply IH; eassumption. }
    set (body := fun k : string => match keypos ks' k with Some p => let* f := rd cs' p in getitem_range_nowrap f 0 len' | None => Err "key does not exist (not in record)" end).
    assert (HM : forall l, (forall k, In k l -> In k ks) -> exists xs, mapres body l = Ok xs /\ Forall2 (fun k x => exists p, keypos ks' k = Some p /\ nthZ fs p = Some x) l xs).
    { induction l as [|k l IH]; intros Hl; simpl; [exists []; split; constructor|]. destruct (HP k) as (p & y & x & w & E1 & E2 & E3 & E4 & E5); [apply Hl; left; reflexivity|].
      destruct (IH) as (xs & Ex & Fx); [intros; apply Hl; right; assumption|]. unfold body at 1. rewrite E1. apply rd_Ok in E2. rewrite E2. cbn [bind]. rewrite E5. cbn [bind]. rewrite Ex. cbn [bind]. exists (x :: xs). split; [reflexivity|]. constructor; [eauto|exact Fx]. }
    destruct (HM ks (fun k H => H)) as (xs & Ex & Fx). rewrite Ex. cbn [bind].
    assert (LX : zlen xs = zlen cs) by (apply F2_zlen in Fx; lia).
    (* the columns in the order of ks *)
    assert (HW : exists wa, dens xs wa /\ Forall2 (fun k w => exists p, keypos ks' k = Some p /\ nthZ vss p = Some w) ks wa).
    { clear - Fx Dfs. induction Fx as [|k x ks xs (p & E1 & E2) Fx IH]; [exists []; split; constructor|]. destruct IH as (wa & D & F). destruct (F2_nthZ _ _ _ _ _ Dfs E2) as (w & Hw & Dw). exists (w :: wa). split; constructor; eauto. }
    destruct HW as (wa & Dwa & Fwa). exists xs, wa.
    (* row by row *)
    assert (HR : exists Ra, rowsden (Some ks) wa len' = Some Ra /\ Forall2 pr va Ra).
    { unfold rowsden. refine (omap_F2 _ _ _ _ _ _ Hrows). intros i v Hi Hv. destruct (omap (fun vs => nthZ vs i) vss) as [row'|] eqn:Er; [|discriminate]. injection Hv as <-.
      assert (Hrl : length row' = length ks'). { apply omap_F in Er. apply F2_zlen in Er. apply F2_zlen in Ffs. apply F2_zlen in Dfs. unfold zlen in *. lia. }
      assert (HROW : exists row, omap (fun vs => nthZ vs i) wa = Some row /\ Forall2 (fun k v => exists p, keypos ks' k = Some p /\ nthZ row' p = Some v) ks row).
      { clear - Fwa Er. induction Fwa as [|k w ks wa (p & E1 & E2) Fwa IH]; [exists []; split; [reflexivity|constructor]|]. destruct IH as (row & Eo & Fo). apply omap_F in Er. destruct (F2_nthZ _ _ _ _ _ Er E2) as (v & Hv & Hvi).
        cbn [omap]. rewrite Hvi, Eo. exists (v :: row). split; [reflexivity|]. constructor; eauto. }
      destruct HROW as (row & -> & Frow). exists (mkrow (Some ks) row). split; [reflexivity|]. cbn [mkrow]. eapply pr_rec with (r1 := combine ks row); [|apply Forall2_refl; intros; split; [reflexivity|apply pr_refl]].
      set (look := fun k => match keypos ks' k with Some p => match nthZ row' p with Some v => v | None => VNone end | None => VNone end).
      assert (E1 : combine ks row = map (fun k => (k, look k)) ks).
      { clear - Frow. unfold look. induction Frow as [|k v ks row (p & H1 & H2) F IH]; [reflexivity|]. cbn [combine map]. rewrite H1, H2. f_equal. exact IH. }
      assert (E2 : combine ks' row' = map (fun k => (k, look k)) ks').
      { apply list_eqZ; [rewrite zlen_map, zlen_combine; unfold zlen; lia|]. intros j Hj. rewrite nthZ_map, nthZ_combine. rewrite zlen_combine in Hj by (unfold zlen; lia). destruct (nthZ_lt ks' j) as (k & Hkj); [lia|]. rewrite Hkj. destruct (nthZ_lt row' j) as (v & Hvj); [unfold zlen in *; lia|]. rewrite Hvj. simpl. unfold look.
        destruct (keypos_in ks' k) as (p & Hp); [eapply nthZ_In; exact Hkj|]. rewrite Hp. assert (p = j) by (eapply NoDup_nthZ; [exact TN'|apply keypos_some; exact Hp|exact Hkj]). subst p. rewrite Hvj. reflexivity. }
      rewrite E1, E2. apply Permutation_map. apply Permutation_sym. exact HS. }
    destruct HR as (Ra & ER & PRa). exists Ra. split; [reflexivity|]. split; [exact LX|]. split; [|split; [exact Dwa|split; [|split; [|split; [exact PRa|]]]]].
    + intros i x Hx. destruct (F2_nthZ _ _ _ i _ (F2_flip _ _ _ Fx) Hx) as (k & Hki & p & E1 & E2). destruct (F2_nthZ _ _ _ _ _ (F2_flip _ _ _ Ffs) E2) as (y & Hy & A1 & A2 & A3 & A4).
      exists (Some ks'), len', cs', y, p. split; [reflexivity|]. split; [exact Hy|]. split; [unfold corr; rewrite EK; exists k; split; assumption|]. split; [split; assumption|]. repeat split; assumption.
    + rewrite HVA. clear - Fwa HVL. rewrite Forall_forall in *. intros w Hw. apply In_nthZ in Hw as (i & Hi). destruct (F2_nthZ _ _ _ i _ (F2_flip _ _ _ Fwa) Hi) as (k & Hk1 & Hk2). cbv beta in Hk2. destruct Hk2 as (p & _ & E2). apply HVL. eapply nthZ_In; exact E2.
    + rewrite HVA. exact ER.
    + cbn [weight]. set (wk := fun k => match keypos ks' k with Some p => match nthZ fs p with Some x => weight x | None => O end | None => O end).
      assert (E1 : map weight xs = map wk ks). { clear - Fx. unfold wk. induction Fx as [|k v ks row (p & H1 & H2) F IH]; [reflexivity|]. cbn [map]. rewrite H1, H2. f_equal. exact IH. }
      assert (E2 : map weight cs' = map wk ks').
      { apply list_eqZ; [rewrite !zlen_map; unfold zlen; lia|]. intros j Hj. rewrite !nthZ_map. rewrite zlen_map in Hj. destruct (nthZ_lt ks' j) as (k & Hkj); [unfold zlen in *; lia|]. destruct (nthZ_lt cs' j) as (y & Hyj); [lia|]. rewrite Hkj, Hyj. simpl. unfold wk.
        destruct (keypos_in ks' k) as (p & Hp); [eapply nthZ_In; exact Hkj|]. rewrite Hp. assert (p = j) by (eapply NoDup_nthZ; [exact TN'|apply keypos_some; exact Hp|exact Hkj]). subst p. destruct (F2_nthZ _ _ _ _ _ Ffs Hyj) as (x & -> & _ & _ & Hw & _). congruence. }
      unfold sumw. rewrite E1, E2. assert (HPm : Permutation (map wk ks) (map wk ks')) by (apply Permutation_map; exact HS). clear - HPm. assert (list_sum (map wk ks) = list_sum (map wk ks')); [|lia].
      induction HPm; simpl; lia.
  - (* tuples *)
    apply andb_true_iff in HF as [HL _]. rewrite !zlen_map in HL. rewrite HZ. rewrite HL. rewrite Efs. cbn [bind]. exists fs, vss, va. split; [reflexivity|].
    assert (LF : zlen fs = zlen cs) by (apply F2_zlen in Ffs; lia). split; [exact LF|]. split; [|split; [exact Dfs|split; [|split; [|split]]]].
    + intros i x Hx. destruct (F2_nthZ _ _ _ i _ (F2_flip _ _ _ Ffs) Hx) as (y & Hy & A1 & A2 & A3 & A4). exists None, len', cs', y, i. repeat split; auto. unfold corr. rewrite EK. reflexivity.
    + rewrite HVA. exact HVL.
    + rewrite HVA. exact Hrows.
    + apply prs_refl.
    + cbn [weight]. assert (E : map weight fs = map weight cs') by (clear - Ffs; induction Ffs as [|c x cs fs (_ & _ & Hw & _) F IH]; [reflexivity|]; simpl; rewrite Hw, IH; reflexivity). unfold sumw. rewrite E. lia.
Qed.
End Keys.

Definition recs (l : list content) : list content := flat_map (fun a => match a with Empty => [] | _ => [a] end) l.
Definition rinv keys (cs done : list content) (vd : list value) (ffe : list (list content)) : Prop :=
  zlen ffe = zlen cs /\ (forall i col, nthZ ffe i = Some col -> Forall2 (fld keys i) done col) /\ (list_sum (map sumw ffe) + length done <= sumw done)%nat
  /\ exists cols R, Forall2 (fun col cv => exists vcol, dens col vcol /\ cv = concat vcol) ffe cols /\ Forall (fun c => zlen c = zlen vd) cols /\ rowsden keys cols (zlen vd) = Some R /\ Forall2 pr vd R.
Lemma record_fold self keys len cs vself : self = Record keys len cs -> den self = Some vself -> tidy self ->
  forall l vss, dens l vss -> Forall tidy l -> Forall (fmc self) l -> Forall (fun a => a = Empty \/ exists k' l' c', a = Record k' l' c') l ->
  forall done vd ffe, rinv keys cs done vd ffe -> exists ffe', foldm (record_fill keys) l ffe = Ok ffe' /\ rinv keys cs (done ++ recs l) (vd ++ concat vss) ffe'.
Proof.
  intros Hs Ds Ts l vss HD. induction HD as [|a va l vss Ha HD IH]; intros HT HF HR done vd ffe HI.
  - simpl. exists ffe. rewrite !app_nil_r. split; [reflexivity|exact HI].
  - inversion HT; inversion HF; inversion HR as [|? ? HR1 HR2]; subst. cbn [foldm concat]. destruct HR1 as [->|HR1].
    + cbn [den] in Ha. injection Ha as <-. cbn [record_fill bind]. apply IH; assumption.
    + assert (ER : recs (a :: l) = a :: recs l) by (destruct HR1 as (? & ? & ? & ->); reflexivity). rewrite ER. clear ER.
      destruct HI as (I1 & I2 & I3 & cols & R & I4 & I5 & I6 & I7).
      destruct (record_block keys (Record keys len cs) len cs vself a va ffe eq_refl Ds Ts Ha) as (fs & wa & Ra & E & L & HFld & Dw & Lw & RR & PR & WW); try assumption. rewrite E. cbn [bind].
      replace (done ++ a :: recs l) with ((done ++ [a]) ++ recs l) by (rewrite <- app_assoc; reflexivity). rewrite app_assoc. apply IH; try assumption.
      pose proof (F2_zlen _ _ _ I4) as Z4. pose proof (F2_zlen _ _ _ Dw) as Zw. split; [|split; [|split]].
      * rewrite push_zlen by lia. exact I1.
      * intros i col Hc. apply push_nth in Hc as (l0 & x & H1' & H2' & ->); [|lia]. apply Forall2_app; [apply I2; exact H1'|]. constructor; [apply HFld; exact H2'|constructor].
      * rewrite push_sumw by lia. rewrite app_length. sw. simpl length. lia.
      * exists (zipapp cols wa), (R ++ Ra). rewrite zlen_app. split; [apply push_F2; [exact I4|exact Dw|lia]|]. split; [apply zipapp_lens; [lia|exact I5|exact Lw]|]. split; [|apply prs_app; assumption].
        apply rowsden_app; try assumption; try apply zlen_nonneg. lia.
Qed.

Section Rec.
Variable rec : content -> list content -> res content.
Variable f : nat.
Hypothesis IHrec : forall self others vss, pre self others vss -> (sumw (self :: others) + length others <= f)%nat -> outcome (self :: others) vss (rec self others).

Lemma mapres_outcome all ffe cols : Forall2 (fun col cv => exists vcol, cv = concat vcol /\ outcome col vcol (merge_contents rec col) /\ (excuse col -> excuse all)) ffe cols ->
  match mapres (merge_contents rec) ffe with
  | Ok ncs => exists mcols, dens ncs mcols /\ Forall2 (Forall2 pr) cols mcols /\ Forall2 summ ffe ncs
  | Err _ => excuse all
  | UB => False
  end.
Proof.
  induction 1 as [|col cv ffe cols (vcol & -> & HO & HE) H IH]; simpl; [exists []; repeat split; constructor|].
  destruct (merge_contents rec col) as [c'| |]; cbn [bind]; [|apply HE; exact HO|exact HO]. destruct HO as (vs' & D & P & S).
  destruct (mapres (merge_contents rec) ffe) as [ncs| |]; cbn [bind]; [|exact IH|exact IH]. destruct IH as (mcols & A1 & A2 & A3). exists (vs' :: mcols). repeat split; constructor; assumption.
Qed.
Lemma minlength_spec ncs n : ncs <> [] -> Forall (fun c => length_ c = n) ncs -> 0 <= n -> fold_left (fun m c => if (m =? -1) || (length_ c <? m) then length_ c else m) ncs (-1) = n.
Proof.
  intros HN HF Hn. destruct HF as [|c ncs Hc HF]; [congruence|]. cbn [fold_left]. change (-1 =? -1) with true. cbn [orb]. rewrite Hc. clear HN Hc c. induction HF as [|c ncs Hc HF IH]; [reflexivity|]. cbn [fold_left]. rewrite Hc.
  destruct (Z.eqb_spec n (-1)); [lia|]. destruct (Z.ltb_spec n n); [lia|]. exact IH.
Qed.
Lemma nthZ_list_sum ffe i col : nthZ ffe i = Some col -> (sumw col <= list_sum (map sumw ffe))%nat.
Proof. intros H. apply nthZ_In in H. apply (list_sum_in sumw). exact H. Qed.

Lemma record_outcome self keys len cs others vss : self = Record keys len cs -> pre self others vss -> (sumw (self :: others) + length others <= S f)%nat ->
  outcome (self :: others) vss (RecordArray_mergemany narrow rec self keys len cs others).
Proof.
  intros Hs HP Hf. unfold RecordArray_mergemany. assert (EM : merging_strategy self others = split_until (fun o => needs_simplify o || is_union o) others) by (subst; reflexivity). rewrite EM. clear EM.
  pose proof (split_until_app (fun o => needs_simplify o || is_union o) others) as HS. destruct (split_until _ others) as [hl tail]. destruct HS as (-> & HN & Ht).
  assert (HH : Forall (fun a => a = Empty \/ exists k' l' c', a = Record k' l' c') hl /\ Forall (fmc self) hl).
  { destruct HP as (_ & _ & _ & HP). inversion HP as [|? ? HF _]; subst. apply Forall_app in HF as [HF _]. split; [|exact HF]. rewrite Forall_forall in *. intros o Ho. specialize (HN o Ho). specialize (HF o Ho). unfold PMerge.fmc in HF.
    cbn [form_of] in HF. rewrite fmerge_record in HF. destruct o; simpl in HN, HF; try discriminate; [left; reflexivity|right; eauto]. }
  destruct HH as [HH HFS].
  set (X := mapres (fun f => getitem_range_nowrap f 0 len) cs). set (Y := foldm (record_fill keys) hl (map (fun f => [f]) cs)).
  match goal with |- outcome _ _ ?e => replace e with
    (let* next := (let* _ := X in let* for_each_field := Y in let* nextcontents := mapres (merge_contents rec) for_each_field in
       mkRecord keys (fold_left (fun m c => if (m =? -1) || (length_ c <? m) then length_ c else m) nextcontents (-1)) nextcontents) in merge_tail narrow rec next tail)
    by (destruct X; try reflexivity; cbn [bind]; destruct Y as [fe| |]; try reflexivity; cbn [bind]; destruct (mapres (merge_contents rec) fe); reflexivity) end.
  apply finish with (f := f); [exact IHrec|exact HP|exact Ht|exact Hf|]. clear HP Hf. intros v1 (HD & HT & HO & HPP) Hf.
  inversion HD as [|? vself ? vss' Ds Dl]; subst v1. inversion HT as [|? ? Ts Tl]; subst. rewrite <- Hs0 in * || idtac.
  set (self := Record keys len cs) in *.
  destruct (record_den _ _ _ _ Ds) as (sss & Dcs & Hlen & Hk & Hrows). pose proof Ts as Ts'. apply tidy_record in Ts' as (TNE & TN & TL & TT).
  assert (HVA : zlen vself = len) by (apply omap_F in Hrows; apply F2_zlen in Hrows; rewrite zlen_zseq in Hrows by lia; lia).
  assert (HVL : Forall (fun vs => zlen vs = len) sss).
  { apply omap_F in Dcs. clear - Dcs TL. induction Dcs as [|c vs cs vss Hc H IH]; [constructor|]. inversion TL; subst. constructor; [rewrite <- (den_length _ _ Hc); reflexivity|apply IH; assumption]. }
  destruct (mapres_trim cs sss len (proj2 (dens_omap _ _) Dcs) HVL Hlen TT) as (fs & Efs & _ & _). unfold X. rewrite Efs. cbn [bind].
  assert (I0 : rinv keys cs [self] vself (map (fun f => [f]) cs)).
  { split; [apply zlen_map|]. split; [|split].
    - intros i col Hc. rewrite nthZ_map in Hc. destruct (nthZ cs i) as [c|] eqn:Ei; [|discriminate]. injection Hc as <-. constructor; [|constructor]. exists keys, len, cs, c, i. split; [reflexivity|]. split; [exact Ei|].
      assert (HLk : match keys with Some ks' => NoDup ks' /\ length ks' = length cs | None => True end) by (destruct keys as [ks|]; [split; [exact TN|simpl in Hk; unfold zlen in Hk; lia]|exact I]).
      split; [|split; [exact HLk|]].
      + unfold corr. destruct keys as [ks|]; [|reflexivity]. pose proof (nthZ_Some _ _ _ Ei). destruct (nthZ_lt ks i) as (k & Hki); [simpl in Hk; lia|]. exists k. split; [exact Hki|]. destruct (keypos_in ks k) as (p & Hp); [eapply nthZ_In; exact Hki|].
        rewrite Hp. f_equal. eapply NoDup_nthZ; [exact TN|apply keypos_some; exact Hp|exact Hki].
      + repeat split. rewrite Forall_forall in TT. apply TT. eapply nthZ_In; exact Ei.
    - rewrite map_map. simpl length. sw. cbn [weight]. assert (E : map (fun x => sumw [x]) cs = map weight cs) by (apply map_ext; intros; rewrite sumw_cons, sumw_nil; lia). unfold self. cbn [weight]. rewrite E. lia.
    - exists sss, vself. split; [|split; [rewrite HVA; exact HVL|split; [rewrite HVA; exact Hrows|apply prs_refl]]]. apply omap_F in Dcs. clear - Dcs. induction Dcs; simpl; constructor; [|assumption].
      exists [y]. split; [constructor; [assumption|constructor]|simpl; rewrite app_nil_r; reflexivity]. }
  destruct (record_fold self keys len cs vself eq_refl Ds Ts hl vss' Dl Tl HFS HH [self] vself _ I0) as (ffe & EY & I1 & I2 & I3 & cols & R & I4 & I5 & I6 & I7).
  unfold Y. rewrite EY. cbn [bind]. clear X Y EY I0. set (done := [self] ++ recs hl) in *.
  assert (Hdone : (sumw done <= sumw (self :: hl))%nat /\ (1 <= length done)%nat).
  { split; [|simpl; lia]. unfold done. cbn [app]. rewrite !sumw_cons. assert (sumw (recs hl) <= sumw hl)%nat; [|lia]. apply flat_map_sumw. intros a _. destruct a; rewrite ?sumw_cons, ?sumw_nil; lia. }
  destruct Hdone as [Hdone Hdone1].
  assert (HsubF : forall P : content -> Prop, Forall P (self :: hl) -> Forall P done).
  { intros P HF. inversion HF; subst. unfold done. constructor; [assumption|]. eapply flat_map_Forall; [eassumption|]. intros a x Pa Hx. destruct a; destruct Hx as [<-|[]] || destruct Hx; exact Pa. }
  assert (HsubP : ForallOrdPairs fmc done).
  { inversion HPP as [|? ? HA HB]; subst. unfold done. constructor.
    - eapply flat_map_Forall; [exact HA|]. intros a x Pa Hx. destruct a; destruct Hx as [<-|[]] || destruct Hx; exact Pa.
    - eapply flat_map_FOP; [exact HB|intros a; destruct a; simpl; lia|]. intros a b x y Hab Hx Hy. destruct a; (destruct Hx as [<-|[]] || destruct Hx); destruct b; (destruct Hy as [<-|[]] || destruct Hy); exact Hab. }
  assert (HcolF : forall P Q : content -> Prop, forall i, (forall a x, P a -> fld keys i a x -> Q x) -> forall col l, Forall2 (fld keys i) l col -> Forall P l -> Forall Q col).
  { clear. intros P Q i H col l HF HP. induction HF; inversion HP; subst; constructor; eauto. }
  assert (HU : forall i col, nthZ ffe i = Some col -> Forall ufree (self :: hl) -> Forall ufree col).
  { intros i col Hc HF. apply (HcolF ufree ufree i (fun a x Ha Hx => fld_ufree keys i a x Ha Hx) col done); [apply I2; exact Hc|apply HsubF; exact HF]. }
  assert (HW : forall i col, nthZ ffe i = Some col -> (sumw col + length col <= sumw (self :: hl))%nat).
  { intros i col Hc. pose proof (nthZ_list_sum _ _ _ Hc). specialize (I2 i col Hc). apply F2_zlen in I2. unfold zlen in I2. lia. }
  assert (HOUT : Forall2 (fun col cv => exists vcol, cv = concat vcol /\ outcome col vcol (merge_contents rec col) /\ (excuse col -> excuse (self :: hl))) ffe cols).
  { apply F2_of_nthZ; [apply F2_zlen in I4; exact I4|]. intros i col cv Hc Hv. destruct (F2_nthZ _ _ _ _ _ I4 Hc) as (cv' & Hv' & vcol & Dc & ->). rewrite Hv in Hv'. injection Hv' as ->. exists vcol. split; [reflexivity|].
    pose proof (I2 i col Hc) as HFl. split; [|apply excuse_mono; [intros HF; eapply HU; eassumption|specialize (HW i col Hc); lia]].
    apply (merge_contents_ok rc narrow mb rec f IHrec); [|exact Dc| | | |].
    - intros ->. inversion HFl.
    - clear - HFl. induction HFl; constructor; [eapply fld_tidy; eassumption|assumption].
    - inversion HFl as [|? x ? xs Hx Hxs]; subst. simpl tl. destruct HO as [HO|HO]; [left|right].
      + apply (HcolF (fun c => indexed_free c = true) (fun c => indexed_free c = true) i (fun a x Ha Hx => fld_ifree keys i a x Ha Hx) xs (recs hl) Hxs). eapply flat_map_Forall; [exact HO|]. intros a y Pa Hy. destruct a; (destruct Hy as [<-|[]] || destruct Hy); exact Pa.
      + apply (HcolF ofree ofree i (fun a x Ha Hx => fld_ofree keys i a x Ha Hx) (x :: xs) done); [constructor; assumption|apply HsubF; exact HO].
    - clear - rc narrow mb HFl HsubP. induction HFl as [|a x l col Hax HFl IH]; [constructor|]. inversion HsubP as [|? ? HA HB]; subst. constructor; [|apply IH; exact HB]. clear - rc narrow mb HA HFl Hax.
      induction HFl as [|b y l col Hby HFl IH]; [constructor|]. inversion HA; subst. constructor; [eapply fld_fmc; eassumption|apply IH; assumption].
    - specialize (HW i col Hc). lia. }
  pose proof (mapres_outcome (self :: hl) ffe cols HOUT) as HM. destruct (mapres (merge_contents rec) ffe) as [ncs| |]; cbn [bind]; [|exact HM|exact HM]. destruct HM as (mcols & Dn & Pn & Sn).
  cbn [concat]. assert (E0 : concat (vself :: vss') = vself ++ concat vss') by reflexivity. set (V := vself ++ concat vss') in *.
  pose proof (F2_zlen _ _ _ Sn) as ZSn.
  assert (HNE : ncs <> []).
  { intros ->. change (zlen (@nil content)) with 0 in ZSn. assert (zlen cs = 0) by lia. apply zlen_0 in H. contradiction. }
  assert (HLen : Forall (fun c => length_ c = zlen V) ncs).
  { clear - Dn Pn I5. rewrite Forall_forall in *. intros c Hc. apply In_nthZ in Hc as (i & Hi). destruct (F2_nthZ _ _ _ _ _ Dn Hi) as (m & Hm & Dm). rewrite (den_length _ _ Dm).
    destruct (F2_nthZ _ _ _ i _ (F2_flip _ _ _ Pn) Hm) as (cv & Hcv & Pcv). cbv beta in Pcv. rewrite <- (F2_zlen _ _ _ Pcv). apply I5. eapply nthZ_In; exact Hcv. }
  rewrite (minlength_spec ncs (zlen V) HNE HLen (zlen_nonneg V)).
  assert (HK : keys_ok keys (zlen ncs) = true) by (rewrite <- ZSn, I1; exact Hk).
  assert (EMK : mkRecord keys (zlen V) ncs = Ok (Record keys (zlen V) ncs)).
  { unfold mkRecord. destruct keys as [ks|]; [|reflexivity]. simpl in HK. rewrite HK. reflexivity. }
  rewrite EMK. destruct (rowsden_promote rc keys cols mcols (zlen V) R Pn I6) as (R' & ER & PR).
  exists R'. split; [|split; [|split; [|split; [|split; [|split]]]]].
  - cbn [den]. apply dens_omap in Dn. rewrite Dn, HK. pose proof (zlen_nonneg V). destruct (Z.leb_spec 0 (zlen V)); [|lia]. exact ER.
  - rewrite E0. eapply prs_trans; [exact I7|exact PR].
  - apply tidy_record. split; [exact HNE|]. split; [exact TN|]. split; [exact HLen|]. clear - Sn. induction Sn as [|col c ffe ncs (HT & _) F IH]; constructor; assumption.
  - cbn [weight]. assert (list_sum (map weight ncs) <= list_sum (map sumw ffe))%nat; [|lia]. clear - Sn. induction Sn as [|col c ffe ncs (_ & HW & _) F IH]; simpl; lia.
  - intros HF. unfold ofree. cbn [form_of option_free]. apply forallb_forall. intros g Hg. apply in_map_iff in Hg as (c & <- & Hc). apply In_nthZ in Hc as (i & Hi). destruct (F2_nthZ _ _ _ i _ (F2_flip _ _ _ Sn) Hi) as (col & Hcol & HSc). cbv beta in HSc. destruct HSc as (_ & _ & HOf & _).
    apply HOf. apply (HcolF ofree ofree i (fun a x Ha Hx => fld_ofree keys i a x Ha Hx) col done); [apply I2; exact Hcol|apply HsubF; exact HF].
  - intros HF. unfold ufree. cbn [form_of union_free]. apply forallb_forall. intros g Hg. apply in_map_iff in Hg as (c & <- & Hc). apply In_nthZ in Hc as (i & Hi). destruct (F2_nthZ _ _ _ i _ (F2_flip _ _ _ Sn) Hi) as (col & Hcol & HSc). cbv beta in HSc. destruct HSc as (_ & _ & _ & HUf & _).
    apply HUf. eapply HU; eassumption.
  - intros g HF. pose proof HF as HF0. inversion HF0 as [|? ? HF1 _]; subst. unfold self in HF1. cbn [form_of] in HF1 |- *. rewrite fmerge_record in HF1 |- *. destruct (no_option g) as [| | | |keysg gs|] eqn:Eg; try discriminate; try reflexivity.
    assert (HC : forall i c q gi, nthZ ncs i = Some c -> corr keys i keysg q -> nthZ gs q = Some gi -> fm (form_of c) gi = true).
    { intros i c q gi Hc Hq Hgi. destruct (F2_nthZ _ _ _ i _ (F2_flip _ _ _ Sn) Hc) as (col & Hcol & HSc). cbv beta in HSc. destruct HSc as (_ & _ & _ & _ & HM). apply HM.
      apply (HcolF (fun a => fm (form_of a) g = true) (fun x => fm (form_of x) gi = true) i) with (l := done).
      - intros a x Ha Hx. exact (fld_fm keys i a x g keysg gs q gi Hx Ha Eg Hq Hgi).
      - apply I2; exact Hcol.
      - apply HsubF. exact HF. }
    unfold frec in HF1 |- *. destruct keys as [ks|], keysg as [ksg|]; try discriminate.
    + apply andb_true_iff in HF1 as [HS HA]. apply andb_true_iff. split; [exact HS|]. simpl in HK, Hk. rewrite allk_iff in HA by (rewrite map_length; unfold zlen in Hk; lia). apply allk_iff; [rewrite map_length; unfold zlen in HK; lia|].
      intros k fk Hin. apply In_combine_nthZ in Hin as (i & Hki & Hfi). rewrite nthZ_map in Hfi. destruct (nthZ ncs i) as [c|] eqn:Hc; [|discriminate]. injection Hfi as <-.
      pose proof (nthZ_Some _ _ _ Hc). destruct (nthZ_lt cs i) as (c0 & Hc0); [lia|]. destruct (HA k (form_of c0)) as (q & g' & E1 & E2 & E3); [apply (nthZ_In_combine _ _ i); [exact Hki|rewrite nthZ_map, Hc0; reflexivity]|].
      exists q, g'. split; [exact E1|]. split; [exact E2|]. apply (HC i c q g' Hc); [|exact E2]. exists k. split; assumption.
    + apply andb_true_iff in HF1 as [HL HA]. apply andb_true_iff. rewrite !zlen_map in *. split; [lia|]. apply all2_iff; [rewrite map_length; unfold zlen in *; lia|]. apply F2_of_nthZ; [rewrite zlen_map; lia|].
      intros i fc gi Hfi Hgi. rewrite nthZ_map in Hfi. destruct (nthZ ncs i) as [c|] eqn:Hc; [|discriminate]. injection Hfi as <-. apply (HC i c i gi Hc); [reflexivity|exact Hgi].
Qed.
End Rec.
End PM.
