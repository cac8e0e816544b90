(** Concatenation: what every class promises, and the classes other than records. *)
From Coq Require Import Permutation.
From Verif Require Import Base BaseLemmas OmapLemmas LoopLemmas Content SpecArray SpecForm SpecMerge KCore Core KConvert Convert KOption Option KMerge Merge
  PCore PCarry PList PConvert POption PForm PTidy PPromote PMergeable PMergeK.

Definition sumw (cs : list content) : nat := list_sum (map weight cs).
Definition dens (cs : list content) (vss : list (list value)) : Prop := Forall2 (fun c vs => den c = Some vs) cs vss.
Definition ofree (c : content) : Prop := option_free (form_of c) = true.
Definition ufree (c : content) : Prop := union_free (form_of c) = true.
Lemma sumw_cons c cs : sumw (c :: cs) = (weight c + sumw cs)%nat. Proof. reflexivity. Qed.
Lemma sumw_app a b : sumw (a ++ b) = (sumw a + sumw b)%nat.
Proof. unfold sumw. rewrite map_app, list_sum_app. reflexivity. Qed.
Lemma sumw_nil : sumw [] = 0%nat. Proof. reflexivity. Qed.
Ltac sw := rewrite ?sumw_cons, ?sumw_app, ?sumw_cons, ?sumw_app, ?sumw_cons, ?sumw_nil in *.
Lemma zlen_sumw cs : zlen cs <= Z.of_nat (sumw cs).
Proof. induction cs as [|c cs IH]; [reflexivity|]. rewrite zlen_cons, sumw_cons. pose proof (weight_pos c). lia. Qed.

Lemma dens_omap cs vss : dens cs vss <-> omap den cs = Some vss.
Proof. symmetry. apply omap_F. Qed.
Lemma dens_app_inv a b vss : dens (a ++ b) vss -> exists v1 v2, vss = v1 ++ v2 /\ dens a v1 /\ dens b v2.
Proof. intros H. apply Forall2_app_inv_l in H as (v1 & v2 & H1 & H2 & ->). eauto. Qed.
Lemma FOP_app_inv {A} (R : A -> A -> Prop) a b : ForallOrdPairs R (a ++ b) -> ForallOrdPairs R a /\ ForallOrdPairs R b /\ Forall (fun x => Forall (R x) b) a.
Proof.
  induction a as [|x a IH]; intros H; [repeat split; [constructor|exact H|constructor]|]. inversion H as [|? ? HF HP]; subst. apply Forall_app in HF as [H1 H2]. destruct (IH HP) as (A1 & A2 & A3).
  repeat split; [constructor; assumption|assumption|constructor; assumption].
Qed.
Lemma Forall_swap {A B} (R : A -> B -> Prop) a b : Forall (fun x => Forall (R x) b) a -> Forall (fun y => Forall (fun x => R x y) a) b.
Proof. rewrite !Forall_forall. intros H y Hy. rewrite Forall_forall. intros x Hx. specialize (H x Hx). rewrite Forall_forall in H. auto. Qed.

Lemma split_until_app p l : let '(h, t) := split_until p l in l = h ++ t /\ Forall (fun x => p x = false) h /\ match t with [] => True | t0 :: _ => p t0 = true end.
Proof.
  induction l as [|x l IH]; simpl; [repeat split; constructor|]. destruct (p x) eqn:E; [repeat split; [constructor|exact E]|]. destruct (split_until p l) as [h t]. destruct IH as (-> & H1 & H2).
  repeat split; [constructor; assumption|exact H2].
Qed.
Lemma total_length_dens cs vss : dens cs vss -> total_length cs = zlen (concat vss).
Proof.
  unfold total_length. intros H. assert (G : forall n, fold_left (fun n c => n + length_ c) cs n = n + zlen (concat vss)); [|rewrite G; lia].
  induction H as [|c vs cs vss Hc H IH]; intros n; simpl; [change (zlen (@nil value)) with 0; lia|]. rewrite IH, zlen_app, (den_length _ _ Hc). lia.
Qed.
Lemma toindexedoption_shape c c' : toIndexedOptionArray64 c = Ok c' -> exists i, c' = IndexedOption i (below c).
Proof. destruct c; simpl; intros H; try discriminate; binv H; try mkinv H; subst; eauto. Qed.

Section PM.
Variable rc : Z -> Z.
Variable narrow : content -> bool.
Variable mb : bool.
Notation pr := (promotes rc).
Notation fm := (fmerge mb).
Definition fmc (a b : content) : Prop := fm (form_of a) (form_of b) = true.
Definition opt_ok (self : content) (others : list content) : Prop :=
  Forall (fun c => indexed_free c = true) others \/ Forall ofree (self :: others).
Definition pre (self : content) (others : list content) (vss : list (list value)) : Prop :=
  dens (self :: others) vss /\ Forall tidy (self :: others) /\ opt_ok self others /\ ForallOrdPairs fmc (self :: others).
Definition summ (all : list content) (c' : content) : Prop :=
  tidy c' /\ (weight c' <= sumw all)%nat /\ (Forall ofree all -> ofree c') /\ (Forall ufree all -> ufree c')
  /\ (forall g, Forall (fun a => fm (form_of a) g = true) all -> fm (form_of c') g = true).
Definition post (all : list content) (vss : list (list value)) (c' : content) : Prop :=
  exists vs', den c' = Some vs' /\ Forall2 pr (concat vss) vs' /\ summ all c'.
Definition excuse (all : list content) : Prop := (exists x, narrow x = true) \/ (~ Forall ufree all /\ 127 < Z.of_nat (sumw all)).
Definition outcome (all : list content) (vss : list (list value)) (r : res content) : Prop :=
  match r with Ok c' => post all vss c' | Err _ => excuse all | UB => False end.

Lemma outcome_bind all1 vss1 all vss r k : outcome all1 vss1 r -> (excuse all1 -> excuse all) -> (forall c', post all1 vss1 c' -> outcome all vss (k c')) ->
  outcome all vss (let* c := r in k c).
Proof. destruct r; simpl; auto. Qed.
Lemma excuse_mono all1 all : (Forall ufree all -> Forall ufree all1) -> (sumw all1 <= sumw all)%nat -> excuse all1 -> excuse all.
Proof. intros H1 H2 [H|[H H']]; [left; exact H|right]. split; [intros HF; apply H; auto|lia]. Qed.
Lemma summ_refl c : tidy c -> summ [c] c.
Proof.
  intros H. repeat split; auto.
  - unfold sumw; simpl; lia.
  - intros HF; inversion HF; assumption.
  - intros HF; inversion HF; assumption.
  - intros g HF; inversion HF; assumption.
Qed.
(** replacing the first arrays by their concatenation *)
Lemma summ_trans all1 c1 rest c : summ all1 c1 -> summ (c1 :: rest) c -> summ (all1 ++ rest) c.
Proof.
  intros (T1 & W1 & O1 & U1 & M1) (T2 & W2 & O2 & U2 & M2). repeat split.
  - exact T2.
  - rewrite sumw_app. rewrite sumw_cons in W2. lia.
  - intros HF. apply Forall_app in HF as [HA HB]. apply O2. constructor; auto.
  - intros HF. apply Forall_app in HF as [HA HB]. apply U2. constructor; auto.
  - intros g HF. apply Forall_app in HF as [HA HB]. apply M2. constructor; auto.
Qed.

(** ** the recursive calls *)
Section Rec.
Variable rec : content -> list content -> res content.
Variable f : nat.
Hypothesis IHrec : forall self others vss, pre self others vss -> (sumw (self :: others) + length others <= f)%nat -> outcome (self :: others) vss (rec self others).

Lemma merge_contents_ok cs vss : cs <> [] -> dens cs vss -> Forall tidy cs -> (Forall (fun c => indexed_free c = true) (tl cs) \/ Forall ofree cs) -> ForallOrdPairs fmc cs ->
  (sumw cs + length cs <= S f)%nat -> outcome cs vss (merge_contents rec cs).
Proof.
  intros Hn H1 H2 H3 H4 Hf. destruct cs as [|c cs]; [congruence|]. simpl. apply IHrec; [split; [|split; [|split]]; assumption|]. simpl in Hf. lia.
Qed.

(** ** reverse_merge and the tail *)
Lemma reverse_index next (vs : list value) index myidx us o ws :
  zlen vs = length_ next -> omap (idx o us) myidx = Some ws ->
  index = alloc (length_ next + zlen myidx) ->
  exists r, (let* index := awkward_IndexedArray_fill_count index 0 (length_ next) 0 in awkward_IndexedArray_fill index (length_ next) myidx (zlen myidx) (length_ next)) = Ok r
    /\ omap (idx o (vs ++ us)) r = Some (vs ++ ws).
Proof.
  intros Hl Hw ->. rewrite <- Hl. pose proof (zlen_nonneg vs). pose proof (zlen_nonneg myidx).
  destruct (fill_count_spec [] (alloc (zlen vs + zlen myidx)) (zlen vs) 0) as (r1 & E1 & L1); [rewrite zlen_alloc by lia; lia|]. rewrite zlen_alloc in L1 by lia.
  simpl app in E1. change (zlen (@nil Z)) with 0 in E1. rewrite E1. cbn [bind].
  destruct (indexed_fill_spec (zseq 0 (0 + zlen vs)) r1 myidx (zlen vs)) as (r2 & E2 & L2); [lia|]. rewrite zlen_zseq in E2 by lia. replace (0 + zlen vs - 0) with (zlen vs) in E2 by lia.
  rewrite E2. assert (r2 = []) by (apply zlen_0; lia). subst r2. rewrite app_nil_r. eexists; split; [reflexivity|].
  assert (OA : forall a b x y, omap (idx o (vs ++ us)) a = Some x -> omap (idx o (vs ++ us)) b = Some y -> omap (idx o (vs ++ us)) (a ++ b) = Some (x ++ y)).
  { intros a b x y Ha Hb. apply omap_F in Ha, Hb. apply omap_F. apply Forall2_app; assumption. }
  apply OA.
  - pose proof (omap_idx_count o [] vs us) as HC. simpl app in HC. change (zlen (@nil value)) with 0 in HC. exact HC.
  - pose proof (omap_idx_shift o o vs us [] myidx ws (fun h => h) Hw) as HS. rewrite app_nil_r in HS. exact HS.
Qed.

Definition pretail (all1 : list content) (tail : list content) : Prop :=
  Forall tidy tail /\ (Forall (fun c => indexed_free c = true) tail \/ Forall ofree (all1 ++ tail)) /\ ForallOrdPairs fmc tail /\ Forall (fun x => Forall (fmc x) tail) all1.

Lemma fm_option_l x g : fm (FOption x) g = fm x g. Proof. reflexivity. Qed.

Lemma merge_tail_ok all1 vss1 next tail vss2 : post all1 vss1 next -> dens tail vss2 -> pretail all1 tail ->
  match tail with [] => True | t0 :: _ => needs_simplify t0 || is_union t0 = true end ->
  (sumw (all1 ++ tail) + length tail <= S f)%nat ->
  outcome (all1 ++ tail) (vss1 ++ vss2) (merge_tail narrow rec next tail).
Proof.
  intros HP HD (PT & PO & PP & PA) HT Hf. destruct tail as [|t0 rest].
  { inversion HD; subst. rewrite !app_nil_r. exact HP. }
  destruct HP as (vs & Dn & Pn & Sn). inversion HD as [|? w0 ? vss2' D0 Drest]; subst. pose proof Sn as (T1 & W1 & O1 & U1 & M1).
  inversion PT as [|? ? Tt0 Trest]; subst. inversion PP as [|? ? PF PPrest]; subst. apply Forall_swap in PA. inversion PA as [|? ? PA0 PArest]; subst.
  assert (Hnt0 : fmc next t0) by (apply M1; exact PA0).
  (* what is to be shown of reversed *)
  assert (KEY : forall rev, outcome (all1 ++ [t0]) (vss1 ++ [w0]) rev -> outcome (all1 ++ t0 :: rest) (vss1 ++ w0 :: vss2')
            (let* reversed := rev in match rest with [] => Ok reversed | _ => rec reversed rest end)).
  { intros rev Hrev. eapply outcome_bind; [exact Hrev| |].
    - apply excuse_mono.
      + rewrite !Forall_app. intros [HA HB]. inversion HB; subst. auto.
      + sw. lia.
    - intros r HPr. destruct rest as [|r1 rest'].
      + inversion Drest; subst. exact HPr.
      + destruct HPr as (vr & Dr & Pr & Sr). pose proof Sr as (T2 & W2 & O2 & U2 & M2). set (rest := r1 :: rest') in *.
        assert (HO : outcome (r :: rest) (vr :: vss2') (rec r rest)).
        { apply IHrec.
          - split; [constructor; assumption|]. split; [constructor; assumption|]. split.
            + destruct PO as [PO|PO]; [left; inversion PO; assumption|right]. apply Forall_app in PO as [A1 A2]. inversion A2; subst. constructor; [apply O2; apply Forall_app; split; [exact A1|constructor; [assumption|constructor]]|assumption].
            + constructor; [|assumption]. rewrite Forall_forall in PF, PArest |- *. intros x Hx. apply M2. apply Forall_app. split; [specialize (PArest x Hx); exact PArest|constructor; [apply PF; exact Hx|constructor]].
          - change (length (t0 :: rest)) with (S (length rest)) in Hf. sw. lia. }
        assert (EQ : all1 ++ t0 :: rest = (all1 ++ [t0]) ++ rest) by (rewrite <- app_assoc; reflexivity). rewrite EQ.
        destruct (rec r rest) as [c'| |]; [| |exact HO].
        * destruct HO as (vs' & D' & P' & S'). exists vs'. split; [exact D'|]. split.
          -- replace (concat (vss1 ++ w0 :: vss2')) with (concat (vss1 ++ [w0]) ++ concat vss2') by (rewrite !concat_app; simpl; rewrite app_nil_r, app_assoc; reflexivity).
             eapply prs_trans; [|exact P']. simpl. apply prs_app; [exact Pr|apply prs_refl].
          -- eapply summ_trans; eassumption.
        * simpl in HO |- *. revert HO. apply excuse_mono.
          -- rewrite !Forall_app. intros [HA HB]. constructor; [apply U2; apply Forall_app; exact HA|exact HB].
          -- rewrite sumw_cons, !sumw_app, sumw_cons in *. change (sumw []) with 0%nat in *. lia. }
  unfold merge_tail. apply KEY. clear KEY.
  assert (Hrec1 : forall c' us, den c' = Some us -> tidy c' -> (weight c' < weight t0)%nat -> (indexed_free t0 = true -> indexed_free c' = true) -> (ofree t0 -> ofree c') -> fmc next c' ->
     outcome [next; c'] [vs; us] (rec next [c'])).
  { intros c' us Dc Tc Wc Hic Hoc Hfc. apply IHrec.
    - split; [constructor; [exact Dn|constructor; [exact Dc|constructor]]|]. split; [constructor; [exact T1|constructor; [exact Tc|constructor]]|]. split.
      + destruct PO as [PO|PO]; [left; inversion PO; subst; constructor; [auto|constructor]|right]. apply Forall_app in PO as [A1 A2]. inversion A2; subst. constructor; [auto|constructor; [auto|constructor]].
      + constructor; [constructor; [exact Hfc|constructor]|]. constructor; [constructor|constructor].
    - rewrite sumw_app, sumw_cons in Hf. rewrite !sumw_cons. change (sumw []) with 0%nat. simpl length in *. lia. }
  assert (HIX : forall o myidx c' us, den c' = Some us -> omap (idx o us) myidx = Some w0 -> tidy c' -> weight t0 = S (weight c') -> (indexed_free t0 = true -> indexed_free c' = true) ->
      form_of t0 = (if o then FOption (form_of c') else form_of c') ->
      forall (b : bool), (b = true -> exists x, narrow x = true) ->
      outcome (all1 ++ [t0]) (vss1 ++ [w0])
        (let* content := rec next [c'] in
         let* index := awkward_IndexedArray_fill_count (alloc (length_ next + zlen myidx)) 0 (length_ next) 0 in
         let* index := awkward_IndexedArray_fill index (length_ next) myidx (zlen myidx) (length_ next) in
         if b then Err "unrecognized IndexedArray specialization" else Ok (if o then IndexedOption index content else Indexed index content))).
  { intros o myidx c' us Dc Hw Tc Wt Hic Hform b Hb.
    assert (Hfc : fmc next c'). { unfold fmc in *. rewrite Hform in Hnt0. destruct o; [rewrite fm_option_r in Hnt0|]; exact Hnt0. }
    assert (Hoc : ofree t0 -> ofree c') by (unfold ofree; rewrite Hform; destruct o; simpl; [discriminate|auto]).
    eapply outcome_bind; [apply (Hrec1 c' us); auto; lia| |].
    - apply excuse_mono; [|rewrite !sumw_app, !sumw_cons; change (sumw []) with 0%nat; lia]. rewrite Forall_app. intros [A1 A2]. inversion A2; subst. constructor; [auto|]. constructor; [|constructor].
      unfold ufree in *. rewrite Hform in H1. destruct o; exact H1.
    - intros content (us' & D' & P' & T' & W' & O' & U' & M').
      destruct (reverse_index next vs _ myidx us o w0 (eq_sym (den_length _ _ Dn)) Hw eq_refl) as (r & Er & Hr).
      destruct (awkward_IndexedArray_fill_count (alloc (length_ next + zlen myidx)) 0 (length_ next) 0) as [i1| |]; cbn [bind] in Er |- *; try discriminate. rewrite Er. cbn [bind].
      destruct b; [left; apply Hb; reflexivity|]. simpl in P'. rewrite app_nil_r in P'. destruct (idx_promote rc o _ us' r _ P' Hr) as (vs' & Hv & Pv).
      exists vs'. split; [rewrite (den_idx o r content us' D'); exact Hv|]. split.
      + rewrite concat_app. simpl. rewrite app_nil_r. eapply prs_trans; [apply prs_app; [exact Pn|apply prs_refl]|exact Pv].
      + rewrite !sumw_cons in W'. change (sumw []) with 0%nat in W'. split; [|split; [|split; [|split]]].
        * destruct o; exact T'.
        * rewrite sumw_app, sumw_cons. change (sumw []) with 0%nat. destruct o; simpl; lia.
        * intros HF. apply Forall_app in HF as [A1 A2]. inversion A2 as [|? ? A3 _]; subst. unfold ofree in A3 |- *. rewrite Hform in A3. destruct o; [discriminate|]. simpl. apply O'. constructor; [auto|constructor; [auto|constructor]].
        * intros HF. apply Forall_app in HF as [A1 A2]. inversion A2 as [|? ? A3 _]; subst. unfold ufree in A3 |- *. rewrite Hform in A3. assert (union_free (form_of content) = true).
          { apply U'. constructor; [auto|constructor; [destruct o; exact A3|constructor]]. } destruct o; exact H.
        * intros g HF. apply Forall_app in HF as [A1 A2]. inversion A2 as [|? ? A3 _]; subst. rewrite Hform in A3. assert (fm (form_of content) g = true).
          { apply M'. constructor; [auto|constructor; [destruct o; exact A3|constructor]]. } destruct o; exact H. }
  assert (HMASK : forall t, t = t0 -> (exists m v c', t = ByteMasked m v c') \/ (exists m v l n c', t = BitMasked m v l n c') \/ (exists c', t = Unmasked c') ->
     outcome (all1 ++ [t0]) (vss1 ++ [w0]) (let* o := toIndexedOptionArray64 t in
      match o with
      | IndexedOption index c' => 
          let* content := rec next [c'] in
          let* toindex := awkward_IndexedArray_fill_count (alloc (length_ next + zlen index)) 0 (length_ next) 0 in
          let* toindex := awkward_IndexedArray_fill toindex (length_ next) index (zlen index) (length_ next) in
          Ok (IndexedOption toindex content)
      | _ => UB
      end)).
  { intros t Et Hm. rewrite <- Et in D0. destruct (to_indexed_option t w0 D0 Hm) as (index & c' & E & Di & _). rewrite E. cbn [bind].
    destruct (toindexedoption_shape _ _ E) as (i & Ei). injection Ei as <- Ec.
    cbn [den] in Di. destruct (den c') as [us|] eqn:Dc; [|discriminate].
    apply (HIX true index c' us Dc Di) with (b := false); try discriminate.
    - subst t. destruct Hm as [(? & ? & ? & ->)|[(? & ? & ? & ? & ? & ->)|(? & ->)]]; simpl in Ec; subst; exact Tt0.
    - subst t. destruct Hm as [(? & ? & ? & ->)|[(? & ? & ? & ? & ? & ->)|(? & ->)]]; simpl in Ec; subst; reflexivity.
    - subst t. destruct Hm as [(? & ? & ? & ->)|[(? & ? & ? & ? & ? & ->)|(? & ->)]]; simpl in Ec; subst; auto.
    - subst t. destruct Hm as [(? & ? & ? & ->)|[(? & ? & ? & ? & ? & ->)|(? & ->)]]; simpl in Ec; subst; reflexivity. }
  destruct t0 as [| | | | |index c'|index c'|m v c'|m v l n c'|c'| |tags index cs]; simpl in HT; try discriminate; unfold reverse_merge.
  - cbn [den] in D0. destruct (den c') as [us|] eqn:Dc; [|discriminate]. unfold Indexed_reverse_merge.
    apply (HIX false index c' us Dc D0); [exact Tt0|reflexivity|simpl; discriminate|reflexivity|intros E; eauto].
  - cbn [den] in D0. destruct (den c') as [us|] eqn:Dc; [|discriminate]. unfold Indexed_reverse_merge.
    apply (HIX true index c' us Dc D0); [exact Tt0|reflexivity|simpl; auto|reflexivity|intros E; eauto].
  - apply HMASK; eauto 6.
  - apply HMASK; eauto 8.
  - apply HMASK; eauto 6.
  - clear HIX HMASK Hrec1. cbn [den] in D0. destruct (omap den cs) as [uss|] eqn:Dcs; [|discriminate].
    destruct ((1 <=? zlen cs) && (zlen tags <=? zlen index)) eqn:Ei; [|discriminate]. rewrite (den_length _ _ Dn).
    pose proof (zlen_nonneg vs). pose proof (zlen_nonneg tags).
    destruct (filltags_const_spec [] (alloc (zlen vs + zlen tags)) (zlen vs) 0) as (r1 & E1 & L1); [rewrite zlen_alloc by lia; lia|]. rewrite zlen_alloc in L1 by lia.
    simpl app in E1. change (zlen (@nil Z)) with 0 in E1. rewrite E1. cbn [bind].
    destruct (fillindex_count_spec [] (alloc (zlen vs + zlen tags)) (zlen vs)) as (r2 & E2 & L2); [rewrite zlen_alloc by lia; lia|]. rewrite zlen_alloc in L2 by lia.
    simpl app in E2. change (zlen (@nil Z)) with 0 in E2. rewrite E2. cbn [bind].
    destruct (filltags_spec (map (fun _ => 0) (zseq 0 (zlen vs))) r1 tags 1) as (r3 & E3 & L3); [lia|]. rewrite zlen_map, zlen_zseq in E3 by lia. replace (zlen vs - 0) with (zlen vs) in E3 by lia. rewrite E3. cbn [bind].
    destruct (fillindex_spec (zseq 0 (zlen vs)) r2 index (zlen tags)) as (r4 & E4 & L4); [lia|lia|]. rewrite zlen_zseq in E4 by lia. replace (zlen vs - 0) with (zlen vs) in E4 by lia. rewrite E4. cbn [bind].
    assert (r3 = []) by (apply zlen_0; lia). assert (r4 = []) by (apply zlen_0; lia). subst r3 r4. rewrite !app_nil_r.
    unfold kMaxInt8. destruct (Z.ltb_spec 127 (zlen (next :: cs))) as [Hbig|_].
    { right. split.
      - rewrite Forall_app. intros [_ HF]. inversion HF as [|? ? HU _]; subst. discriminate HU.
      - rewrite sumw_app, sumw_cons. cbn [weight]. fold (sumw cs). pose proof (zlen_sumw cs). rewrite zlen_cons in Hbig. pose proof (weight_pos next). lia. }
    unfold mkUnion. rewrite !zlen_app, !zlen_map, !zlen_slice, !zlen_zseq by lia. destruct (Z.ltb_spec (zlen vs - 0 + (zlen tags - 0)) (zlen vs - 0 + zlen tags)); [lia|].
    exists (vs ++ w0). split; [|split].
    + cbn [den omap]. rewrite Dn, Dcs. rewrite !zlen_app, !zlen_map, !zlen_slice, !zlen_zseq, zlen_cons by lia.
      destruct ((1 <=? zlen cs + 1) && (zlen vs - 0 + zlen tags <=? zlen vs - 0 + (zlen tags - 0))) eqn:EE; [|lia].
      assert (HCL : forall {A B} (a a' : list A) (b b' : list B), zlen a = zlen b -> combine (a ++ a') (b ++ b') = combine a b ++ combine a' b').
      { clear. intros A B a. induction a as [|x a IH]; intros a' b b' HL; destruct b as [|y b]; rewrite ?zlen_cons in HL; try reflexivity; try (change (zlen (@nil A)) with 0 in HL; pose proof (zlen_nonneg b); lia);
          try (change (zlen (@nil B)) with 0 in HL; pose proof (zlen_nonneg a); lia). simpl. rewrite IH by lia. reflexivity. }
      rewrite HCL by (rewrite zlen_map; reflexivity). apply omap_F. apply Forall2_app; apply omap_F.
      * transitivity (omap (nthZ vs) (zseq 0 (zlen vs))); [|rewrite omap_nthZ_zseq by lia; f_equal; apply slice_full].
        clear. induction (zseq 0 (zlen vs)) as [|z l IH]; [reflexivity|]. cbn [map combine omap]. rewrite IH. rewrite nthZ_cons. reflexivity.
      * assert (HC : combine (map (fun t => t + 1) tags) (slice 0 (zlen tags) index) = map (fun ti => (fst ti + 1, snd ti)) (combine tags index)).
        { clear - Ei. assert (HX : combine tags (slice 0 (zlen tags) index) = combine tags index).
          { replace tags with (slice 0 (zlen tags) tags) at 1 by apply slice_full. rewrite combine_slice by lia. apply slice_full'. rewrite zlen_combine_le by lia. reflexivity. }
          rewrite <- HX. generalize (slice 0 (zlen tags) index). clear. intros l. revert l. induction tags as [|t tags IH]; intros [|x l]; simpl; try reflexivity. rewrite IH. reflexivity. }
        rewrite HC, omap_map. rewrite <- D0. apply omap_ext. intros [t i] Hin. cbn [fst snd]. rewrite nthZ_cons.
        destruct (Z.eqb_spec (t + 1) 0) as [E0|]; [|replace (t + 1 - 1) with t by lia; reflexivity].
        exfalso. destruct (omap_in _ _ _ _ D0 Hin) as (y & Hy & _). cbn [fst snd] in Hy. rewrite nthZ_neg in Hy by lia. discriminate.
    + rewrite concat_app. simpl. rewrite app_nil_r. apply prs_app; [exact Pn|apply prs_refl].
    + split; [|split; [|split; [|split]]].
      * apply tidy_union in Tt0. apply tidy_union. constructor; assumption.
      * rewrite sumw_app, sumw_cons. change (sumw []) with 0%nat. cbn [weight]. fold (sumw cs). change (list_sum (map weight (next :: cs))) with (weight next + sumw cs)%nat. lia.
      * intros HF. apply Forall_app in HF as [A1 A2]. inversion A2 as [|? ? A3 _]; subst. unfold ofree in *. cbn [form_of map option_free forallb] in *. rewrite (O1 A1). exact A3.
      * intros HF. apply Forall_app in HF as [A1 A2]. inversion A2 as [|? ? A3 _]; subst. discriminate A3.
      * intros g HF. reflexivity.
Qed.
End Rec.
End PM.
