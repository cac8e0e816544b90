(** Slicing, taking and the conversions keep arrays tidy and do not make them heavier. *)
From Verif Require Import Base BaseLemmas OmapLemmas LoopLemmas Content SpecArray SpecForm SpecMerge KCore Core KConvert Convert KOption Option
  PCore PCarry PList PConvert POption PForm.

Lemma tidy_all cs : fold_right and True (map tidy cs) <-> Forall tidy cs.
Proof. induction cs as [|c cs IH]; simpl; [split; auto|]. rewrite IH. split; [intros []; constructor; assumption|intros H; inversion H; auto]. Qed.
Lemma tidy_record keys len cs : tidy (Record keys len cs) <->
  cs <> [] /\ match keys with Some ks => NoDup ks | None => True end /\ Forall (fun c => length_ c = len) cs /\ Forall tidy cs.
Proof. cbn [tidy]. rewrite tidy_all. reflexivity. Qed.
Lemma tidy_union t i cs : tidy (Union t i cs) <-> Forall tidy cs.
Proof. cbn [tidy]. apply tidy_all. Qed.

(** fields of a record array that has a meaning *)
Lemma record_den keys len cs vs : den (Record keys len cs) = Some vs ->
  exists vss, omap den cs = Some vss /\ 0 <= len /\ keys_ok keys (zlen cs) = true /\ omap (fun i => option_map (mkrow keys) (omap (fun vs => nthZ vs i) vss)) (zseq 0 len) = Some vs.
Proof.
  cbn [den]. destruct (omap den cs) as [vss|]; [|discriminate]. destruct ((0 <=? len) && keys_ok keys (zlen cs)) eqn:E; [|discriminate].
  apply andb_true_iff in E as [A B]. intros H. exists vss. repeat split; auto. lia.
Qed.
Lemma omap_in {A B} (f : A -> option B) l ys x : omap f l = Some ys -> In x l -> exists y, f x = Some y /\ In y ys.
Proof.
  revert ys; induction l as [|a l IH]; intros ys H Hin; [destruct Hin|]. simpl in H. destruct (f a) as [y|] eqn:E; [|discriminate]. destruct (omap f l) as [ys'|]; [|discriminate].
  injection H as <-. destruct Hin as [->|Hin]; [exists y; split; [exact E|left; reflexivity]|]. destruct (IH ys' eq_refl Hin) as (y' & A1 & A2). exists y'; split; [exact A1|right; exact A2].
Qed.
Lemma omap_F {A B} (f : A -> option B) l ys : omap f l = Some ys <-> Forall2 (fun x y => f x = Some y) l ys.
Proof.
  revert ys; induction l as [|a l IH]; intros ys; simpl.
  - split; [intros H; injection H as <-; constructor|intros H; inversion H; reflexivity].
  - split.
    + destruct (f a) as [y|] eqn:E; [|discriminate]. destruct (omap f l) as [ys'|]; [|discriminate]. intros H; injection H as <-. constructor; [exact E|]. apply IH; reflexivity.
    + intros H; inversion H; subst. rewrite H2. apply IH in H4. rewrite H4. reflexivity.
Qed.
Lemma mapres_in {A B} (f : A -> res B) l l' y : mapres f l = Ok l' -> In y l' -> exists x, In x l /\ f x = Ok y.
Proof.
  revert l'; induction l as [|a l IH]; intros l' H Hin; simpl in H; [injection H as <-; destruct Hin|]. binv H. injection H as <-.
  destruct Hin as [->|Hin]; [exists a; split; [left; reflexivity|assumption]|]. destruct (IH _ E0 Hin) as (x & A1 & A2). exists x; split; [right; exact A1|exact A2].
Qed.
Lemma mapres_nil {A B} (f : A -> res B) l : mapres f l = Ok [] -> l = [].
Proof. destruct l; [reflexivity|]. simpl. intros H; binv H. discriminate. Qed.

Lemma range_length c vs a b c' : den c = Some vs -> 0 <= a <= b -> b <= zlen vs -> getitem_range_nowrap c a b = Ok c' -> length_ c' = b - a.
Proof.
  intros H1 H2 H3 H4. destruct (range_den c vs a b H1 H2 H3) as (c'' & E & D). rewrite H4 in E. injection E as <-. rewrite (den_length _ _ D). apply zlen_slice; lia.
Qed.
Lemma carry_length c vs cry vs' lz c' : den c = Some vs -> omap (nthZ vs) cry = Some vs' -> carry c cry lz = Ok c' -> length_ c' = zlen cry.
Proof.
  intros H1 H2 H3. destruct (carry_den c vs cry vs' lz H1 H2) as (c'' & E & D). rewrite H3 in E. injection E as <-. rewrite (den_length _ _ D).
  apply omap_F in H2. clear - H2. induction H2; [reflexivity|]. rewrite !zlen_cons. lia.
Qed.

Lemma range_tidy c : forall vs a b c', den c = Some vs -> 0 <= a <= b -> b <= zlen vs -> tidy c -> getitem_range_nowrap c a b = Ok c' -> tidy c'.
Proof.
  induction c using content_ind'; intros vs a b c' Hd Hab Hb Ht H0.
  - simpl in H0; binv H0; injection H0 as <-; exact I.
  - simpl in H0; binv H0; injection H0 as <-; exact I.
  - simpl in H0; binv H0; mkinv H0; subst; exact Ht.
  - simpl in H0; binv H0; mkinv H0; subst; exact Ht.
  - pose proof (den_length _ _ Hd) as HL. destruct (regular_inv _ _ _ _ Hd) as (ws & segs & Dc & Hs & -> & Hk & Hi & Hz & Hp). rewrite zlen_map in Hb, HL.
    simpl in H0; binv H0. mkinv H0; subst. simpl. eapply IHc; [exact Dc| | |exact Ht|exact E]; [nia|].
    destruct (Z.eq_dec size 0) as [->|]; [pose proof (zlen_nonneg ws); lia|]. rewrite Hp in Hb by lia. nia.
  - simpl in H0; binv H0. injection H0 as <-. exact Ht.
  - simpl in H0; binv H0. injection H0 as <-. exact Ht.
  - cbn [den] in Hd. destruct (den c) as [ws|] eqn:Dc; [|discriminate]. destruct (Z.leb_spec (zlen mask) (zlen ws)) as [Hl|]; [|discriminate]. injection Hd as <-.
    rewrite zlen_map, zlen_combine_le in Hb by lia. simpl in H0; binv H0. mkinv H0; subst. simpl. eapply IHc; [reflexivity| | |exact Ht|eassumption]; lia.
  - destruct (bitmasked_den _ _ _ _ _ _ Hd) as [HL Hd2]. cbn [den] in Hd. destruct (den c) as [ws|] eqn:Dc; [|discriminate].
    destruct ((0 <=? len) && (len <=? zlen ws) && (len <=? 8 * zlen mask)) eqn:EE; [|discriminate].
    assert (zlen vs = len). { apply omap_F in Hd. assert (zlen (zseq 0 len) = zlen vs) by (clear - Hd; induction Hd; [reflexivity|rewrite !zlen_cons; lia]). rewrite zlen_zseq in H by lia. lia. }
    simpl in H0; binv H0. mkinv H0; subst. simpl. eapply IHc; [reflexivity| | |exact Ht|eassumption]; lia.
  - simpl in H0; binv H0. injection H0 as <-. simpl. eapply IHc; eassumption.
  - destruct (record_den _ _ _ _ Hd) as (vss & Dcs & Hlen & Hk & Hrows).
    assert (HL : zlen vs = len). { apply omap_F in Hrows. assert (zlen (zseq 0 len) = zlen vs) by (clear - Hrows; induction Hrows; [reflexivity|rewrite !zlen_cons; lia]). rewrite zlen_zseq in H1 by lia. lia. }
    apply tidy_record in Ht as (T1 & T2 & T3 & T4). cbn [getitem_range_nowrap] in H0.
    destruct cs as [|c0 cs]; [congruence|]. binv H0; [injection H0 as <-; apply tidy_record; auto|]. mkinv H0; subst.
    apply tidy_record. split; [|split; [exact T2|]].
    + intros ->. apply mapres_nil in E. discriminate.
    + split; rewrite Forall_forall; intros y Hy; destruct (mapres_in _ _ _ _ E Hy) as (x & Hx & Ex); destruct (omap_in _ _ _ _ Dcs Hx) as (w & Dw & _);
        rewrite Forall_forall in T3, T4, H; assert (zlen w = zlen vs) by (rewrite <- (den_length _ _ Dw); apply T3; exact Hx).
      * eapply range_length; [exact Dw| | |exact Ex]; lia.
      * eapply (H x Hx); [exact Dw| | |apply T4; exact Hx|exact Ex]; lia.
  - simpl in H0; binv H0. mkinv H0; subst. exact Ht.
Qed.

Lemma contiguous_tidy c vs cry vs' k c' : den c = Some vs -> omap (nthZ vs) cry = Some vs' -> tidy c -> carry_contiguous c cry k = Ok c' -> (k tt = Ok c' -> tidy c') -> tidy c'.
Proof.
  unfold carry_contiguous; intros Hd Ho Ht H Hk.
  destruct (iscontiguous_spec cry) as (b & Eb & Hb). rewrite Eb in H. cbn [bind] in H. destruct b; [|apply Hk; exact H].
  assert (Hc : cry = zseq 0 (zlen cry)) by (apply Hb; reflexivity). destruct (zlen cry =? length_ c) eqn:EL; [injection H as <-; exact Ht|].
  assert (zlen cry <= zlen vs). { destruct (Z.eq_dec (zlen cry) 0); [pose proof (zlen_nonneg vs); lia|]. pose proof (zlen_nonneg cry).
    assert (In (zlen cry - 1) cry) by (rewrite Hc; apply In_zseq; rewrite <- Hc; lia). pose proof (omap_nthZ_range vs cry vs' Ho _ H1). lia. }
  pose proof (zlen_nonneg cry). eapply range_tidy; [exact Hd| | |exact Ht|exact H]; lia.
Qed.

Lemma map_nth_combine {A B C} (f : A -> B -> C) (a : list A) (b : list B) cry r : omap (nthZ (map (fun p => f (fst p) (snd p)) (combine a b))) cry = Some r ->
  exists b', omap (nthZ b) cry = Some b'.
Proof.
  intros H. apply omap_nthZ_total. intros i Hi. pose proof (omap_nthZ_range _ _ _ H i Hi) as HR. rewrite zlen_map in HR.
  destruct (nthZ_lt _ _ HR) as (x & Hx). rewrite nthZ_combine in Hx. destruct (nthZ a i); [|discriminate]. destruct (nthZ b i) eqn:E; [|discriminate].
  apply nthZ_Some in E. exact E.
Qed.
Lemma carry_tidy c : forall vs cry vs' lz c', den c = Some vs -> omap (nthZ vs) cry = Some vs' -> tidy c -> carry c cry lz = Ok c' -> tidy c'.
Proof.
  induction c using content_ind'; intros vs cry vs' lz c' Hd Ho Ht H0; cbn [carry] in H0;
    try (eapply contiguous_tidy; [exact Hd|exact Ho|exact Ht|exact H0|clear H0; intros H0; cbv beta in H0]).
  - binv H0; injection H0 as <-; exact I.
  - binv H0; injection H0 as <-; exact I.
  - binv H0; mkinv H0; subst; exact Ht.
  - binv H0; mkinv H0; subst; exact Ht.
  - destruct (regular_inv _ _ _ _ Hd) as (ws & segs & Dc & Hs & -> & Hk & Hi & Hz & Hp).
    rewrite regular_nextcarry in H0; [|exact Hs|reflexivity|rewrite zlen_alloc by (pose proof (zlen_nonneg cry); nia); reflexivity].
    cbn [bind] in H0. binv H0. mkinv H0; subst. simpl.
    assert (HX : exists r, omap (nthZ ws) (concat (map (fun c1 => zseq (c1 * size) ((c1 + 1) * size)) cry)) = Some r).
    { apply omap_nthZ_total. intros i Hin. apply in_concat in Hin as (x & Hx & Hix). apply in_map_iff in Hx as (k & <- & Hk'). apply In_zseq in Hix.
      pose proof (omap_nthZ_range _ _ _ Ho k Hk') as HR. rewrite zlen_map in HR. destruct (nthZ_lt _ _ HR) as (l & Hl). destruct (Hi _ _ Hl). nia. }
    destruct HX as (r & Hr). eapply IHc; [exact Dc|exact Hr|exact Ht|eassumption].
  - binv H0. injection H0 as <-. exact Ht.
  - binv H0. injection H0 as <-. exact Ht.
  - cbn [den] in Hd. destruct (den c) as [ws|] eqn:Dc; [|discriminate]. destruct (Z.leb_spec (zlen mask) (zlen ws)) as [Hl|]; [|discriminate]. injection Hd as <-.
    binv H0. mkinv H0; subst. simpl. destruct (map_nth_combine (fun m v => if Bool.eqb (negb (m =? 0)) vw then v else VNone) _ _ _ _ Ho) as (b' & Hb').
    eapply IHc; [reflexivity|exact Hb'|exact Ht|eassumption].
  - destruct (bitmasked_den _ _ _ _ _ _ Hd) as [HL Hd2]. rewrite bytemask0_spec in H0 by exact HL. cbn [bind] in H0.
    destruct (mkByteMasked (map (fun i : Z => b2z (maskval mask lsb i)) (zseq 0 len)) vw c); [|discriminate|discriminate]. cbn [bind] in H0.
    eapply (contiguous_tidy (ByteMasked _ vw c)); [exact Hd2|exact Ho|exact Ht|exact H0|clear H0; intros H0; cbv beta in H0].
    cbn [den] in Hd2. destruct (den c) as [ws|] eqn:Dc; [|discriminate]. destruct (_ <=? zlen ws); [|discriminate]. injection Hd2 as <-.
    binv H0. mkinv H0; subst. simpl. destruct (map_nth_combine (fun m v => if Bool.eqb (negb (m =? 0)) vw then v else VNone) _ _ _ _ Ho) as (b' & Hb').
    eapply IHc; [reflexivity|exact Hb'|exact Ht|eassumption].
  - binv H0. injection H0 as <-. simpl. eapply IHc; eassumption.
  - binv H0; [injection H0 as <-; exact Ht|].
    eapply contiguous_tidy; [exact Hd|exact Ho|exact Ht|exact H0|clear H0; intros H0; cbv beta in H0]. binv H0. mkinv H0; subst.
    destruct (record_den _ _ _ _ Hd) as (vss & Dcs & Hlen & Hk & Hrows).
    assert (HL : zlen vs = len). { apply omap_F in Hrows. assert (HZ : zlen (zseq 0 len) = zlen vs) by (clear - Hrows; induction Hrows; [reflexivity|rewrite !zlen_cons; lia]). rewrite zlen_zseq in HZ by lia. lia. }
    apply tidy_record in Ht as (T1 & T2 & T3 & T4). apply tidy_record. split; [|split; [exact T2|]].
    + intros ->. apply mapres_nil in E. congruence.
    + rewrite Forall_forall in T3, T4, H.
      assert (HC : forall x, In x cs -> exists w r, den x = Some w /\ omap (nthZ w) cry = Some r).
      { intros x Hx. destruct (omap_in _ _ _ _ Dcs Hx) as (w & Dw & _). exists w. assert (zlen w = zlen vs) by (rewrite <- (den_length _ _ Dw), HL; apply T3; exact Hx).
        destruct (omap_nthZ_total w cry) as (r & Hr); [|exists r; auto]. intros i Hin. rewrite H0. eapply omap_nthZ_range; eassumption. }
      split; rewrite Forall_forall; intros y Hy; destruct (mapres_in _ _ _ _ E Hy) as (x & Hx & Ex); destruct (HC x Hx) as (w & r & Dw & Hr).
      * eapply carry_length; eassumption.
      * eapply (H x Hx); [exact Dw|exact Hr|apply T4; exact Hx|exact Ex].
  - binv H0. mkinv H0; subst. exact Ht.
Qed.

(** weights *)
Lemma mapres_weight (f : content -> res content) cs cs' : Forall (fun c => forall c', f c = Ok c' -> weight c' = weight c) cs -> mapres f cs = Ok cs' -> map weight cs' = map weight cs.
Proof.
  intros HF; revert cs'; induction HF as [|c cs Hc _ IH]; intros cs' H; simpl in H; [injection H as <-; reflexivity|].
  binv H. injection H as <-. simpl. rewrite (Hc _ E), (IH _ E0). reflexivity.
Qed.
Lemma range_weight c : forall a b c', getitem_range_nowrap c a b = Ok c' -> weight c' = weight c.
Proof.
  induction c using content_ind'; intros a b c' H0; simpl in H0; binv H0; try (mkinv H0; subst; reflexivity); try (injection H0 as <-; reflexivity);
    try (mkinv H0; subst; simpl; erewrite IHc by eassumption; reflexivity).
  - destruct cs as [|c0 cs]; [mkinv H0; subst; reflexivity|]. binv H0; [injection H0 as <-; reflexivity|]. mkinv H0; subst. cbn [weight].
    erewrite (mapres_weight _ (c0 :: cs)); [reflexivity| |exact E]. eapply Forall_impl; [|exact H]. intros c Hc c' Hc'. eapply Hc; exact Hc'.
Qed.
Lemma contiguous_weight c cry k c' n : carry_contiguous c cry k = Ok c' -> (weight c <= n)%nat -> (k tt = Ok c' -> (weight c' <= n)%nat) -> (weight c' <= n)%nat.
Proof.
  unfold carry_contiguous; intros H Hn Hk. binv H.
  - injection H as <-. exact Hn.
  - rewrite (range_weight _ _ _ _ H). exact Hn.
  - auto.
Qed.
(** an eager carry keeps the weight, a lazy one adds at most one node *)
Lemma carry_weight_eager c : forall cry c', carry c cry false = Ok c' -> (weight c' <= weight c)%nat.
Proof.
  induction c using content_ind'; intros cry c' H0; cbn [carry] in H0;
    try (eapply contiguous_weight; [exact H0|apply le_n|clear H0; intros H0; cbv beta in H0]); binv H0; try (mkinv H0; subst; simpl; lia); try (injection H0 as <-; simpl; lia).
  - mkinv H0; subst. simpl. match goal with E : carry _ _ _ = Ok _ |- _ => apply IHc in E end. lia.
  - mkinv H0; subst. simpl. match goal with E : carry _ _ _ = Ok _ |- _ => apply IHc in E end. lia.
  - eapply contiguous_weight; [exact H0|simpl; lia|clear H0; intros H0; cbv beta in H0]. binv H0. mkinv H0; subst. simpl. match goal with E : carry _ _ _ = Ok _ |- _ => apply IHc in E end. lia.
  - injection H0 as <-. simpl. match goal with E : carry _ _ _ = Ok _ |- _ => apply IHc in E end. lia.
  - mkinv H0; subst. cbn [weight].
    clear - H E. revert a E. induction H as [|c cs Hc HF IH]; intros l E; simpl in E; [injection E as <-; simpl; lia|]. binv E. injection E as <-. apply Hc in E0. specialize (IH _ E1). simpl in *. lia.
Qed.

Lemma carry_weight_lazy c : forall cry c', carry c cry true = Ok c' -> (weight c' <= S (weight c))%nat.
Proof.
  induction c using content_ind'; intros cry c' H0; cbn [carry] in H0;
    try (eapply contiguous_weight; [exact H0|apply le_S, le_n|clear H0; intros H0; cbv beta in H0]); binv H0; try (mkinv H0; subst; simpl; lia); try (injection H0 as <-; simpl; lia).
  - mkinv H0; subst. simpl. match goal with E : carry _ _ _ = Ok _ |- _ => apply IHc in E end. lia.
  - mkinv H0; subst. simpl. match goal with E : carry _ _ _ = Ok _ |- _ => apply IHc in E end. lia.
  - eapply contiguous_weight; [exact H0|simpl; lia|clear H0; intros H0; cbv beta in H0]. binv H0. mkinv H0; subst. simpl. match goal with E : carry _ _ _ = Ok _ |- _ => apply IHc in E end. lia.
  - injection H0 as <-. simpl. match goal with E : carry _ _ _ = Ok _ |- _ => apply IHc in E end. lia.
Qed.
Lemma weight_pos c : (1 <= weight c)%nat.
Proof. destruct c; simpl; lia. Qed.

(** slices have no new IndexedArray *)
Lemma range_indexed_free c : forall a b c', getitem_range_nowrap c a b = Ok c' -> indexed_free c' = indexed_free c.
Proof.
  induction c using content_ind'; intros a b c' H0; simpl in H0; binv H0; try (mkinv H0; subst; reflexivity); try (injection H0 as <-; reflexivity);
    try (mkinv H0; subst; simpl; eapply IHc; eassumption).
  - destruct cs as [|c0 cs]; [mkinv H0; subst; reflexivity|]. binv H0; [injection H0 as <-; reflexivity|]. mkinv H0; subst. cbn [indexed_free].
    clear - H E. remember (c0 :: cs) as l eqn:El. clear El. revert a0 E. induction H as [|x l Hx HF IH]; intros l' E; simpl in E; [injection E as <-; reflexivity|].
    binv E. injection E as <-. simpl. rewrite (Hx _ _ _ E0), (IH _ E1). reflexivity.
Qed.
