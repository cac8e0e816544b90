(** Ranges and selections of an array with identities. *)
From Verif Require Import Base BaseLemmas KRange Content KCore Core SpecArray OmapLemmas PCore PCarry Merge Identities SpecIdentities
  PIdentities PIdentities2 PIdentities3 PIdentities4 PIdentities5.
Local Open Scope string_scope.
Local Open Scope list_scope.
Local Open Scope Z_scope.

Definition Range_ok (c : content) : Prop := forall must vs t F a b,
  den c = Some vs -> fits must c t -> bears c t F -> straight c = true -> 0 <= a <= b -> b <= zlen vs ->
  exists c' t', getitem_range_nowrap c a b = Ok c' /\ range_ids c t a b = Ok t' /\ den c' = Some (slice a b vs) /\
    fits must c' t' /\ bears c' t' (shift a b F) /\ straight c' = true.

(** a node whose children are not sliced *)
Lemma range_same_children must c c' own subs F vs a b :
  den c = Some vs -> 0 <= a <= b -> b <= zlen vs -> fits must c (Node own subs) -> bears c (Node own subs) F ->
  getitem_range_nowrap c a b = Ok c' -> (forall k, child c' k = child c k) ->
  (forall k i s r, 0 <= i < b - a -> into c' k i s = Some (r, []) -> into c k (a + i) s = Some (r, [])) ->
  length_ c' = b - a ->
  exists o, orange own a b = Ok o /\ fits must c' (Node o subs) /\ bears c' (Node o subs) (shift a b F).
Proof.
  intros Hd Ha Hb Hf Hbe Er Hc Hin Hl. pose proof (fits_inv _ _ _ _ Hf) as (Ho & _). pose proof (proj1 (bears_node _ _ _ _) Hbe) as (Hob & _).
  rewrite (den_length _ _ Hd) in Ho.
  destruct (orange_ok _ own _ a b F Ho Hob Ha Hb) as (o & Eo & Ho' & Hob'). exists o. split; [exact Eo|].
  apply (same_children must c c' own subs o F); auto.
  - rewrite Hl. exact Ho'.
  - intros k i q s r (Hi & HF) Hinto. exists (a + i). split; [exact HF|]. apply Hin; assumption.
Qed.
Lemma nth_slice_shift {A} a b (l : list A) i : 0 <= a -> b <= zlen l -> 0 <= i < b - a -> nthZ (slice a b l) i = nthZ l (a + i).
Proof. intros. rewrite nthZ_slice by lia. reflexivity. Qed.

(** option types that line up with their content *)
Lemma range_one_child must c c' d d' own subs F vs ws a b :
  den c = Some vs -> den d = Some ws -> zlen vs <= zlen ws -> 0 <= a <= b -> b <= zlen vs ->
  fits must c (Node own subs) -> bears c (Node own subs) F -> Range_ok d -> straight d = true ->
  (forall k, child c k = if k =? 0 then Some d else None) ->
  (forall i s, into c 0 i s = if (0 <=? i) && (i <? length_ c) then Some (i, s) else None) ->
  getitem_range_nowrap d a b = Ok d' -> length_ c' = b - a ->
  (forall k, child c' k = if k =? 0 then Some d' else None) ->
  (forall i s, into c' 0 i s = if (0 <=? i) && (i <? length_ c') then Some (i, s) else None) ->
  exists o s s', orange own a b = Ok o /\ sub0 subs = Ok s /\ range_ids d s a b = Ok s' /\ straight d' = true /\
     fits must c' (Node o [s']) /\ bears c' (Node o [s']) (shift a b F).
Proof.
  intros Hd Hdd Hle Ha Hb Hf Hbe IH Hst Hch Hin Er Hl Hch' Hin'.
  pose proof (fits_inv _ _ _ _ Hf) as (Ho & _). pose proof (proj1 (bears_node _ _ _ _) Hbe) as (Hob & _). rewrite (den_length _ _ Hd) in Ho.
  destruct (orange_ok _ own _ a b F Ho Hob Ha Hb) as (o & Eo & Ho' & Hob').
  destruct (one_sub _ _ _ _ _ _ Hch Hf Hbe) as (s & Es & Hfs & Hbs).
  destruct (IH must _ _ _ a b Hdd Hfs Hbs Hst Ha) as (d2 & s' & E1 & E2 & E3 & E4 & E5 & E6); [lia|]. rewrite Er in E1. injection E1 as <-.
  exists o, s, s'. split; [exact Eo|]. split; [exact Es|]. split; [exact E2|]. split; [exact E6|].
  apply (new_child must c' d' s' o _ _ Hch' E4 E5); [rewrite Hl; exact Ho'|exact Hob'|].
  intros r q (i & q0 & s0 & (Hi & HF) & Hi0 & ->). rewrite Hin', Hl in Hi0.
  destruct (Z.leb_spec 0 i), (Z.ltb_spec i (b - a)); try lia. cbn [andb] in Hi0. injection Hi0 as <- ->.
  split; [exact Hi|]. exists (a + i), q0, []. split; [exact HF|]. split; [|reflexivity]. rewrite Hin, (den_length _ _ Hd).
  destruct (Z.leb_spec 0 (a + i)), (Z.ltb_spec (a + i) (zlen vs)); try lia. reflexivity.
Qed.

Lemma record_fields keys len cs vs : den (Record keys len cs) = Some vs ->
  exists vss, omap den cs = Some vss /\ 0 <= len /\ keys_ok keys (zlen cs) = true /\
    forall v, In v vss -> len <= zlen v \/ len = 0.
Proof.
  intros Hd. pose proof (den_length _ _ Hd) as HL. cbn [length_] in HL. cbn [den] in Hd.
  destruct (omap den cs) as [vss|] eqn:Ecs; [|discriminate].
  destruct (Z.leb_spec 0 len); [|discriminate]. destruct (keys_ok keys (zlen cs)) eqn:Ek; [|discriminate]. cbn [andb] in Hd.
  exists vss. repeat split; try assumption; try reflexivity.
  intros v Hv; destruct (Z.eqb_spec len 0); [now right|left];
           destruct (omap_nth _ _ _ (len - 1) (len - 1) Hd) as [_ [y Hy]]; [rewrite nthZ_zseq by lia; f_equal; lia|];
           destruct (omap (fun vs => nthZ vs (len - 1)) vss) as [row|] eqn:Er; [|discriminate];
           destruct (omap_In _ _ _ _ Er Hv) as (z & Hz & _); apply nthZ_Some in Hz; lia.
Qed.
Lemma mk_record keys n (cs cs' : list content) : keys_ok keys (zlen cs) = true -> zlen cs' = zlen cs -> mkRecord keys n cs' = Ok (Record keys n cs').
Proof. intros Ek Hl. unfold mkRecord. destruct keys as [ks|]; [|reflexivity]. cbn [keys_ok] in Ek. rewrite Hl, Ek. reflexivity. Qed.

Theorem range_ids_ok c : Range_ok c.
Proof.
  induction c using content_ind'; intros must vs [own subs] F a b Hd Hf Hbe Hst Ha Hb;
    pose proof (fits_inv _ _ _ _ Hf) as (Ho & _); pose proof (proj1 (bears_node _ _ _ _) Hbe) as (Hob & _);
    destruct (range_den _ _ _ _ Hd Ha Hb) as (c' & Er & Hd'); pose proof (den_length _ _ Hd) as HL;
    pose proof (den_length _ _ Hd') as HL'; rewrite zlen_slice in HL' by lia.
  - (* Empty *) cbn in Er. injection Er as <-. cbn in HL, HL'. exists Empty, (Node own subs). assert (a = 0 /\ b = 0) as (-> & ->) by lia.
    split; [reflexivity|]. split; [reflexivity|]. split; [exact Hd'|]. split; [exact Hf|]. split; [|reflexivity].
    apply (bears_mono _ _ F); [|exact Hbe]. intros i q (Hi & _). lia.
  - (* Numpy *)
    destruct (range_same_children must (Numpy dt data) c' own subs F vs a b) as (o & Eo & H1 & H2); auto.
    { cbn in Er. rewrite view_Ok in Er by (cbn in HL; lia). cbn in Er. injection Er as <-. reflexivity. }
    { cbn in Er. rewrite view_Ok in Er by (cbn in HL; lia). cbn in Er. injection Er as <-. intros k i s r _ [=]. }
    exists c', (Node o subs). split; [exact Er|]. split.
    { cbn [range_ids]. destruct own as [idn|].
      - destruct (proj2 Ho idn eq_refl) as (_ & El). destruct (Z.ltb_spec (ilen idn) b); [lia|]. rewrite Eo. reflexivity.
      - cbn in Eo. injection Eo as <-. reflexivity. }
    split; [exact Hd'|]. split; [exact H1|]. split; [exact H2|].
    cbn in Er. rewrite view_Ok in Er by (cbn in HL; lia). cbn in Er. injection Er as <-. reflexivity.
  - (* ListA *)
    pose proof Er as Er0. cbn [getitem_range_nowrap] in Er. cbn [length_] in HL.
    assert (zlen starts <= zlen stops).
    { cbn [den] in Hd. destruct (den c); [|discriminate]. destruct (Z.leb_spec (zlen starts) (zlen stops)); [assumption|discriminate]. }
    rewrite !iview_Ok in Er by lia. cbn [bind] in Er. unfold mkListA in Er. rewrite !zlen_slice in Er by lia.
    destruct (Z.ltb_spec (b - a) (b - a)); [lia|]. injection Er as <-.
    edestruct (range_same_children must (ListA starts stops c)) as (o & Eo & H1 & H2); [exact Hd|exact Ha|exact Hb|exact Hf|exact Hbe|exact Er0|reflexivity| |exact HL'|].
    { intros k i s r Hi. cbn [into]. rewrite !nth_slice_shift by lia. auto. }
    eexists; exists (Node o subs). split; [exact Er0|]. cbn [range_ids]. rewrite Eo. cbn [bind]. auto 10.
  - (* ListOffset *)
    pose proof Er as Er0. cbn [getitem_range_nowrap] in Er. cbn [length_] in HL.
    rewrite !iview_Ok in Er by lia. cbn [bind] in Er. unfold mkListOffset in Er. rewrite !zlen_slice in Er by lia.
    destruct (Z.eqb_spec (b + 1 - a) 0); [lia|]. injection Er as <-.
    edestruct (range_same_children must (ListOffset offsets c)) as (o & Eo & H1 & H2); [exact Hd|exact Ha|exact Hb|exact Hf|exact Hbe|exact Er0|reflexivity| |exact HL'|].
    { intros k i s r Hi. cbn [into]. rewrite !nth_slice_shift by lia. rewrite Z.add_assoc. auto. }
    eexists; exists (Node o subs). split; [exact Er0|]. cbn [range_ids]. rewrite Eo. cbn [bind]. auto 10.
  - discriminate.
  - (* Indexed *)
    pose proof Er as Er0. cbn [getitem_range_nowrap] in Er. cbn [length_] in HL.
    rewrite !iview_Ok in Er by lia. cbn [bind] in Er. injection Er as <-.
    edestruct (range_same_children must (Indexed index c)) as (o & Eo & H1 & H2); [exact Hd|exact Ha|exact Hb|exact Hf|exact Hbe|exact Er0|reflexivity| |exact HL'|].
    { intros k i s r Hi. cbn [into]. rewrite !nth_slice_shift by lia. auto. }
    eexists; exists (Node o subs). split; [exact Er0|]. cbn [range_ids]. rewrite Eo. cbn [bind]. auto 10.
  - (* IndexedOption *)
    pose proof Er as Er0. cbn [getitem_range_nowrap] in Er. cbn [length_] in HL.
    rewrite !iview_Ok in Er by lia. cbn [bind] in Er. injection Er as <-.
    edestruct (range_same_children must (IndexedOption index c)) as (o & Eo & H1 & H2); [exact Hd|exact Ha|exact Hb|exact Hf|exact Hbe|exact Er0|reflexivity| |exact HL'|].
    { intros k i s r Hi. cbn [into]. rewrite !nth_slice_shift by lia. auto. }
    eexists; exists (Node o subs). split; [exact Er0|]. cbn [range_ids]. rewrite Eo. cbn [bind]. auto 10.
  - (* ByteMasked *)
    pose proof Er as Er0. cbn [getitem_range_nowrap] in Er. cbn [length_] in HL.
    assert (exists ws, den c = Some ws /\ zlen mask <= zlen ws) as (ws & Ec & Hws).
    { cbn [den] in Hd. destruct (den c) as [ws|]; [|discriminate]. destruct (Z.leb_spec (zlen mask) (zlen ws)); [eauto|discriminate]. }
    rewrite iview_Ok in Er by lia. cbn [bind] in Er.
    destruct (range_den _ _ a b Ec Ha ltac:(lia)) as (d' & Erd & Hdd). rewrite Erd in Er. cbn [bind] in Er. unfold mkByteMasked in Er.
    destruct (_ <? _) in Er; [discriminate|]. injection Er as <-.
    edestruct (range_one_child must (ByteMasked mask vw c)) as (o & s & s' & Eo & Es & Ers & Hs' & H1 & H2);
      [exact Hd|exact Ec|lia|exact Ha|exact Hb|exact Hf|exact Hbe|exact IHc|exact Hst|reflexivity|reflexivity|exact Erd|exact HL'|reflexivity|reflexivity|].
    eexists; exists (Node o [s']). split; [exact Er0|]. cbn [range_ids]. rewrite Eo. cbn [bind]. rewrite Es. cbn [bind]. rewrite Ers. cbn [bind]. auto 10.
  - (* BitMasked *)
    pose proof Er as Er0. cbn [getitem_range_nowrap] in Er. cbn [length_] in HL.
    destruct (bitmasked_den _ _ _ _ _ _ Hd) as [Hlen Hd2]. rewrite bytemask0_spec in Er by lia. cbn [bind] in Er.
    set (bm := map _ _) in *. assert (Hbm : zlen bm = len) by (unfold bm; rewrite zlen_map, zlen_zseq by lia; lia).
    assert (exists ws, den c = Some ws /\ zlen bm <= zlen ws) as (ws & Ec & Hws).
    { cbn [den] in Hd2. destruct (den c) as [ws|]; [|discriminate]. destruct (Z.leb_spec (zlen bm) (zlen ws)); [eauto|discriminate]. }
    unfold mkByteMasked in Er. destruct (length_ c <? zlen bm) in Er; [discriminate|]. cbn [bind] in Er.
    rewrite iview_Ok in Er by lia. cbn [bind] in Er.
    destruct (range_den _ _ a b Ec Ha ltac:(lia)) as (d' & Erd & Hdd). rewrite Erd in Er. cbn [bind] in Er.
    destruct (_ <? _) in Er; [discriminate|]. injection Er as <-.
    edestruct (range_one_child must (BitMasked mask vw lsb len c)) as (o & s & s' & Eo & Es & Ers & Hs' & H1 & H2);
      [exact Hd|exact Ec|lia|exact Ha|exact Hb|exact Hf|exact Hbe|exact IHc|exact Hst|reflexivity|reflexivity|exact Erd|exact HL'|reflexivity|reflexivity|].
    eexists; exists (Node o [s']). split; [exact Er0|]. cbn [range_ids]. rewrite Eo. cbn [bind]. rewrite Es. cbn [bind]. rewrite Ers. cbn [bind]. auto 10.
  - (* Unmasked *)
    pose proof Er as Er0. cbn [getitem_range_nowrap] in Er. cbn [length_] in HL. cbn [den] in Hd.
    destruct (range_den _ _ a b Hd Ha ltac:(lia)) as (d' & Erd & Hdd). rewrite Erd in Er. cbn [bind] in Er. injection Er as <-.
    edestruct (range_one_child must (Unmasked c)) as (o & s & s' & Eo & Es & Ers & Hs' & H1 & H2);
      [exact Hd|exact Hd|lia|exact Ha|exact Hb|exact Hf|exact Hbe|exact IHc|exact Hst|reflexivity|reflexivity|exact Erd|exact HL'|reflexivity|reflexivity|].
    eexists; exists (Node o [s']). split; [exact Er0|]. cbn [range_ids]. rewrite Eo. cbn [bind]. rewrite Es. cbn [bind]. rewrite Ers. cbn [bind]. auto 10.
  - (* Record *)
    destruct (record_fields _ _ _ _ Hd) as (vss & Ecs & Hlen & Ek & Hvs). cbn [length_] in HL.
    rewrite HL in Ho. destruct (orange_ok _ own _ a b F Ho Hob Ha Hb) as (o & Eo & Ho' & Hob').
    destruct cs as [|c0 cs0].
    { cbn [getitem_range_nowrap] in Er. rewrite (mk_record _ _ [] []) in Er by auto. injection Er as <-.
      eexists; exists (Node o subs). split; [cbn [getitem_range_nowrap]; rewrite (mk_record _ _ [] []) by auto; reflexivity|].
      cbn [range_ids]. rewrite Eo. cbn [bind]. split; [reflexivity|]. split; [exact Hd'|]. split; [|split; [|reflexivity]].
      - constructor; [exact Ho'|]. intros k d Hk. cbn in Hk. rewrite nthZ_nil in Hk. discriminate.
      - apply bears_node. split; [exact Hob'|]. intros k d t' Hk. cbn in Hk. rewrite nthZ_nil in Hk. discriminate. }
    set (cs := c0 :: cs0) in *.
    assert (HR : getitem_range_nowrap (Record keys len cs) a b =
      if (a =? 0) && (b =? len) then Ok (Record keys len cs) else let* cs' := mapres (fun c => getitem_range_nowrap c a b) cs in mkRecord keys (b - a) cs') by reflexivity.
    assert (HI : range_ids (Record keys len cs) (Node own subs) a b =
      let* o := orange own a b in if (a =? 0) && (b =? len) then Ok (Node own subs)
                 else let* subs' := each2 (fun c s => range_ids c s a b) cs subs in Ok (Node o subs')) by reflexivity.
    rewrite HI, HR, Eo. cbn [bind]. rewrite HR in Er. clear HI HR.
    destruct (Z.eqb_spec a 0) as [Hna|Hna], (Z.eqb_spec b len) as [Hnb|Hnb]; cbn [andb] in *.
    { subst a b. injection Er as <-. eexists; eexists. split; [reflexivity|]. split; [reflexivity|]. split; [exact Hd'|]. split; [exact Hf|]. split; [|exact Hst].
      apply (bears_mono _ _ F); [|exact Hbe]. intros i q (Hi & HF). exact HF. }
    all: destruct (many_children (fun c => getitem_range_nowrap c a b) (fun c s => range_ids c s a b)
             (fun k _ c' s' => fits must c' s' /\ bears c' s' (shift a b (push (Record keys len cs) k F)) /\ straight c' = true) cs 0 subs)
        as (cs' & ss' & E1 & E2 & E3 & E4).
    all: try (intros k d Hk; pose proof (fits_inv _ _ _ _ Hf) as (_ & Hfk); pose proof (proj1 (bears_node _ _ _ _) Hbe) as (_ & Hbk);
      destruct (Hfk k d Hk) as (s & Hs & Hfs); exists s; split; [exact Hs|]; specialize (Hbk k d s Hk Hs);
      destruct (omap_nth _ _ _ _ _ Ecs Hk) as (Edk & v & Hv); rewrite Hv in Edk;
      destruct (Hvs v (nthZ_In _ _ _ (eq_sym Edk))); [|exfalso; lia];
      rewrite Forall_forall in H; cbn [straight] in Hst; rewrite forallb_forall in Hst;
      destruct (H d (nthZ_In _ _ _ Hk) must v s _ a b Hv Hfs Hbk (Hst d (nthZ_In _ _ _ Hk)) Ha) as (d' & s' & G1 & G2 & G3 & G4 & G5 & G6); [lia|];
      exists d', s'; auto).
    all: rewrite E1 in Er |- *; cbn [bind] in Er |- *; rewrite (mk_record _ _ cs cs') in Er |- * by auto; injection Er as <-;
      rewrite E2; cbn [bind]; eexists; eexists; split; [reflexivity|]; split; [reflexivity|]; split; [exact Hd'|]; split; [|split].
    all: try (constructor; [exact Ho'|]; intros k d Hk; cbn [child] in Hk; destruct (E4 _ _ Hk) as (c1 & s1 & G1 & G2 & G3 & G4 & G5); eauto).
    all: try (cbn [straight]; apply forallb_forall; intros d Hin; destruct (In_nthZ _ _ Hin) as (k & Hk); destruct (E4 _ _ Hk) as (c1 & s1 & G1 & G2 & G3 & G4 & G5); exact G5).
    all: apply bears_node; split; [exact Hob'|]; intros k d t' Hk Ht; cbn [child] in Hk; destruct (E4 _ _ Hk) as (c1 & s1 & G1 & G2 & G3 & G4 & G5);
      rewrite Ht in G2; injection G2 as <-; eapply bears_mono; [|exact G4];
      intros r q (i & q0 & s0 & (Hi & HF) & Hi0 & ->); cbn [into length_] in Hi0;
      destruct (Z.leb_spec 0 i), (Z.ltb_spec i (b - a)); try lia; cbn [andb] in Hi0; injection Hi0 as <- ->;
      split; [exact Hi|]; exists (a + i), q0, []; split; [exact HF|]; split; [|reflexivity]; cbn [into length_];
      destruct (Z.leb_spec 0 (a + i)), (Z.ltb_spec (a + i) len); try lia; reflexivity.
  - (* Union *)
    pose proof Er as Er0. cbn [getitem_range_nowrap] in Er. cbn [length_] in HL.
    assert (zlen tags <= zlen index).
    { cbn [den] in Hd. destruct (omap den cs); [|discriminate]. destruct (Z.leb_spec (zlen tags) (zlen index)); [assumption|]. rewrite Bool.andb_false_r in Hd. discriminate. }
    rewrite !iview_Ok in Er by lia. cbn [bind] in Er. unfold mkUnion in Er. destruct cs as [|c0 cs0]; [discriminate|].
    destruct (_ <? _) in Er; [discriminate|]. injection Er as <-.
    edestruct (range_same_children must (Union tags index (c0 :: cs0))) as (o & Eo & H1 & H2); [exact Hd|exact Ha|exact Hb|exact Hf|exact Hbe|exact Er0|reflexivity| |exact HL'|].
    { intros k i s r Hi. cbn [into]. rewrite !nth_slice_shift by lia. auto. }
    eexists; exists (Node o subs). split; [exact Er0|]. cbn [range_ids]. rewrite Eo. cbn [bind]. auto 10.
Qed.
