(** Selections of an array with identities, histories of slices. *)
From Verif Require Import Base BaseLemmas KRange Content KCore Core SpecArray OmapLemmas PCore PCarry Merge Identities SpecIdentities
  PIdentities PIdentities2 PIdentities3 PIdentities4 PIdentities5 PIdentities6.
Local Open Scope string_scope.
Local Open Scope list_scope.
Local Open Scope Z_scope.

Definition Carry_ok (c : content) : Prop := forall must vs t F cry vs' lazy,
  den c = Some vs -> fits must c t -> bears c t F -> straight c = true -> omap (nthZ vs) cry = Some vs' ->
  exists c' t', carry c cry lazy = Ok c' /\ carry_ids c t cry lazy = Ok t' /\ den c' = Some vs' /\
    fits must c' t' /\ bears c' t' (carryF cry F) /\ straight c' = true.

Lemma list_gather starts stops cry a b out1 out2 m :
  omap (nthZ starts) cry = Some a -> omap (nthZ stops) cry = Some b -> zlen out1 = zlen cry -> zlen out2 = zlen cry ->
  (forall i, In i cry -> i < m) ->
  awkward_ListArray_getitem_carry out1 out2 starts stops cry m (zlen cry) = Ok (a, b).
Proof.
  intros Ha Hb Ho1 Ho2 Hr. pose proof (omap_zlen _ _ _ Ha) as Hla. pose proof (omap_zlen _ _ _ Hb) as Hlb.
  unfold awkward_ListArray_getitem_carry.
    match goal with |- for_ 0 _ ?f _ = _ => 
      destruct (for_inv (fun i st => st = (slice 0 i a ++ slice i (zlen cry) out1, slice 0 i b ++ slice i (zlen cry) out2)) 0 (zlen cry) f (out1, out2))
       as (st & Hst & HP) end.
    + pose proof (zlen_nonneg cry); lia.
    + rewrite !slice_nil. cbn [app]. rewrite !slice_full' by lia. reflexivity.
    + intros i st Hi ->. destruct (rd_in cry i) as (c0 & -> & Hc0); [lia|]. cbn [bind].
      specialize (Hr c0 (nthZ_In _ _ _ Hc0)). destruct (Z.leb_spec m c0); [lia|].
      destruct (omap_nth _ _ _ _ _ Ha Hc0) as [Ea [x Hx]]. destruct (omap_nth _ _ _ _ _ Hb Hc0) as [Eb [y Hy]].
      rewrite (proj2 (rd_Ok _ _ _) Hx), (proj2 (rd_Ok _ _ _) Hy). cbn [bind].
      destruct (nthZ_lt out1 i) as [o1 Ho1']; [lia|]. destruct (nthZ_lt out2 i) as [o2 Ho2']; [lia|].
      rewrite (slice_cons_nth i (zlen cry) out1 o1), (slice_cons_nth i (zlen cry) out2 o2) by (auto; lia).
      assert (zlen (slice 0 i a) = i) as Hsa by (rewrite zlen_slice; lia). assert (zlen (slice 0 i b) = i) as Hsb by (rewrite zlen_slice; lia).
      assert (H1 : forall (d r : list Z) y z, zlen d = i -> wr (d ++ y :: r) i z = Ok ((d ++ [z]) ++ r)) by (intros d r y' z <-; apply wr_push).
      rewrite H1 by exact Hsa. cbn [bind]. rewrite H1 by exact Hsb. cbn [bind].
      eexists; split; [reflexivity|]. rewrite (slice_snoc_nth 0 i a x), (slice_snoc_nth 0 i b y) by (try lia; congruence). reflexivity.
    + rewrite Hst, HP, !slice_nil, !app_nil_r, !slice_full' by lia. reflexivity.
Qed.

Lemma not_contiguous c cry k : awkward_Index_iscontiguous cry (zlen cry) = Ok false -> carry_contiguous c cry k = k tt.
Proof. intros E. unfold carry_contiguous. rewrite E. reflexivity. Qed.
Lemma carry_split must c t F cry vs vs' lazy k k2 :
  carry c cry lazy = carry_contiguous c cry k -> carry_ids c t cry lazy = carry_contiguous_ids c t cry k2 ->
  den c = Some vs -> fits must c t -> bears c t F -> straight c = true -> omap (nthZ vs) cry = Some vs' ->
  (forall c', awkward_Index_iscontiguous cry (zlen cry) = Ok false -> k tt = Ok c' -> den c' = Some vs' -> length_ c' = zlen cry ->
     exists t', k2 tt = Ok t' /\ fits must c' t' /\ bears c' t' (carryF cry F) /\ straight c' = true) ->
  exists c' t', carry c cry lazy = Ok c' /\ carry_ids c t cry lazy = Ok t' /\ den c' = Some vs' /\
    fits must c' t' /\ bears c' t' (carryF cry F) /\ straight c' = true.
Proof.
  intros E1 E2 Hd Hf Hb Hst Hp Hk. destruct (carry_den c vs cry vs' lazy Hd Hp) as (c' & Ec & Hd').
  rewrite E1 in *. rewrite E2. unfold carry_contiguous, carry_contiguous_ids in *.
  destruct (iscontiguous_spec cry) as (b & Eb & Hbb). rewrite Eb in *. cbn [bind] in *. destruct b.
  - assert (cry = zseq 0 (zlen cry)) as Hc by now apply Hbb. pose proof (zlen_nonneg cry).
    assert (zlen cry <= zlen vs).
    { destruct (Z.eqb_spec (zlen cry) 0); [pose proof (zlen_nonneg vs); lia|].
      pose proof (omap_nthZ_range _ _ _ Hp (zlen cry - 1)) as H0. rewrite Hc in H0. rewrite zlen_zseq in H0 by lia.
      rewrite In_zseq in H0. lia. }
    assert (HcF : forall i q, carryF cry F i q -> shift 0 (zlen cry) F i q).
    { intros i q (j & Hj & HF). pose proof (nthZ_Some _ _ _ Hj). rewrite Hc, nthZ_zseq in Hj by (rewrite <- ?Hc; lia).
      injection Hj as <-. split; [lia|exact HF]. }
    destruct (zlen cry =? length_ c).
    + injection Ec as <-. exists c, t. split; [reflexivity|]. split; [reflexivity|]. split; [exact Hd'|]. split; [exact Hf|]. split; [|exact Hst].
      apply (bears_mono _ _ F); [|exact Hb]. intros i q HcFi. destruct (HcF _ _ HcFi) as (_ & HF). exact HF.
    + destruct (range_ids_ok c must vs t F 0 (zlen cry) Hd Hf Hb Hst) as (c2 & t2 & G1 & G2 & G3 & G4 & G5 & G6); [lia|lia|].
      rewrite G1 in Ec. injection Ec as <-. exists c2, t2. split; [exact G1|]. split; [exact G2|]. split; [exact Hd'|]. split; [exact G4|]. split; [|exact G6].
      apply (bears_mono _ _ _ _ HcF G5).
  - destruct (Hk c' eq_refl Ec Hd') as (t' & G1 & G2 & G3 & G4).
    { rewrite (den_length _ _ Hd'). symmetry. rewrite (omap_zlen _ _ _ Hp). reflexivity. }
    exists c', t'. auto 10.
Qed.

Lemma carry_same_children must c c' own subs F vs cry vs' :
  den c = Some vs -> fits must c (Node own subs) -> bears c (Node own subs) F ->
  omap (nthZ vs) cry = Some vs' -> (forall k, child c' k = child c k) ->
  (forall k i j s r, nthZ cry i = Some j -> into c' k i s = Some (r, []) -> into c k j s = Some (r, [])) ->
  length_ c' = zlen cry -> straight c' = true ->
  exists t', (let* o := ocarry own cry in Ok (Node o subs)) = Ok t' /\ fits must c' t' /\ bears c' t' (carryF cry F) /\ straight c' = true.
Proof.
  intros Hd Hf Hbe Hp Hc Hin Hl Hst. pose proof (fits_inv _ _ _ _ Hf) as (Ho & _). pose proof (proj1 (bears_node _ _ _ _) Hbe) as (Hob & _).
  rewrite (den_length _ _ Hd) in Ho.
  destruct (ocarry_ok _ own _ cry F Ho Hob (omap_nthZ_range _ _ _ Hp)) as (o & Eo & Ho' & Hob').
  rewrite Eo. cbn [bind]. exists (Node o subs). split; [reflexivity|].
  enough (fits must c' (Node o subs) /\ bears c' (Node o subs) (carryF cry F)) as (? & ?) by auto.
  apply (same_children must c c' own subs o F); auto.
  - rewrite Hl. exact Ho'.
  - intros k i q s r (j & Hj & HF) Hinto. exists j. split; [exact HF|]. eapply Hin; eassumption.
Qed.
Lemma carry_one_child must c c' d d' own subs F vs ws cry vs' lazy :
  den c = Some vs -> den d = Some ws -> zlen vs <= zlen ws -> omap (nthZ vs) cry = Some vs' ->
  fits must c (Node own subs) -> bears c (Node own subs) F -> Carry_ok d -> straight d = true ->
  (forall k, child c k = if k =? 0 then Some d else None) ->
  (forall i s, into c 0 i s = if (0 <=? i) && (i <? length_ c) then Some (i, s) else None) ->
  carry d cry lazy = Ok d' -> length_ c' = zlen cry ->
  (forall k, child c' k = if k =? 0 then Some d' else None) ->
  (forall i s, into c' 0 i s = if (0 <=? i) && (i <? length_ c') then Some (i, s) else None) ->
  straight c' = straight d' ->
  exists t', (let* o := ocarry own cry in let* s := sub0 subs in let* s' := carry_ids d s cry lazy in Ok (Node o [s'])) = Ok t' /\
     fits must c' t' /\ bears c' t' (carryF cry F) /\ straight c' = true.
Proof.
  intros Hd Hdd Hle Hp Hf Hbe IH Hst Hch Hin Er Hl Hch' Hin' Hst'.
  pose proof (fits_inv _ _ _ _ Hf) as (Ho & _). pose proof (proj1 (bears_node _ _ _ _) Hbe) as (Hob & _). rewrite (den_length _ _ Hd) in Ho.
  pose proof (omap_nthZ_range _ _ _ Hp) as Hr.
  destruct (ocarry_ok _ own _ cry F Ho Hob Hr) as (o & Eo & Ho' & Hob').
  destruct (one_sub _ _ _ _ _ _ Hch Hf Hbe) as (s & Es & Hfs & Hbs).
  destruct (omap_nthZ_total ws cry) as (ws' & Hws'). { intros i Hi. specialize (Hr i Hi). lia. }
  destruct (IH must _ _ _ _ _ lazy Hdd Hfs Hbs Hst Hws') as (d2 & s' & E1 & E2 & E3 & E4 & E5 & E6). rewrite Er in E1. injection E1 as <-.
  rewrite Eo. cbn [bind]. rewrite Es. cbn [bind]. rewrite E2. cbn [bind]. exists (Node o [s']). split; [reflexivity|]. rewrite Hst'.
  enough (fits must c' (Node o [s']) /\ bears c' (Node o [s']) (carryF cry F)) as (? & ?) by auto.
  apply (new_child must c' d' s' o _ _ Hch' E4 E5); [rewrite Hl; exact Ho'|exact Hob'|].
  intros r q (i & q0 & s0 & (j & Hj & HF) & Hi0 & ->). rewrite Hin', Hl in Hi0.
  destruct (Z.leb_spec 0 i), (Z.ltb_spec i (zlen cry)); try discriminate. cbn [andb] in Hi0. injection Hi0 as <- ->.
  exists j. split; [exact Hj|]. exists j, q0, []. split; [exact HF|]. split; [|reflexivity]. rewrite Hin, (den_length _ _ Hd).
  specialize (Hr j (nthZ_In _ _ _ Hj)).
  destruct (Z.leb_spec 0 j), (Z.ltb_spec j (zlen vs)); try lia. reflexivity.
Qed.

Theorem carry_ids_ok c : Carry_ok c.
Proof.
  induction c using content_ind'; intros must vs [own subs] F cry vs' lazy Hd Hf Hbe Hst Hp; pose proof (zlen_nonneg cry) as Hcry;
    pose proof (den_length _ _ Hd) as HL; pose proof (omap_nthZ_range _ _ _ Hp) as Hr.
  - (* Empty *) cbn in Hd. injection Hd as <-. destruct cry as [|i cry].
    + cbn in Hp. injection Hp as <-. exists Empty, (Node own subs). split; [reflexivity|]. split; [reflexivity|]. split; [reflexivity|].
      split; [exact Hf|]. split; [|reflexivity]. apply (bears_mono _ _ F); [|exact Hbe]. intros i q (j & Hj & _). rewrite nthZ_nil in Hj. discriminate.
    + cbn in Hp. rewrite nthZ_nil in Hp. discriminate.
  - (* Numpy *) eapply carry_split; [cbn [carry]; reflexivity|cbn [carry_ids]; reflexivity|exact Hd|exact Hf|exact Hbe|exact Hst|exact Hp|]. cbv beta. intros c' _ Hk Hd' Hl.
    cbn [length_] in HL. destruct (omap_nthZ_total data cry) as (l' & Hl'); [intros i Hi; specialize (Hr i Hi); lia|].
    unfold awkward_NumpyArray_getitem_next_null in Hk. rewrite (for_gather data cry _ l') in Hk by (auto; rewrite ?zlen_alloc; lia). cbn [bind] in Hk. injection Hk as <-.
    apply (carry_same_children must (Numpy dt data) _ own subs F vs cry vs'); auto.
  - (* ListA *) eapply carry_split; [cbn [carry]; reflexivity|cbn [carry_ids]; reflexivity|exact Hd|exact Hf|exact Hbe|exact Hst|exact Hp|]. cbv beta. intros c' _ Hk Hd' Hl.
    cbn [length_] in HL. assert (zlen starts <= zlen stops).
    { cbn [den] in Hd. destruct (den c); [|discriminate]. destruct (Z.leb_spec (zlen starts) (zlen stops)); [assumption|discriminate]. }
    destruct (Z.ltb_spec (zlen stops) (zlen starts)); [lia|].
    destruct (omap_nthZ_total starts cry) as (x & Hx); [intros i Hi; specialize (Hr i Hi); lia|].
    destruct (omap_nthZ_total stops cry) as (y & Hy); [intros i Hi; specialize (Hr i Hi); lia|].
    rewrite (list_gather starts stops cry x y) in Hk by (auto; rewrite ?zlen_alloc; try lia; intros i Hi; specialize (Hr i Hi); lia).
    cbn [bind fst snd] in Hk. unfold mkListA in Hk. destruct (_ <? _) in Hk; [discriminate|]. injection Hk as <-.
    apply (carry_same_children must (ListA starts stops c) _ own subs F vs cry vs'); auto. intros k i j s r Hj. cbn [into].
    destruct (omap_nth _ _ _ _ _ Hx Hj) as [<- _]. destruct (omap_nth _ _ _ _ _ Hy Hj) as [<- _]. auto.
  - (* ListOffset *) eapply carry_split; [cbn [carry]; reflexivity|cbn [carry_ids]; reflexivity|exact Hd|exact Hf|exact Hbe|exact Hst|exact Hp|]. cbv beta. intros c' _ Hk Hd' Hl.
    cbn [length_] in HL. pose proof (zlen_nonneg vs). rewrite make_starts_spec, make_stops_spec in Hk by lia. cbn [bind] in Hk.
    destruct (omap_nthZ_total (slice 0 (zlen offsets - 1) offsets) cry) as (x & Hx); [intros i Hi; specialize (Hr i Hi); rewrite zlen_slice; lia|].
    destruct (omap_nthZ_total (slice 1 (zlen offsets) offsets) cry) as (y & Hy); [intros i Hi; specialize (Hr i Hi); rewrite zlen_slice; lia|].
    rewrite (list_gather _ _ cry x y) in Hk by (auto; rewrite ?zlen_alloc; try lia; intros i Hi; specialize (Hr i Hi); lia).
    cbn [bind fst snd] in Hk. unfold mkListA in Hk. destruct (_ <? _) in Hk; [discriminate|]. injection Hk as <-.
    apply (carry_same_children must (ListOffset offsets c) _ own subs F vs cry vs'); auto. intros k i j s r Hj. cbn [into].
    destruct (omap_nth _ _ _ _ _ Hx Hj) as [<- _]. destruct (omap_nth _ _ _ _ _ Hy Hj) as [<- _]. specialize (Hr j (nthZ_In _ _ _ Hj)).
    rewrite !nthZ_slice by lia. rewrite Z.add_0_l, (Z.add_comm 1 j). auto.
  - discriminate.
  - (* Indexed *) eapply carry_split; [cbn [carry]; reflexivity|cbn [carry_ids]; reflexivity|exact Hd|exact Hf|exact Hbe|exact Hst|exact Hp|]. cbv beta. intros c' _ Hk Hd' Hl.
    cbn [length_] in HL. destruct (omap_nthZ_total index cry) as (x & Hx); [intros i Hi; specialize (Hr i Hi); lia|].
    unfold awkward_IndexedArray_getitem_carry in Hk.
    rewrite (for_gather_guard index cry _ x) in Hk by (auto; rewrite ?zlen_alloc; try lia; intros i Hi; specialize (Hr i Hi); lia).
    cbn [bind] in Hk. injection Hk as <-.
    apply (carry_same_children must (Indexed index c) _ own subs F vs cry vs'); auto. intros k i j s r Hj. cbn [into].
    destruct (omap_nth _ _ _ _ _ Hx Hj) as [<- _]. auto.
  - (* IndexedOption *) eapply carry_split; [cbn [carry]; reflexivity|cbn [carry_ids]; reflexivity|exact Hd|exact Hf|exact Hbe|exact Hst|exact Hp|]. cbv beta. intros c' _ Hk Hd' Hl.
    cbn [length_] in HL. destruct (omap_nthZ_total index cry) as (x & Hx); [intros i Hi; specialize (Hr i Hi); lia|].
    unfold awkward_IndexedArray_getitem_carry in Hk.
    rewrite (for_gather_guard index cry _ x) in Hk by (auto; rewrite ?zlen_alloc; try lia; intros i Hi; specialize (Hr i Hi); lia).
    cbn [bind] in Hk. injection Hk as <-.
    apply (carry_same_children must (IndexedOption index c) _ own subs F vs cry vs'); auto. intros k i j s r Hj. cbn [into].
    destruct (omap_nth _ _ _ _ _ Hx Hj) as [<- _]. auto.
  - (* ByteMasked *) eapply carry_split; [cbn [carry]; reflexivity|cbn [carry_ids]; reflexivity|exact Hd|exact Hf|exact Hbe|exact Hst|exact Hp|]. cbv beta. intros c' _ Hk Hd' Hl.
    cbn [length_] in HL.
    assert (exists ws, den c = Some ws /\ zlen mask <= zlen ws) as (ws & Ec & Hws).
    { cbn [den] in Hd. destruct (den c) as [ws|]; [|discriminate]. destruct (Z.leb_spec (zlen mask) (zlen ws)); [eauto|discriminate]. }
    destruct (omap_nthZ_total ws cry) as (ws' & Hws'); [intros i Hi; specialize (Hr i Hi); lia|].
    destruct (carry_den c ws cry ws' lazy Ec Hws') as (d' & Ed & Hdd).
    destruct (awkward_ByteMaskedArray_getitem_carry _ _ _ _ _) as [m| |] in Hk; try discriminate. cbn [bind] in Hk.
    rewrite Ed in Hk. cbn [bind] in Hk. unfold mkByteMasked in Hk. destruct (_ <? _) in Hk; [discriminate|]. injection Hk as <-.
    eapply (carry_one_child must (ByteMasked mask vw c)); [exact Hd|eassumption|lia|eassumption|eassumption|eassumption|eassumption|eassumption|reflexivity|reflexivity|eassumption|eassumption|reflexivity|reflexivity|reflexivity].
  - (* BitMasked *) eapply (carry_split must _ _ _ _ _ _ lazy (fun _ =>
      let* bm := BitMasked_bytemask0 mask lsb len in
      let* _ := mkByteMasked bm vw c in
      carry_contiguous (ByteMasked bm vw c) cry (fun _ =>
        let* m := awkward_ByteMaskedArray_getitem_carry (alloc (zlen cry)) bm (zlen bm) cry (zlen cry) in
        let* c'' := carry c cry lazy in
        mkByteMasked m vw c''))); [cbn [carry]; reflexivity|cbn [carry_ids]; reflexivity|exact Hd|exact Hf|exact Hbe|exact Hst|exact Hp|]. cbv beta. intros c' Hct Hk Hd' Hl.
    cbn [length_] in HL. destruct (bitmasked_den _ _ _ _ _ _ Hd) as [Hlen Hd2]. rewrite bytemask0_spec in Hk by lia. cbn [bind] in Hk.
    set (bm := map _ _) in *. assert (Hbm : zlen bm = len) by (unfold bm; rewrite zlen_map, zlen_zseq by lia; lia).
    assert (exists ws, den c = Some ws /\ zlen bm <= zlen ws) as (ws & Ec & Hws).
    { cbn [den] in Hd2. destruct (den c) as [ws|]; [|discriminate]. destruct (Z.leb_spec (zlen bm) (zlen ws)); [eauto|discriminate]. }
    destruct (omap_nthZ_total ws cry) as (ws' & Hws'); [intros i Hi; specialize (Hr i Hi); lia|].
    destruct (carry_den c ws cry ws' lazy Ec Hws') as (d' & Ed & Hdd).
    assert (mkByteMasked bm vw c = Ok (ByteMasked bm vw c)) as Emk
      by (unfold mkByteMasked; rewrite (den_length _ _ Ec); destruct (Z.ltb_spec (zlen ws) (zlen bm)); [lia|reflexivity]).
    rewrite Emk in Hk. cbn [bind] in Hk.
    rewrite (not_contiguous _ _ _ Hct) in Hk.
    destruct (awkward_ByteMaskedArray_getitem_carry _ _ _ _ _) as [m| |] in Hk; try discriminate. cbn [bind] in Hk.
    rewrite Ed in Hk. cbn [bind] in Hk. unfold mkByteMasked in Hk. destruct (_ <? _) in Hk; [discriminate|]. injection Hk as <-.
    eapply (carry_one_child must (BitMasked mask vw lsb len c)); [exact Hd|eassumption|lia|eassumption|eassumption|eassumption|eassumption|eassumption|reflexivity|reflexivity|eassumption|eassumption|reflexivity|reflexivity|reflexivity].
  - (* Unmasked *) eapply carry_split; [cbn [carry]; reflexivity|cbn [carry_ids]; reflexivity|exact Hd|exact Hf|exact Hbe|exact Hst|exact Hp|]. cbv beta. intros c' _ Hk Hd' Hl.
    cbn [length_] in HL. cbn [den] in Hd.
    destruct (carry_den c vs cry vs' lazy Hd Hp) as (d' & Ed & Hdd). rewrite Ed in Hk. cbn [bind] in Hk. injection Hk as <-.
    eapply (carry_one_child must (Unmasked c)); [exact Hd|eassumption|lia|eassumption|eassumption|eassumption|eassumption|eassumption|reflexivity|reflexivity|eassumption|eassumption|reflexivity|reflexivity|reflexivity].
  - (* Record *)
    destruct (record_fields _ _ _ _ Hd) as (vss & Ecs & Hlen & Ek & Hvs). cbn [length_] in HL.
    pose proof (fits_inv _ _ _ _ Hf) as (Ho & _). pose proof (proj1 (bears_node _ _ _ _) Hbe) as (Hob & _). rewrite (den_length _ _ Hd) in Ho.
    destruct (ocarry_ok _ own _ cry F Ho Hob Hr) as (o & Eo & Ho' & Hob'). destruct lazy.
    { exists (Indexed cry (Record keys len cs)), (Node o [Node own subs]). split; [reflexivity|]. split; [cbn [carry_ids]; rewrite Eo; reflexivity|].
      split. { change (den (Indexed cry (Record keys len cs))) with (match den (Record keys len cs) with Some vs => omap (nthZ vs) cry | None => None end). now rewrite Hd. }
      enough (fits must (Indexed cry (Record keys len cs)) (Node o [Node own subs]) /\ bears (Indexed cry (Record keys len cs)) (Node o [Node own subs]) (carryF cry F)) as (? & ?) by auto.
      apply (new_child must _ (Record keys len cs) (Node own subs) o _ F); auto.
      intros r q (i & q0 & s0 & (j & Hj & HF) & Hi0 & ->). cbn [into] in Hi0. rewrite Hj in Hi0. destruct (0 <=? j); [|discriminate].
      injection Hi0 as <- ->. rewrite app_nil_r. exact HF. }
    eapply carry_split; [cbn [carry]; reflexivity|cbn [carry_ids]; reflexivity|exact Hd|exact Hf|exact Hbe|exact Hst|exact Hp|]. cbv beta. intros c' _ Hk Hd' Hl.
    rewrite Eo. cbn [bind].
    destruct (many_children (fun c => carry c cry false) (fun c s => carry_ids c s cry false)
             (fun k _ c' s' => fits must c' s' /\ bears c' s' (carryF cry (push (Record keys len cs) k F)) /\ straight c' = true) cs 0 subs)
        as (cs' & ss' & E1 & E2 & E3 & E4).
    { intros k d Hkd; pose proof (fits_inv _ _ _ _ Hf) as (_ & Hfk); pose proof (proj1 (bears_node _ _ _ _) Hbe) as (_ & Hbk).
      destruct (Hfk k d Hkd) as (s & Hs & Hfs); exists s; split; [exact Hs|]; specialize (Hbk k d s Hkd Hs).
      destruct (omap_nth _ _ _ _ _ Ecs Hkd) as (Edk & v & Hv); rewrite Hv in Edk.
      rewrite Forall_forall in H; cbn [straight] in Hst; rewrite forallb_forall in Hst.
      destruct (omap_nthZ_total v cry) as (v' & Hv').
      { intros i Hi. specialize (Hr i Hi). destruct (Hvs v (nthZ_In _ _ _ (eq_sym Edk))); lia. }
      destruct (H d (nthZ_In _ _ _ Hkd) must v s _ cry v' false Hv Hfs Hbk (Hst d (nthZ_In _ _ _ Hkd)) Hv') as (d' & s' & G1 & G2 & G3 & G4 & G5 & G6).
      exists d', s'; auto. }
    rewrite E1 in Hk; cbn [bind] in Hk; rewrite (mk_record _ _ cs cs') in Hk by auto; injection Hk as <-.
    rewrite E2; cbn [bind]; eexists; split; [reflexivity|]; split; [|split].
    + constructor; [exact Ho'|]; intros k d Hk; cbn [child] in Hk; destruct (E4 _ _ Hk) as (c1 & s1 & G1 & G2 & G3 & G4 & G5); eauto.
    + apply bears_node; split; [exact Hob'|]; intros k d t' Hk Ht; cbn [child] in Hk; destruct (E4 _ _ Hk) as (c1 & s1 & G1 & G2 & G3 & G4 & G5).
      rewrite Ht in G2; injection G2 as <-; eapply bears_mono; [|exact G4].
      intros r q (i & q0 & s0 & (j & Hj & HF) & Hi0 & ->); cbn [into length_] in Hi0.
      destruct (Z.leb_spec 0 i), (Z.ltb_spec i (zlen cry)); try discriminate; cbn [andb] in Hi0; injection Hi0 as <- ->.
      exists j. split; [exact Hj|]; exists j, q0, []; split; [exact HF|]; split; [|reflexivity]; cbn [into length_].
      specialize (Hr j (nthZ_In _ _ _ Hj)).
      destruct (Z.leb_spec 0 j), (Z.ltb_spec j len); try lia; reflexivity.
    + cbn [straight]; apply forallb_forall; intros d Hin; destruct (In_nthZ _ _ Hin) as (k & Hk); destruct (E4 _ _ Hk) as (c1 & s1 & G1 & G2 & G3 & G4 & G5); exact G5.
  - (* Union *) eapply carry_split; [cbn [carry]; reflexivity|cbn [carry_ids]; reflexivity|exact Hd|exact Hf|exact Hbe|exact Hst|exact Hp|]. cbv beta. intros c' _ Hk Hd' Hl.
    cbn [length_] in HL. assert (zlen tags <= zlen index).
    { cbn [den] in Hd. destruct (omap den cs); [|discriminate]. destruct (Z.leb_spec (zlen tags) (zlen index)); [assumption|]. rewrite Bool.andb_false_r in Hd. discriminate. }
    destruct (Z.ltb_spec (zlen index) (zlen tags)); [lia|].
    destruct (omap_nthZ_total tags cry) as (x & Hx); [intros i Hi; specialize (Hr i Hi); lia|].
    destruct (omap_nthZ_total index cry) as (y & Hy); [intros i Hi; specialize (Hr i Hi); lia|].
    unfold awkward_index_carry, awkward_index_carry_nocheck in Hk.
    rewrite (for_gather_guard tags cry _ x) in Hk by (auto; rewrite ?zlen_alloc; try lia; intros i Hi; specialize (Hr i Hi); lia).
    cbn [bind] in Hk. rewrite (for_gather index cry _ y) in Hk by (auto; rewrite ?zlen_alloc; lia). cbn [bind] in Hk.
    unfold mkUnion in Hk. destruct cs as [|c0 cs0]; [discriminate|]. destruct (_ <? _) in Hk; [discriminate|]. injection Hk as <-.
    apply (carry_same_children must (Union tags index (c0 :: cs0)) _ own subs F vs cry vs'); auto. intros k i j s r Hj. cbn [into].
    destruct (omap_nth _ _ _ _ _ Hx Hj) as [<- _]. destruct (omap_nth _ _ _ _ _ Hy Hj) as [<- _]. auto.
Qed.
