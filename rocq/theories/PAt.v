(** Proofs about getitem_at. *)
From Verif Require Export PCarry.

Lemma nth_apply_spec {A B} (f : A -> res B) l k x : nthZ l k = Some x -> nth_apply f l k = f x.
Proof.
  revert k; induction l as [|a l IH]; intros k H; [rewrite nthZ_nil in H; discriminate|].
  rewrite nthZ_cons in H. cbn [nth_apply]. destruct (Z.eqb_spec k 0); [congruence|now apply IH].
Qed.

Lemma sublist_inv ws a b v : sublist ws a b = Some v ->
  (a = b /\ v = VList []) \/ (a <> b /\ 0 <= a <= b /\ b <= zlen ws /\ v = VList (slice a b ws)).
Proof.
  unfold sublist. destruct (Z.eqb_spec a b); [intros [= <-]; auto|].
  destruct (Z.leb_spec 0 a), (Z.leb_spec a b), (Z.leb_spec b (zlen ws)); cbn [andb]; try discriminate.
  intros [= <-]. right. repeat split; auto.
Qed.
Lemma sublist_norm ws a b v : sublist ws a b = Some v ->
  let '(a', b') := if a =? b then (0, 0) else (a, b) in 0 <= a' <= b' /\ b' <= zlen ws /\ v = VList (slice a' b' ws).
Proof.
  intros H. pose proof (zlen_nonneg ws). destruct (sublist_inv _ _ _ _ H) as [[-> ->]|(Hne & H1 & H2 & ->)].
  - rewrite Z.eqb_refl. rewrite slice_nil. repeat split; lia.
  - destruct (Z.eqb_spec a b); [lia|]. auto.
Qed.
Lemma testbit_lt_pos byte k : Z.testbit byte k = true -> 0 <= k.
Proof. intros H. destruct (Z.ltb_spec k 0); [rewrite Z.testbit_neg_r in H by lia; discriminate|lia]. Qed.
Lemma at_bit mask (lsb : bool) i byte : 0 <= i -> nthZ mask (Z.quot i 8) = Some byte ->
  negb ((if lsb then Z.land (Z.shiftr byte (Z.rem i 8)) 1 else (Z.land (Z.shiftl byte (Z.rem i 8)) 128) mod 256) =? 0) = maskval mask lsb i.
Proof.
  intros Hi H. unfold maskval. rewrite Z.quot_div_nonneg in H by lia. rewrite H. rewrite Z.rem_mod_nonneg by lia.
  pose proof (Z.mod_pos_bound i 8). destruct lsb.
  - rewrite land1_testbit by lia. apply b2z_nz.
  - assert ((Z.land (Z.shiftl byte (i mod 8)) 128) mod 256 = Z.land (Z.shiftl byte (i mod 8)) 128) as ->.
    { apply Z.mod_small. change 128 with (2^7). split.
      - apply Z.land_nonneg. right. lia.
      - apply Z.le_lt_trans with (2^7); [|lia]. destruct (Z.testbit (Z.shiftl byte (i mod 8)) 7) eqn:E.
        + apply Z.eq_le_incl. apply Z.bits_inj'. intros n Hn. rewrite Z.land_spec, Z.pow2_bits_eqb by lia.
          destruct (Z.eqb_spec 7 n) as [<-|]; [rewrite E; reflexivity|apply andb_false_r].
        + pose proof (land128_testbit (Z.shiftl byte (i mod 8))) as Hl. rewrite E in Hl. cbn in Hl. change (2^7) with 128. lia. }
    rewrite land128_testbit, negb_involutive, Z.shiftl_spec by lia. reflexivity.
Qed.

Lemma at_den c vs i v :
  den c = Some vs -> nthZ vs i = Some v ->
  exists it, getitem_at_nowrap c i = Ok it /\ item_den it = Some v.
Proof.
  revert vs i v; induction c using content_ind'; intros vs i v Hd Hv; pose proof (nthZ_Some _ _ _ Hv) as Hi.
  - cbn in Hd. injection Hd as <-. rewrite nthZ_nil in Hv. discriminate.
  - cbn in Hd. injection Hd as <-. rewrite nthZ_map in Hv. cbn [getitem_at_nowrap].
    destruct (nthZ data i) as [x|] eqn:Ex; [|discriminate]. rewrite (proj2 (rd_Ok _ _ _) Ex). cbn in *. eauto.
  - cbn [den] in Hd. destruct (den c) as [ws|] eqn:Ec; [|discriminate]. destruct (Z.leb_spec (zlen starts) (zlen stops)); [|discriminate].
    destruct (omap_nth' _ _ _ _ _ Hd Hv) as ([a b] & Hab & Hs). rewrite nthZ_combine in Hab.
    destruct (nthZ starts i) eqn:Ea; [|discriminate]. destruct (nthZ stops i) eqn:Eb; [|discriminate]. injection Hab as -> ->.
    cbn [getitem_at_nowrap]. rewrite (proj2 (rd_Ok _ _ _) Ea), (proj2 (rd_Ok _ _ _) Eb). cbn [bind fst snd] in *.
    apply sublist_norm in Hs. destruct (if a =? b then (0, 0) else (a, b)) as [a' b']. destruct Hs as (H1 & H2 & ->).
    rewrite (den_length _ _ Ec). destruct (Z.ltb_spec a' 0), (Z.ltb_spec b' a'), (Z.ltb_spec (zlen ws) b'); try lia.
    destruct (range_den c ws a' b' Ec) as (c' & -> & Hd'); [lia|lia|]. cbn [bind]. eexists; split; [reflexivity|]. cbn. now rewrite Hd'.
  - cbn [den] in Hd. destruct (den c) as [ws|] eqn:Ec; [|discriminate]. destruct (Z.leb_spec 1 (zlen offsets)); [|discriminate].
    destruct (omap_nth' _ _ _ _ _ Hd Hv) as ([a b] & Hab & Hs). rewrite nthZ_pairs in Hab.
    destruct (nthZ offsets i) eqn:Ea; [|discriminate]. destruct (nthZ offsets (i + 1)) eqn:Eb; [|discriminate]. injection Hab as -> ->.
    cbn [getitem_at_nowrap]. rewrite (proj2 (rd_Ok _ _ _) Ea), (proj2 (rd_Ok _ _ _) Eb). cbn [bind fst snd] in *.
    apply sublist_norm in Hs. destruct (if a =? b then (0, 0) else (a, b)) as [a' b']. destruct Hs as (H1 & H2 & ->).
    rewrite (den_length _ _ Ec). destruct (Z.ltb_spec a' 0), (Z.ltb_spec b' a'), (Z.ltb_spec (zlen ws) b'); try lia.
    destruct (range_den c ws a' b' Ec) as (c' & -> & Hd'); [lia|lia|]. cbn [bind]. eexists; split; [reflexivity|]. cbn. now rewrite Hd'.
  - destruct (regular_inv _ _ _ _ Hd) as (ws & segs & Ec & Hs & -> & Hl & Hseg & _). rewrite nthZ_map in Hv.
    destruct (nthZ segs i) as [l|] eqn:El; [|discriminate]. injection Hv as <-. destruct (Hseg _ _ El) as [-> Hb].
    cbn [getitem_at_nowrap]. destruct (range_den c ws (i * size) ((i + 1) * size) Ec) as (c' & -> & Hd'); [nia|nia|].
    cbn [bind]. eexists; split; [reflexivity|]. cbn. now rewrite Hd'.
  - cbn [den] in Hd. destruct (den c) as [ws|] eqn:Ec; [|discriminate]. destruct (omap_nth' _ _ _ _ _ Hd Hv) as (j & Hj & Hw).
    cbn [getitem_at_nowrap]. rewrite (proj2 (rd_Ok _ _ _) Hj). cbn [bind]. pose proof (nthZ_Some _ _ _ Hw). rewrite (den_length _ _ Ec).
    destruct (Z.ltb_spec j 0), (Z.leb_spec (zlen ws) j); try lia. eapply IHc; eauto.
  - cbn [den] in Hd. destruct (den c) as [ws|] eqn:Ec; [|discriminate]. destruct (omap_nth' _ _ _ _ _ Hd Hv) as (j & Hj & Hw).
    cbn [getitem_at_nowrap]. rewrite (proj2 (rd_Ok _ _ _) Hj). cbn [bind].
    destruct (Z.ltb_spec j 0); [injection Hw as <-; eexists; split; reflexivity|]. pose proof (nthZ_Some _ _ _ Hw). rewrite (den_length _ _ Ec).
    destruct (Z.leb_spec (zlen ws) j); try lia. eapply IHc; eauto.
  - cbn [den] in Hd. destruct (den c) as [ws|] eqn:Ec; [|discriminate]. destruct (Z.leb_spec (zlen mask) (zlen ws)); [|discriminate].
    injection Hd as <-. rewrite nthZ_map, nthZ_combine in Hv. destruct (nthZ mask i) as [m|] eqn:Em; [|discriminate].
    destruct (nthZ ws i) as [w|] eqn:Ew; [|discriminate]. cbn in Hv. injection Hv as <-.
    cbn [getitem_at_nowrap]. rewrite (proj2 (rd_Ok _ _ _) Em). cbn [bind].
    destruct (Bool.eqb (negb (m =? 0)) vw); [eapply IHc; eauto|]. eexists; split; reflexivity.
  - destruct (bitmasked_den _ _ _ _ _ _ Hd) as [Hlen _]. pose proof (den_length _ _ Hd) as HL. cbn [length_] in HL.
    cbn [den] in Hd. destruct (den c) as [ws|] eqn:Ec; [|discriminate]. destruct ((0 <=? len) && (len <=? zlen ws) && (len <=? 8 * zlen mask)); [|discriminate].
    destruct (omap_nth' _ _ _ _ _ Hd Hv) as (j & Hj & Hw). rewrite nthZ_zseq in Hj by lia. injection Hj as <-.
    rewrite Z.add_0_l, mask_bit_val in Hw by lia. destruct (nthZ ws i) as [w|] eqn:Ew; [|discriminate]. injection Hw as <-.
    cbn [getitem_at_nowrap]. destruct (rd_in mask (Z.quot i 8)) as (byte & -> & Hb); [rewrite Z.quot_div_nonneg by lia; lia|].
    cbn [bind]. rewrite (at_bit mask lsb i byte) by (auto; lia).
    destruct (Bool.eqb (maskval mask lsb i) vw); [eapply IHc; eauto|]. eexists; split; reflexivity.
  - cbn [den getitem_at_nowrap] in *. eapply IHc; eauto.
  - cbn [getitem_at_nowrap]. eexists; split; [reflexivity|]. unfold item_den. rewrite Hd. exact Hv.
  - cbn [den] in Hd. destruct (omap den cs) as [vss|] eqn:Ecs; [|discriminate].
    destruct ((1 <=? zlen cs) && (zlen tags <=? zlen index)) eqn:E; [|discriminate].
    destruct (omap_nth' _ _ _ _ _ Hd Hv) as ([t j] & Htj & Hw). rewrite nthZ_combine in Htj.
    destruct (nthZ tags i) eqn:Et; [|discriminate]. destruct (nthZ index i) eqn:Ej; [|discriminate]. injection Htj as -> ->. cbn [fst snd] in Hw.
    destruct (nthZ vss t) as [ws|] eqn:Ews; [|discriminate]. destruct (omap_nth' _ _ _ _ _ Ecs Ews) as (c & Hc & Hdc).
    cbn [getitem_at_nowrap]. rewrite (proj2 (rd_Ok _ _ _) Et), (proj2 (rd_Ok _ _ _) Ej). cbn [bind].
    pose proof (nthZ_Some _ _ _ Hc). pose proof (nthZ_Some _ _ _ Hw).
    destruct (Z.leb_spec 0 t), (Z.ltb_spec t (zlen cs)); try lia. cbn [andb negb]. rewrite (nth_apply_spec _ _ _ _ Hc).
    rewrite (den_length _ _ Hdc). destruct (Z.leb_spec 0 j), (Z.ltb_spec j (zlen ws)); try lia. cbn [andb negb].
    rewrite Forall_forall in H. eapply H; eauto. eapply nthZ_In; eauto.
Qed.

Lemma getitem_at_den c vs i : den c = Some vs ->
  (exists it v, getitem_at c i = Ok it /\ nthZ vs (if i <? 0 then i + zlen vs else i) = Some v /\ item_den it = Some v)
  \/ (nthZ vs (if i <? 0 then i + zlen vs else i) = None /\ exists m, getitem_at c i = Err m).
Proof.
  intros Hd. pose proof (den_length _ _ Hd) as HL. unfold getitem_at. set (j := if i <? 0 then i + zlen vs else i).
  destruct (nthZ vs j) as [v|] eqn:Ev.
  - left. destruct (at_den c vs j v Hd Ev) as (it & Hit & Hden). exists it, v. split; [|auto].
    pose proof (nthZ_Some _ _ _ Ev) as Hj. rewrite HL. fold j.
    destruct (Z.leb_spec 0 j), (Z.ltb_spec j (zlen vs)); try lia. cbn [andb negb].
    destruct c; try exact Hit.
    cbn [den] in Hd. destruct (den c); [|discriminate]. destruct (Z.leb_spec (zlen starts) (zlen stops)); [|discriminate].
    cbn [length_] in HL. destruct (Z.leb_spec (zlen stops) j); [lia|exact Hit].
  - right. split; [reflexivity|]. rewrite HL. fold j. apply nthZ_None in Ev.
    assert (negb ((0 <=? j) && (j <? zlen vs)) = true) as -> by lia. destruct c; eauto.
Qed.

(** fields of a record *)
Lemma record_field_den keys len cs vs i v k :
  den (Record keys len cs) = Some vs -> nthZ vs i = Some v -> 0 <= k < zlen cs ->
  exists it w, record_field (Record keys len cs) i k = Ok it /\ item_den it = Some w /\
    exists row, v = mkrow keys row /\ zlen row = zlen cs /\ nthZ row k = Some w.
Proof.
  intros Hd Hv Hk. pose proof (den_length _ _ Hd) as HL. cbn [length_] in HL. cbn [den] in Hd.
  destruct (omap den cs) as [vss|] eqn:Ecs; [|discriminate]. destruct (Z.leb_spec 0 len); [|discriminate].
  destruct (keys_ok keys (zlen cs)); [|discriminate]. cbn [andb] in Hd.
  destruct (omap_nth' _ _ _ _ _ Hd Hv) as (i' & Hi' & Hrow). pose proof (nthZ_Some _ _ _ Hi') as Hb. rewrite zlen_zseq in Hb by lia.
  rewrite nthZ_zseq in Hi' by lia. injection Hi' as <-. rewrite Z.add_0_l in Hrow.
  destruct (omap (fun vs => nthZ vs i) vss) as [row|] eqn:Er; [|discriminate]. injection Hrow as <-.
  destruct (nthZ_lt cs k Hk) as [c Hc]. destruct (omap_nth _ _ _ _ _ Ecs Hc) as [E [ws Hws]]. rewrite Hws in E. symmetry in E.
  destruct (omap_nth _ _ _ _ _ Er E) as [E2 [w Hw]]. cbn [record_field]. rewrite (proj2 (rd_Ok _ _ _) Hc). cbn [bind].
  destruct (at_den c ws i w Hws Hw) as (it & -> & Hden). exists it, w. split; [reflexivity|]. split; [exact Hden|].
  exists row. split; [reflexivity|]. split; [|congruence]. rewrite (omap_zlen _ _ _ Er). now rewrite (omap_zlen _ _ _ Ecs).
Qed.
