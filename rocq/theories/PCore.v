(** Proofs about the core methods (Core.v). *)
From Verif Require Export OmapLemmas KRange PRange KCore Core.

(** *** pairs *)
Lemma zlen_pairs o : 1 <= zlen o -> zlen (pairs o) = zlen o - 1.
Proof.
  induction o as [|a o IH]; [change (zlen (@nil Z)) with 0; lia|]. intros _. cbn [pairs].
  destruct o as [|b o]; [reflexivity|]. rewrite zlen_cons, IH by (rewrite zlen_cons; pose proof (zlen_nonneg o); lia).
  rewrite !zlen_cons. lia.
Qed.
Lemma nthZ_pairs o i : nthZ (pairs o) i = match nthZ o i, nthZ o (i + 1) with Some a, Some b => Some (a, b) | _, _ => None end.
Proof.
  revert i; induction o as [|a o IH]; intros i; cbn [pairs].
  - now rewrite !nthZ_nil.
  - destruct o as [|b o].
    + rewrite nthZ_nil, !nthZ_cons. destruct (Z.eqb_spec i 0), (Z.eqb_spec (i+1) 0); rewrite ?nthZ_nil; subst; try lia; auto.
    + rewrite nthZ_cons, IH. rewrite (nthZ_cons a (b :: o) i), (nthZ_cons a (b :: o) (i + 1)).
      destruct (Z.eqb_spec i 0) as [->|].
      * cbn. reflexivity.
      * destruct (Z.eqb_spec (i+1) 0).
        -- rewrite !(nthZ_neg (b :: o)) by lia. reflexivity.
        -- replace (i - 1 + 1) with i by lia. replace (i + 1 - 1) with i by lia. reflexivity.
Qed.
Lemma pairs_slice o a b : 0 <= a <= b -> b + 1 <= zlen o -> pairs (slice a (b + 1) o) = slice a b (pairs o).
Proof.
  intros. apply list_eqZ.
  - rewrite zlen_pairs by (rewrite zlen_slice; lia). rewrite !zlen_slice by (rewrite ?zlen_pairs; lia). lia.
  - intros i Hi. rewrite zlen_pairs in Hi by (rewrite zlen_slice; lia). rewrite zlen_slice in Hi by lia.
    rewrite nthZ_slice, !nthZ_pairs, !nthZ_slice by lia. now replace (a + i + 1) with (a + (i + 1)) by lia.
Qed.
Lemma combine_slice {A B} (x : list A) (y : list B) a b :
  0 <= a -> combine (slice a b x) (slice a b y) = slice a b (combine x y).
Proof.
  intros Ha. unfold slice. generalize (Z.to_nat a) as n, (Z.to_nat (b - a)) as m. clear. intros n m.
  revert x y; induction n; intros x y; cbn [skipn].
  - revert x y; induction m; intros x y; [reflexivity|]. destruct x, y; cbn; rewrite ?IHm; try reflexivity.
  - destruct x, y; cbn [skipn combine]; rewrite ?firstn_nil; try reflexivity.
    + destruct (firstn m (skipn n x)); reflexivity.
    + apply IHn.
Qed.
Lemma zlen_combine_le {A B} (a : list A) (b : list B) : zlen a <= zlen b -> zlen (combine a b) = zlen a.
Proof. unfold zlen; rewrite combine_length; lia. Qed.
Lemma zlen_combine_le_r {A B} (a : list A) (b : list B) : zlen b <= zlen a -> zlen (combine a b) = zlen b.
Proof. unfold zlen; rewrite combine_length; lia. Qed.

(** *** lengths *)
Lemma den_length c vs : den c = Some vs -> length_ c = zlen vs.
Proof.
  revert vs; induction c using content_ind'; intros vs; cbn [den length_].
  - intros [= <-]; reflexivity.
  - intros [= <-]; now rewrite zlen_map.
  - destruct (den c); [|discriminate]. destruct (Z.leb_spec (zlen starts) (zlen stops)); [|discriminate].
    intros Ho; apply omap_zlen in Ho. rewrite zlen_combine_le in Ho by lia. lia.
  - destruct (den c); [|discriminate]. destruct (Z.leb_spec 1 (zlen offsets)); [|discriminate].
    intros Ho; apply omap_zlen in Ho. rewrite zlen_pairs in Ho by lia. lia.
  - destruct (den c) as [ws|]; [|discriminate]. rewrite (IHc _ eq_refl).
    destruct (Z.ltb_spec 0 size), (Z.eqb_spec size 0); try lia; cbn [negb andb]; try discriminate.
    + intros Ho; apply omap_zlen in Ho. pose proof (zlen_nonneg ws).
      rewrite Ho, zlen_zseq by (apply Z.div_pos; lia). rewrite Z.quot_div_nonneg by lia. lia.
    + destruct (Z.leb_spec 0 zl); [|discriminate]. intros [= <-]. rewrite zlen_repeat. lia.
  - destruct (den c); [|discriminate]. intros Ho; apply omap_zlen in Ho; lia.
  - destruct (den c); [|discriminate]. intros Ho; apply omap_zlen in Ho; lia.
  - destruct (den c) as [ws|]; [|discriminate]. destruct (Z.leb_spec (zlen mask) (zlen ws)); [|discriminate].
    intros [= <-]. rewrite zlen_map, zlen_combine_le by lia. reflexivity.
  - destruct (den c) as [ws|]; [|discriminate].
    destruct (Z.leb_spec 0 len); cbn [andb]; [|discriminate]. destruct ((len <=? zlen ws) && (len <=? 8 * zlen mask)); [|discriminate].
    intros Ho; apply omap_zlen in Ho. rewrite zlen_zseq in Ho by lia; lia.
  - apply IHc.
  - destruct (omap den cs); [|discriminate]. destruct (Z.leb_spec 0 len); cbn [andb]; [|discriminate].
    destruct (keys_ok keys (zlen cs)); [|discriminate].
    intros Ho; apply omap_zlen in Ho. rewrite zlen_zseq in Ho by lia; lia.
  - destruct (omap den cs); [|discriminate]. destruct ((1 <=? zlen cs) && (zlen tags <=? zlen index)) eqn:E; [|discriminate].
    intros Ho; apply omap_zlen in Ho. rewrite zlen_combine_le in Ho by lia. lia.
Qed.

(** *** bit masks *)
Definition maskval (mask : list Z) (lsb : bool) (i : Z) : bool :=
  match nthZ mask (i / 8) with Some byte => Z.testbit byte (if lsb then i mod 8 else 7 - i mod 8) | None => false end.
Lemma mask_bit_val mask lsb i : 0 <= i < 8 * zlen mask -> mask_bit mask lsb i = Some (maskval mask lsb i).
Proof.
  intros H. unfold mask_bit, maskval. destruct (nthZ_lt mask (i/8)) as [x Hx]; [lia|]. now rewrite Hx.
Qed.
Lemma land1_testbit byte j : 0 <= j -> Z.land (Z.shiftr byte j) 1 = b2z (Z.testbit byte j).
Proof.
  intros Hj. rewrite <- (Z.shiftr_spec byte j 0) || idtac.
  change 1 with (Z.ones 1). rewrite Z.land_ones by lia. change (2^1) with 2.
  rewrite <- Z.bit0_mod. rewrite Z.shiftr_spec by lia. rewrite Z.add_0_l.
  destruct (Z.testbit byte j); reflexivity.
Qed.
Lemma land128_testbit x : (Z.land x 128 =? 0) = negb (Z.testbit x 7).
Proof.
  destruct (Z.testbit x 7) eqn:E; cbn [negb].
  - apply Z.eqb_neq. intros H. assert (Z.testbit (Z.land x 128) 7 = false) as H1 by (rewrite H; apply Z.bits_0).
    rewrite Z.land_spec, E in H1. discriminate.
  - apply Z.eqb_eq. apply Z.bits_inj'. intros n Hn. rewrite Z.land_spec, Z.bits_0.
    change 128 with (2^7). rewrite Z.pow2_bits_eqb by lia. destruct (Z.eqb_spec 7 n) as [<-|]; [now rewrite E|apply andb_false_r].
Qed.
Lemma testbit_mod256 x j : 0 <= j < 8 -> Z.testbit (x mod 256) j = Z.testbit x j.
Proof. intros. change 256 with (2^8). apply Z.mod_pow2_bits_low. lia. Qed.
Lemma shiftl_mod256 x j : 0 <= j -> (Z.shiftl ((Z.shiftl x j) mod 256) 1) mod 256 = (Z.shiftl x (j + 1)) mod 256.
Proof.
  intros. rewrite !Z.shiftl_mul_pow2 by lia. rewrite Z.pow_add_r by lia. change (2^1) with 2.
  rewrite Z.mul_mod_idemp_l by lia. f_equal. ring.
Qed.

Lemma bits_to_bytes out mask n vw lsb :
  n = zlen mask -> zlen out = 8 * n ->
  awkward_BitMaskedArray_to_ByteMaskedArray out mask n vw lsb
    = Ok (map (fun i => b2z (negb (Bool.eqb (maskval mask lsb i) vw))) (zseq 0 (8 * n))).
Proof.
  intros -> Hout. unfold awkward_BitMaskedArray_to_ByteMaskedArray.
  set (g := fun i j => b2z (negb (Bool.eqb (maskval mask lsb (i * 8 + j)) vw))).
  assert (H : for_ 0 (zlen mask) (fun i o => for_ 0 8 (fun j o => wr o (i * 8 + j) (g i j)) o) out
     = Ok (map (fun i => b2z (negb (Bool.eqb (maskval mask lsb i) vw))) (zseq 0 (8 * zlen mask)))).
  { pose proof (zlen_nonneg mask).
    destruct (for_fill2 (fun i j o => wr o (i * 8 + j) (g i j)) g (zlen mask) 8 out) as (rest & Hf & Hl); try lia.
    { intros; reflexivity. }
    rewrite Hf. f_equal. assert (zlen rest = 0) as Hr by lia. apply zlen_0 in Hr. subst rest. rewrite app_nil_r.
    generalize (zlen mask) as n, H. clear. intros n Hn. pattern n. apply natlike_ind; [reflexivity| |exact Hn].
    intros k Hk IH. replace (Z.succ k) with (k + 1) by lia. rewrite (zseq_snoc 0 k), map_app, concat_app by lia.
    rewrite IH. replace (8 * (k + 1)) with (8 * k + 8) by lia. rewrite (zseq_split 0 (8*k) (8*k+8)), map_app by lia.
    f_equal. cbn [map concat]. rewrite app_nil_r. change (8 * k) with (8*k). replace (8*k) with (0 + 8*k) at 1 by lia.
    replace (8 * k + 8) with (8 + 8 * k) by lia. rewrite map_zseq_shift. apply map_ext. intros j. unfold g.
    do 4 f_equal. lia. }
  rewrite <- H. apply for_ext. intros i o Hi. destruct (rd_in mask i) as (byte & Hb & Hn); [lia|]. rewrite Hb. cbn [bind].
  pose (R := fun (j : Z) (s : Z * list Z) (t : list Z) =>
     s = ((if lsb then Z.shiftr byte j else (Z.shiftl byte j) mod 256), t) \/ (j = 0 /\ s = (byte, t))).
  assert (Hbit : forall j, 0 <= j < 8 -> maskval mask lsb (i * 8 + j) = Z.testbit byte (if lsb then j else 7 - j)).
  { intros j Hj. unfold maskval. replace ((i * 8 + j) / 8) with i by lia. rewrite Hn.
    replace ((i * 8 + j) mod 8) with j by lia. reflexivity. }
  match goal with |- bind (for_ 0 8 ?f (byte, o)) _ = for_ 0 8 ?gg o =>
    pose proof (for_sim R 0 8 f gg (byte, o) o) as Hs end.
  assert (Hstep : match for_ 0 8 (fun (j : Z) (o : list Z) => wr o (i * 8 + j) (g i j)) o with
       | Ok t' => exists s', for_ 0 8 (fun j st => let '(byte, tobytemask) := st in
      if lsb then
        let* tobytemask := wr tobytemask (i*8 + j) (b2z (negb (Z.land byte 1 =? b2z vw))) in
        Ok (Z.shiftr byte 1, tobytemask)
      else
        let* tobytemask := wr tobytemask (i*8 + j) (b2z (negb (Bool.eqb (negb (Z.land byte 128 =? 0)) vw))) in
        Ok ((Z.shiftl byte 1) mod 256, tobytemask)) (byte, o) = Ok s' /\ R 8 s' t'
       | Err m => for_ 0 8 (fun j st => let '(byte, tobytemask) := st in
      if lsb then
        let* tobytemask := wr tobytemask (i*8 + j) (b2z (negb (Z.land byte 1 =? b2z vw))) in
        Ok (Z.shiftr byte 1, tobytemask)
      else
        let* tobytemask := wr tobytemask (i*8 + j) (b2z (negb (Bool.eqb (negb (Z.land byte 128 =? 0)) vw))) in
        Ok ((Z.shiftl byte 1) mod 256, tobytemask)) (byte, o) = Err m
       | UB => for_ 0 8 (fun j st => let '(byte, tobytemask) := st in
      if lsb then
        let* tobytemask := wr tobytemask (i*8 + j) (b2z (negb (Z.land byte 1 =? b2z vw))) in
        Ok (Z.shiftr byte 1, tobytemask)
      else
        let* tobytemask := wr tobytemask (i*8 + j) (b2z (negb (Bool.eqb (negb (Z.land byte 128 =? 0)) vw))) in
        Ok ((Z.shiftl byte 1) mod 256, tobytemask)) (byte, o) = UB end).
  { apply Hs; [lia|right; auto|]. clear Hs H. intros j s t Hj HR.
    assert (Hg : forall b, s = (b, t) -> (b = (if lsb then Z.shiftr byte j else (Z.shiftl byte j) mod 256) \/ (j = 0 /\ b = byte)) ->
      (if lsb then b2z (negb (Z.land b 1 =? b2z vw)) else b2z (negb (Bool.eqb (negb (Z.land b 128 =? 0)) vw))) = g i j).
    { intros b _ Hb'. unfold g. rewrite Hbit by lia. destruct lsb.
      - assert (Z.land b 1 = b2z (Z.testbit byte j)) as ->.
        { destruct Hb' as [->|[-> ->]]; [apply land1_testbit; lia|]. rewrite <- (land1_testbit byte 0) by lia. now rewrite Z.shiftr_0_r. }
        destruct (Z.testbit byte j), vw; reflexivity.
      - rewrite land128_testbit, negb_involutive. assert (Z.testbit b 7 = Z.testbit byte (7 - j)) as ->; [|reflexivity].
        destruct Hb' as [->|[-> ->]]; [|f_equal; lia]. rewrite testbit_mod256 by lia. rewrite Z.shiftl_spec by lia. reflexivity. }
    assert (exists b, s = (b, t) /\ (b = (if lsb then Z.shiftr byte j else (Z.shiftl byte j) mod 256) \/ (j = 0 /\ b = byte))) as (b & -> & Hb').
    { destruct HR as [->|[-> ->]]; eauto. }
    specialize (Hg b eq_refl Hb'). destruct lsb.
    - rewrite Hg. destruct (wr t (i * 8 + j) (g i j)); cbn [bind]; [|reflexivity|reflexivity].
      eexists; split; [reflexivity|]. left. f_equal. destruct Hb' as [->|[-> ->]].
      + rewrite Z.shiftr_shiftr by lia. reflexivity.
      + reflexivity.
    - rewrite Hg. destruct (wr t (i * 8 + j) (g i j)); cbn [bind]; [|reflexivity|reflexivity].
      eexists; split; [reflexivity|]. left. f_equal. destruct Hb' as [->|[-> ->]].
      + apply shiftl_mod256; lia.
      + reflexivity. }
  destruct (for_ 0 8 (fun (j : Z) (o : list Z) => wr o (i * 8 + j) (g i j)) o) as [t'|m|].
  - destruct Hstep as (s' & -> & [->|[? _]]); [reflexivity|lia].
  - rewrite Hstep; reflexivity.
  - rewrite Hstep; reflexivity.
Qed.
Lemma bytemask0_spec mask lsb len : 0 <= len <= 8 * zlen mask ->
  BitMasked_bytemask0 mask lsb len = Ok (map (fun i => b2z (maskval mask lsb i)) (zseq 0 len)).
Proof.
  intros H. unfold BitMasked_bytemask0. rewrite bits_to_bytes by (rewrite ?zlen_alloc; lia). cbn [bind].
  rewrite iview_Ok by (rewrite ?zlen_map, ?zlen_zseq by lia; lia).
  rewrite slice_map, slice_zseq by lia. f_equal. apply map_ext. intros i. destruct (maskval mask lsb i); reflexivity.
Qed.
Lemma b2z_nz b : negb (b2z b =? 0) = b.
Proof. destruct b; reflexivity. Qed.
(** a BitMaskedArray means the same as its ByteMaskedArray *)
Lemma bitmasked_den mask vw lsb len c vs :
  den (BitMasked mask vw lsb len c) = Some vs ->
  0 <= len <= 8 * zlen mask /\
  den (ByteMasked (map (fun i => b2z (maskval mask lsb i)) (zseq 0 len)) vw c) = Some vs.
Proof.
  cbn [den]. destruct (den c) as [ws|]; [|discriminate].
  destruct (Z.leb_spec 0 len), (Z.leb_spec len (zlen ws)), (Z.leb_spec len (8 * zlen mask)); cbn [andb]; try discriminate.
  intros Ho. split; [lia|]. rewrite zlen_map, zlen_zseq by lia. destruct (Z.leb_spec (len - 0) (zlen ws)); [|lia].
  f_equal. pose proof (omap_zlen _ _ _ Ho) as Hl. rewrite zlen_zseq in Hl by lia.
  assert (Hlen : zlen (combine (map (fun i => b2z (maskval mask lsb i)) (zseq 0 len)) ws) = len)
    by (rewrite zlen_combine_le; rewrite zlen_map, zlen_zseq by lia; lia).
  apply list_eqZ; rewrite ?zlen_map, Hlen; [lia|]. intros i Hi.
  rewrite nthZ_map, nthZ_combine, nthZ_map, nthZ_zseq by lia. cbn [option_map]. rewrite Z.add_0_l.
  destruct (omap_nth _ _ _ i i Ho) as [E _]; [rewrite nthZ_zseq by lia; f_equal; lia|].
  rewrite mask_bit_val in E by lia. destruct (nthZ_lt ws i) as [w Hw]; [lia|]. rewrite Hw in *. rewrite <- E. cbn.
  now rewrite b2z_nz.
Qed.

(** *** getitem_range *)
Lemma range_den c vs a b :
  den c = Some vs -> 0 <= a <= b -> b <= zlen vs ->
  exists c', getitem_range_nowrap c a b = Ok c' /\ den c' = Some (slice a b vs).
Proof.
  revert vs a b; induction c using content_ind'; intros vs a b Hd Ha Hb.
  - cbn in *. injection Hd as <-. change (zlen (@nil value)) with 0 in Hb. exists Empty; split; [reflexivity|].
    now rewrite slice_beyond by (change (zlen (@nil value)) with 0; lia).
  - cbn in *. injection Hd as <-. rewrite zlen_map in Hb. rewrite view_Ok by lia. cbn. eexists; split; [reflexivity|]. cbn. now rewrite slice_map.
  - pose proof (den_length _ _ Hd) as HL. cbn [length_] in HL. cbn [den] in Hd. cbn [getitem_range_nowrap].
    destruct (den c) as [ws|] eqn:Ec; [|discriminate]. destruct (Z.leb_spec (zlen starts) (zlen stops)); [|discriminate].
    rewrite !iview_Ok by lia. cbn [bind]. unfold mkListA. rewrite !zlen_slice by lia.
    destruct (Z.ltb_spec (b - a) (b - a)); [lia|]. eexists; split; [reflexivity|]. cbn [den]. rewrite Ec, !zlen_slice by lia.
    destruct (Z.leb_spec (b - a) (b - a)); [|lia]. rewrite combine_slice by lia. now apply omap_slice.
  - pose proof (den_length _ _ Hd) as HL. cbn [length_] in HL. cbn [den] in Hd. cbn [getitem_range_nowrap].
    destruct (den c) as [ws|] eqn:Ec; [|discriminate]. destruct (Z.leb_spec 1 (zlen offsets)); [|discriminate].
    rewrite !iview_Ok by lia. cbn [bind]. unfold mkListOffset. rewrite !zlen_slice by lia.
    destruct (Z.eqb_spec (b + 1 - a) 0); [lia|]. eexists; split; [reflexivity|]. cbn [den]. rewrite Ec, !zlen_slice by lia.
    destruct (Z.leb_spec 1 (b + 1 - a)); [|lia]. rewrite pairs_slice by lia. now apply omap_slice.
  - pose proof (den_length _ _ Hd) as HL. cbn [length_] in HL. cbn [den] in Hd. cbn [getitem_range_nowrap].
    destruct (den c) as [ws|] eqn:Ec; [|discriminate]. pose proof (den_length _ _ Ec) as HLc. pose proof (zlen_nonneg ws).
    destruct (Z.ltb_spec 0 size).
    + destruct (Z.eqb_spec size 0); [lia|]. cbn [negb] in HL. rewrite HLc, Z.quot_div_nonneg in HL by lia.
      destruct (IHc ws (a * size) (b * size) eq_refl) as (c' & Hr & Hd'); [nia|nia|].
      rewrite Hr. cbn [bind]. unfold mkRegular. pose proof (den_length _ _ Hd') as HL'. rewrite zlen_slice in HL' by nia.
      cbn [length_]. destruct (Z.ltb_spec size 0); [lia|]. destruct (Z.eqb_spec size 0); [lia|]. cbn [negb].
      assert (b * size - a * size = (b - a) * size) as Hbs by ring.
      assert (Hq : Z.quot (length_ c') size = b - a) by (rewrite HL', Hbs; apply Z.quot_mul; lia).
      rewrite Hq. destruct (Z.ltb_spec (b - a) 0); [lia|]. eexists; split; [reflexivity|]. cbn [den]. rewrite Hd'.
      destruct (Z.ltb_spec 0 size); [|lia]. rewrite zlen_slice by nia. rewrite Hbs, Z.div_mul by lia.
      apply omap_intro; [rewrite zlen_slice, zlen_zseq by lia; lia|]. intros i x Hx.
      pose proof (nthZ_Some _ _ _ Hx) as Hi. rewrite zlen_zseq in Hi by lia. rewrite nthZ_zseq in Hx by lia. injection Hx as <-.
      rewrite nthZ_slice by lia.
      destruct (omap_nth _ _ _ (a + i) (a + i) Hd) as [E _]; [rewrite nthZ_zseq by (rewrite <- ?HL; lia); f_equal; lia|].
      rewrite <- E. unfold sublist. rewrite zlen_slice by nia. rewrite !Z.add_0_l.
      destruct (Z.eqb_spec (i * size) ((i + 1) * size)); [nia|]. destruct (Z.eqb_spec ((a + i) * size) ((a + i + 1) * size)); [nia|].
      destruct (Z.leb_spec 0 (i * size)), (Z.leb_spec (i * size) ((i + 1) * size)), (Z.leb_spec ((i + 1) * size) (b * size - a * size)); try nia.
      destruct (Z.leb_spec 0 ((a + i) * size)), (Z.leb_spec ((a + i) * size) ((a + i + 1) * size)), (Z.leb_spec ((a + i + 1) * size) (zlen ws)); try nia.
      cbn [andb]. rewrite slice_slice by nia. do 3 f_equal; ring.
    + destruct (Z.eqb_spec size 0) as [->|]; [|discriminate]. cbn [negb andb] in *.
      destruct (Z.leb_spec 0 zl); [|discriminate]. injection Hd as <-. rewrite zlen_repeat in *.
      destruct (IHc ws (a * 0) (b * 0) eq_refl) as (c' & Hr & Hd'); [lia|lia|]. rewrite Hr. cbn [bind]. unfold mkRegular. cbn [length_].
      change (0 <? 0) with false. change (0 =? 0) with true. cbn [negb]. destruct (Z.ltb_spec (b - a) 0); [lia|].
      eexists; split; [reflexivity|]. cbn [den]. rewrite Hd'. change (0 <? 0) with false. change (0 =? 0) with true.
      destruct (Z.leb_spec 0 (b - a)); [|lia]. cbn [andb]. f_equal. apply list_eqZ.
      * rewrite zlen_slice by (rewrite ?zlen_repeat; lia). rewrite zlen_repeat. lia.
      * intros i Hi. rewrite zlen_repeat in Hi. rewrite nthZ_slice, !nthZ_repeat by lia. reflexivity.
  - pose proof (den_length _ _ Hd) as HL. cbn [length_] in HL. cbn [den] in Hd. cbn [getitem_range_nowrap].
    destruct (den c) as [ws|] eqn:Ec; [|discriminate]. rewrite iview_Ok by lia. cbn [bind].
    eexists; split; [reflexivity|]. cbn [den]. rewrite Ec. now apply omap_slice.
  - pose proof (den_length _ _ Hd) as HL. cbn [length_] in HL. cbn [den] in Hd. cbn [getitem_range_nowrap].
    destruct (den c) as [ws|] eqn:Ec; [|discriminate]. rewrite iview_Ok by lia. cbn [bind].
    eexists; split; [reflexivity|]. cbn [den]. rewrite Ec. now apply omap_slice.
  - pose proof (den_length _ _ Hd) as HL. cbn [length_] in HL. cbn [den] in Hd. cbn [getitem_range_nowrap].
    destruct (den c) as [ws|] eqn:Ec; [|discriminate]. destruct (Z.leb_spec (zlen mask) (zlen ws)); [|discriminate]. injection Hd as Hd.
    rewrite iview_Ok by lia. cbn [bind].
    destruct (IHc ws a b eq_refl) as (c' & Hr & Hd'); [lia|lia|]. rewrite Hr. cbn [bind]. unfold mkByteMasked.
    rewrite (den_length _ _ Hd'), !zlen_slice by lia. destruct (Z.ltb_spec (b - a) (b - a)); [lia|].
    eexists; split; [reflexivity|]. cbn [den]. rewrite Hd', !zlen_slice by lia. destruct (Z.leb_spec (b - a) (b - a)); [|lia].
    rewrite combine_slice, <- slice_map by lia. now rewrite Hd.
  - destruct (bitmasked_den _ _ _ _ _ _ Hd) as [Hlen Hd2].
    pose proof (den_length _ _ Hd) as HL. cbn [length_] in HL.
    cbn [getitem_range_nowrap]. rewrite bytemask0_spec by lia. cbn [bind].
    set (bm := map _ _) in *. cbn [den] in Hd2. destruct (den c) as [ws|] eqn:Ec; [|discriminate].
    assert (Hbm : zlen bm = len) by (unfold bm; rewrite zlen_map, zlen_zseq by lia; lia).
    destruct (Z.leb_spec (zlen bm) (zlen ws)); [|discriminate]. injection Hd2 as Hd2.
    unfold mkByteMasked at 1. rewrite (den_length _ _ Ec). destruct (Z.ltb_spec (zlen ws) (zlen bm)); [lia|]. cbn [bind].
    rewrite iview_Ok by lia. cbn [bind].
    destruct (IHc ws a b eq_refl) as (c' & Hr & Hd'); [lia|lia|]. rewrite Hr. cbn [bind]. unfold mkByteMasked.
    rewrite (den_length _ _ Hd'), !zlen_slice by lia. destruct (Z.ltb_spec (b - a) (b - a)); [lia|].
    eexists; split; [reflexivity|]. cbn [den]. rewrite Hd', !zlen_slice by lia. destruct (Z.leb_spec (b - a) (b - a)); [|lia].
    rewrite combine_slice, <- slice_map by lia. now rewrite Hd2.
  - cbn [den getitem_range_nowrap] in *. destruct (IHc vs a b Hd) as (c' & Hr & Hd'); [lia|lia|]. rewrite Hr. cbn. eauto.
  - pose proof (den_length _ _ Hd) as HL. cbn [length_] in HL. pose proof Hd as Hd0. cbn [den] in Hd.
    destruct (omap den cs) as [vss|] eqn:Ecs; [|discriminate].
    destruct (Z.leb_spec 0 len); [|discriminate]. destruct (keys_ok keys (zlen cs)) eqn:Ek; [|discriminate]. cbn [andb] in Hd.
    assert (Hmk : forall n cs', zlen cs' = zlen cs -> mkRecord keys n cs' = Ok (Record keys n cs')).
    { intros n cs' Hl. unfold mkRecord. destruct keys as [ks|]; [|reflexivity]. cbn [keys_ok] in Ek. rewrite Hl, Ek. reflexivity. }
    cbn [getitem_range_nowrap]. destruct cs as [|c0 cs0].
    + rewrite Hmk by reflexivity. eexists; split; [reflexivity|]. cbn [den omap] in *. injection Ecs as <-. rewrite Ek.
      destruct (Z.leb_spec 0 (b - a)); [|lia]. cbn [andb omap option_map] in *.
      apply omap_intro; [rewrite zlen_slice, zlen_zseq by lia; lia|]. intros i x Hx.
      pose proof (nthZ_Some _ _ _ Hx) as Hi. rewrite zlen_zseq in Hi by lia. rewrite nthZ_slice by lia.
      destruct (omap_nth _ _ _ (a + i) (a + i) Hd) as [E _]; [rewrite nthZ_zseq by lia; f_equal; lia|]. exact E.
    + set (cs := c0 :: cs0) in *. destruct (Z.eqb_spec a 0), (Z.eqb_spec b len); cbn [andb].
      { subst a. eexists; split; [reflexivity|]. rewrite Hd0. f_equal. symmetry. apply slice_full'. lia. }
      all: assert (Hvs : forall v, In v vss -> b <= zlen v \/ len = 0).
      all: try (intros v Hv; destruct (Z.eqb_spec len 0); [now right|left];
           destruct (omap_nth _ _ _ (len - 1) (len - 1) Hd) as [_ [y Hy]]; [rewrite nthZ_zseq by lia; f_equal; lia|];
           destruct (omap (fun vs => nthZ vs (len - 1)) vss) as [row|] eqn:Er; [|discriminate];
           destruct (omap_In _ _ _ _ Er Hv) as (z & Hz & _); apply nthZ_Some in Hz; lia).
      all: destruct (mapres_den (fun c => getitem_range_nowrap c a b) den (fun v => Some (slice a b v)) cs vss Ecs) as (cs' & vss' & H1 & H2 & H3 & H4);
        [intros c v Hc Hcv; rewrite Forall_forall in H;
         destruct (omap_In _ _ _ _ Ecs Hc) as (v' & Hv' & Hin); rewrite Hv' in Hcv; injection Hcv as ->;
         destruct (Hvs _ Hin); [|exfalso; lia];
         destruct (H c Hc v a b Hv') as (c' & Hr & Hd'); [lia|lia|]; exists c', (slice a b v); auto|].
      all: rewrite omap_Some_map in H3; injection H3 as <-.
      all: rewrite H1; cbn [bind]; rewrite Hmk by exact H4; eexists; split; [reflexivity|]; cbn [den]; rewrite H2, H4, Ek.
      all: destruct (Z.leb_spec 0 (b - a)); [|lia]; cbn [andb].
      all: apply omap_intro; [rewrite zlen_slice, zlen_zseq by lia; lia|]; intros i x Hx.
      all: pose proof (nthZ_Some _ _ _ Hx) as Hi; rewrite zlen_zseq in Hi by lia; rewrite nthZ_zseq in Hx by lia; injection Hx as <-.
      all: rewrite nthZ_slice by lia; destruct (omap_nth _ _ _ (a + i) (a + i) Hd) as [E _]; [rewrite nthZ_zseq by lia; f_equal; lia|].
      all: rewrite <- E; f_equal; rewrite omap_map; apply omap_ext; intros v Hv; rewrite nthZ_slice by lia; f_equal; lia.
  - pose proof (den_length _ _ Hd) as HL. cbn [length_] in HL. cbn [den] in Hd. cbn [getitem_range_nowrap].
    destruct (omap den cs) as [vss|] eqn:Ecs; [|discriminate].
    destruct (Z.leb_spec 1 (zlen cs)); [|discriminate]. destruct (Z.leb_spec (zlen tags) (zlen index)); [|discriminate]. cbn [andb] in Hd.
    rewrite !iview_Ok by lia. cbn [bind]. unfold mkUnion. destruct cs as [|c0 cs0]; [change (zlen (@nil content)) with 0 in *; lia|].
    rewrite !zlen_slice by lia. destruct (Z.ltb_spec (b - a) (b - a)); [lia|]. eexists; split; [reflexivity|].
    cbn [den]. rewrite Ecs, !zlen_slice by lia. destruct (Z.leb_spec 1 (zlen (c0 :: cs0))); [|lia]. destruct (Z.leb_spec (b - a) (b - a)); [|lia].
    cbn [andb]. rewrite combine_slice by lia. now apply omap_slice.
Qed.
