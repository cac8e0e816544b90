(** Proofs about option-type nodes. *)
From Verif Require Export PList KOption Option SpecOption.

Lemma bits_to_index out mask n vw lsb :
  n = zlen mask -> zlen out = 8 * n ->
  awkward_BitMaskedArray_to_IndexedOptionArray out mask n vw lsb
    = Ok (map (fun i => if Bool.eqb (maskval mask lsb i) vw then i else -1) (zseq 0 (8 * n))).
Proof.
  intros -> Hout. unfold awkward_BitMaskedArray_to_IndexedOptionArray.
  set (g := fun i j => if Bool.eqb (maskval mask lsb (i * 8 + j)) vw then i * 8 + j else -1).
  assert (H : for_ 0 (zlen mask) (fun i o => for_ 0 8 (fun j o => wr o (i * 8 + j) (g i j)) o) out
     = Ok (map (fun i => if Bool.eqb (maskval mask lsb i) vw then i else -1) (zseq 0 (8 * zlen mask)))).
  { pose proof (zlen_nonneg mask).
    destruct (for_fill2 (fun i j o => wr o (i * 8 + j) (g i j)) g (zlen mask) 8 out) as (rest & Hf & Hl); try lia.
    { intros; reflexivity. }
    rewrite Hf. f_equal. assert (zlen rest = 0) as Hr by lia. apply zlen_0 in Hr. subst rest. rewrite app_nil_r.
    generalize (zlen mask) as n, H. clear. intros n Hn. pattern n. apply natlike_ind; [reflexivity| |exact Hn].
    intros k Hk IH. replace (Z.succ k) with (k + 1) by lia. rewrite (zseq_snoc 0 k), map_app, concat_app by lia.
    rewrite IH. replace (8 * (k + 1)) with (8 * k + 8) by lia. rewrite (zseq_split 0 (8*k) (8*k+8)), map_app by lia.
    f_equal. cbn [map concat]. rewrite app_nil_r. change (8 * k) with (8*k). replace (8*k) with (0 + 8*k) at 1 by lia.
    replace (8 * k + 8) with (8 + 8 * k) by lia. rewrite map_zseq_shift. apply map_ext. intros j. unfold g.
    replace (j + 8 * k) with (k * 8 + j) by lia. reflexivity. }
  rewrite <- H. apply for_ext. intros i o Hi. destruct (rd_in mask i) as (byte & Hb & Hn); [lia|]. rewrite Hb. cbn [bind].
  pose (R := fun (j : Z) (s : Z * list Z) (t : list Z) =>
     s = ((if lsb then Z.shiftr byte j else (Z.shiftl byte j) mod 256), t) \/ (j = 0 /\ s = (byte, t))).
  assert (Hbit : forall j, 0 <= j < 8 -> maskval mask lsb (i * 8 + j) = Z.testbit byte (if lsb then j else 7 - j)).
  { intros j Hj. unfold maskval. replace ((i * 8 + j) / 8) with i by lia. rewrite Hn.
    replace ((i * 8 + j) mod 8) with j by lia. reflexivity. }
  match goal with |- bind (for_ 0 8 ?f (byte, o)) _ = for_ 0 8 ?gg o =>
    pose proof (for_sim R 0 8 f gg (byte, o) o) as Hs end.
  assert (Hstep : match for_ 0 8 (fun (j : Z) (o : list Z) => wr o (i * 8 + j) (g i j)) o with
       | Ok t' => exists s', for_ 0 8 (fun j st => let '(byte, tobytemask) := st in
      if lsb then
        let* tobytemask := wr tobytemask (i*8 + j) (if Z.land byte 1 =? b2z vw then i*8 + j else -1) in
        Ok (Z.shiftr byte 1, tobytemask)
      else
        let* tobytemask := wr tobytemask (i*8 + j) (if Bool.eqb (negb (Z.land byte 128 =? 0)) vw then i*8 + j else -1) in
        Ok ((Z.shiftl byte 1) mod 256, tobytemask)) (byte, o) = Ok s' /\ R 8 s' t'
       | Err m => for_ 0 8 (fun j st => let '(byte, tobytemask) := st in
      if lsb then
        let* tobytemask := wr tobytemask (i*8 + j) (if Z.land byte 1 =? b2z vw then i*8 + j else -1) in
        Ok (Z.shiftr byte 1, tobytemask)
      else
        let* tobytemask := wr tobytemask (i*8 + j) (if Bool.eqb (negb (Z.land byte 128 =? 0)) vw then i*8 + j else -1) in
        Ok ((Z.shiftl byte 1) mod 256, tobytemask)) (byte, o) = Err m
       | UB => for_ 0 8 (fun j st => let '(byte, tobytemask) := st in
      if lsb then
        let* tobytemask := wr tobytemask (i*8 + j) (if Z.land byte 1 =? b2z vw then i*8 + j else -1) in
        Ok (Z.shiftr byte 1, tobytemask)
      else
        let* tobytemask := wr tobytemask (i*8 + j) (if Bool.eqb (negb (Z.land byte 128 =? 0)) vw then i*8 + j else -1) in
        Ok ((Z.shiftl byte 1) mod 256, tobytemask)) (byte, o) = UB end).
  { apply Hs; [lia|right; auto|]. clear Hs H. intros j s t Hj HR.
    assert (Hg : forall b, s = (b, t) -> (b = (if lsb then Z.shiftr byte j else (Z.shiftl byte j) mod 256) \/ (j = 0 /\ b = byte)) ->
      (if lsb then (if Z.land b 1 =? b2z vw then i*8 + j else -1) else (if Bool.eqb (negb (Z.land b 128 =? 0)) vw then i*8 + j else -1)) = g i j).
    { intros b _ Hb'. unfold g. rewrite Hbit by lia. destruct lsb.
      - assert (Z.land b 1 = b2z (Z.testbit byte j)) as ->.
        { destruct Hb' as [->|[-> ->]]; [apply land1_testbit; lia|]. rewrite <- (land1_testbit byte 0) by lia. now rewrite Z.shiftr_0_r. }
        destruct (Z.testbit byte j), vw; reflexivity.
      - rewrite land128_testbit, negb_involutive. assert (Z.testbit b 7 = Z.testbit byte (7 - j)) as ->; [|reflexivity].
        destruct Hb' as [->|[-> ->]]; [|f_equal; lia]. rewrite testbit_mod256 by lia. rewrite Z.shiftl_spec by lia. reflexivity. }
    assert (exists b, s = (b, t) /\ (b = (if lsb then Z.shiftr byte j else (Z.shiftl byte j) mod 256) \/ (j = 0 /\ b = byte))) as (b & -> & Hb').
    { destruct HR as [->|[-> ->]]; eauto. }
    specialize (Hg b eq_refl Hb'). destruct lsb.
    - rewrite Hg. destruct (wr t (i * 8 + j) (g i j)); cbn [bind]; [|reflexivity|reflexivity].
      eexists; split; [reflexivity|]. left. f_equal. destruct Hb' as [->|[-> ->]].
      + rewrite Z.shiftr_shiftr by lia. reflexivity.
      + reflexivity.
    - rewrite Hg. destruct (wr t (i * 8 + j) (g i j)); cbn [bind]; [|reflexivity|reflexivity].
      eexists; split; [reflexivity|]. left. f_equal. destruct Hb' as [->|[-> ->]].
      + apply shiftl_mod256; lia.
      + reflexivity. }
  destruct (for_ 0 8 (fun (j : Z) (o : list Z) => wr o (i * 8 + j) (g i j)) o) as [t'|m|].
  - destruct Hstep as (s' & -> & [->|[? _]]); [reflexivity|lia].
  - rewrite Hstep; reflexivity.
  - rewrite Hstep; reflexivity.
Qed.

(** elements of an index into [ws] where negative means missing *)
Definition optget (ws : list value) (i : Z) : option value := if i <? 0 then Some VNone else nthZ ws i.

Lemma to_indexed_option c vs : den c = Some vs -> (exists m v c', c = ByteMasked m v c') \/ (exists m v l n c', c = BitMasked m v l n c') \/ (exists c', c = Unmasked c') ->
  exists index c', toIndexedOptionArray64 c = Ok (IndexedOption index c') /\ den (IndexedOption index c') = Some vs /\ zlen index = zlen vs.
Proof.
  intros Hd [(m & v & c' & ->)|[(m & v & l & n & c' & ->)|(c' & ->)]]; pose proof (den_length _ _ Hd) as HL; cbn [toIndexedOptionArray64].
  - cbn [length_] in *. unfold awkward_ByteMaskedArray_toIndexedOptionArray. pose proof (zlen_nonneg m).
    set (g := fun i => match nthZ m i with Some x => if Bool.eqb (negb (x =? 0)) v then i else -1 | None => 0 end).
    rewrite (for_fill_all _ g) ; [|apply zlen_alloc; lia|].
    2: { intros i o Hi Ho. unfold g. destruct (rd_in m i) as (x & -> & ->); [lia|]. reflexivity. }
    cbn [bind]. eexists _, c'. split; [reflexivity|]. split; [|rewrite zlen_map, zlen_zseq; lia].
    cbn [den] in *. destruct (den c') as [ws|]; [|discriminate]. destruct (Z.leb_spec (zlen m) (zlen ws)); [|discriminate]. injection Hd as <-.
    rewrite omap_map. apply omap_intro; [rewrite zlen_map, zlen_combine_le by lia; rewrite zlen_zseq; lia|].
    intros i j Hj. pose proof (nthZ_Some _ _ _ Hj) as Hi. rewrite zlen_zseq in Hi by lia. rewrite nthZ_zseq in Hj by lia. injection Hj as <-.
    rewrite Z.add_0_l. unfold g. rewrite nthZ_map, nthZ_combine. destruct (nthZ_lt m i) as [x ->]; [lia|]. destruct (nthZ_lt ws i) as [w Hw]; [lia|]. rewrite Hw. cbn [option_map fst snd].
    destruct (Bool.eqb (negb (x =? 0)) v); [destruct (Z.ltb_spec i 0); [lia|exact Hw]|reflexivity].
  - pose proof (bitmasked_den _ _ _ _ _ _ Hd) as [Hn _]. cbn [length_] in HL.
    rewrite bits_to_index by (rewrite ?zlen_alloc; lia). cbn [bind]. rewrite iview_Ok by (rewrite ?zlen_map, ?zlen_zseq; lia). cbn [bind].
    rewrite slice_map, slice_zseq, !Z.add_0_l by lia.
    eexists _, c'. split; [reflexivity|]. split; [|rewrite zlen_map, zlen_zseq; lia].
    cbn [den] in *. destruct (den c') as [ws|]; [|discriminate]. destruct ((0 <=? n) && (n <=? zlen ws) && (n <=? 8 * zlen m)) eqn:Eb; [|discriminate].
    rewrite omap_map. rewrite <- Hd. apply omap_ext. intros i Hi. apply In_zseq in Hi. rewrite mask_bit_val by lia.
    destruct (nthZ_lt ws i) as [w Hw]; [lia|]. rewrite Hw. destruct (Bool.eqb (maskval m l i) v); [|reflexivity].
    destruct (Z.ltb_spec i 0); [lia|exact Hw].
  - pose proof (zlen_nonneg vs). rewrite HL. unfold awkward_carry_arange. rewrite (for_fill_all _ (fun i => i)) by (intros; rewrite ?zlen_alloc by lia; reflexivity).
    cbn [bind]. eexists _, c'. split; [reflexivity|]. rewrite map_id. split; [|rewrite zlen_zseq; lia]. cbn [den] in *. rewrite Hd.
    transitivity (omap (nthZ vs) (zseq 0 (zlen vs))); [|rewrite omap_nthZ_zseq by lia; now rewrite slice_full].
    apply omap_ext. intros i Hi. apply In_zseq in Hi. destruct (Z.ltb_spec i 0); [lia|reflexivity].
Qed.

Lemma to_byte_masked c vs : den c = Some vs -> (exists m v l n c', c = BitMasked m v l n c') \/ (exists c', c = Unmasked c') ->
  exists mask vw c', toByteMaskedArray c = Ok (ByteMasked mask vw c') /\ den (ByteMasked mask vw c') = Some vs /\ zlen mask = zlen vs.
Proof.
  intros Hd [(m & v & l & n & c' & ->)|(c' & ->)]; pose proof (den_length _ _ Hd) as HL; cbn [toByteMaskedArray].
  - destruct (bitmasked_den _ _ _ _ _ _ Hd) as [Hn Hd']. cbn [length_] in HL. rewrite bytemask0_spec by lia. cbn [bind].
    eexists _, v, c'. unfold mkByteMasked. pose proof Hd' as Hd2. cbn [den] in Hd'. destruct (den c') as [ws|] eqn:Ec; [|discriminate].
    rewrite (den_length _ _ Ec). destruct (Z.leb_spec (zlen (map (fun i => b2z (maskval m l i)) (zseq 0 n))) (zlen ws)); [|discriminate].
    destruct (Z.ltb_spec (zlen ws) (zlen (map (fun i => b2z (maskval m l i)) (zseq 0 n)))); [lia|].
    split; [reflexivity|]. split; [exact Hd2|]. rewrite zlen_map, zlen_zseq; lia.
  - pose proof (zlen_nonneg vs). rewrite HL. unfold awkward_one_mask. rewrite (for_fill_all _ (fun i => 1)) by (intros; rewrite ?zlen_alloc by lia; reflexivity).
    cbn [bind]. eexists _, true, c'. cbn [length_] in HL. unfold mkByteMasked. rewrite HL, zlen_map, zlen_zseq by lia. destruct (Z.ltb_spec (zlen vs) (zlen vs - 0)); [lia|].
    split; [reflexivity|]. split; [|rewrite zlen_map, zlen_zseq; lia]. cbn [den] in *. rewrite Hd, zlen_map, zlen_zseq by lia. destruct (Z.leb_spec (zlen vs - 0) (zlen vs)); [|lia].
    f_equal. apply list_eqZ; [rewrite zlen_map, zlen_combine; rewrite zlen_map, zlen_zseq; lia|].
    intros i Hi. rewrite zlen_map, zlen_combine in Hi by (rewrite zlen_map, zlen_zseq; lia). rewrite zlen_map, zlen_zseq in Hi by lia.
    rewrite nthZ_map, nthZ_combine, nthZ_map, nthZ_zseq by lia. cbn [option_map]. destruct (nthZ_lt vs i) as [w ->]; [lia|]. reflexivity.
Qed.

Lemma bytemask_spec c vs : den c = Some vs -> needs_simplify c = true ->
  exists m, bytemask c = Ok m /\ zlen m = zlen vs /\ forall i, 0 <= i < zlen vs -> option_map (fun x => negb (x =? 0)) (nthZ m i) = missing_at c i.
Proof.
  intros Hd Hn. pose proof (den_length _ _ Hd) as HL. pose proof (zlen_nonneg vs). destruct c; try discriminate; cbn [bytemask missing_at length_] in *.
  - unfold awkward_zero_mask. rewrite (for_fill_all _ (fun i => 0)) by (intros; rewrite ?zlen_alloc by lia; reflexivity).
    eexists; split; [reflexivity|]. split; [rewrite zlen_map, zlen_zseq; lia|]. intros i Hi. rewrite nthZ_map, nthZ_zseq by lia.
    destruct (nthZ_lt index i) as [x ->]; [lia|]. reflexivity.
  - unfold awkward_IndexedArray_mask. rewrite (for_fill_all _ (fun i => match nthZ index i with Some x => b2z (x <? 0) | None => 0 end)).
    + eexists; split; [reflexivity|]. split; [rewrite zlen_map, zlen_zseq; lia|]. intros i Hi. rewrite nthZ_map, nthZ_zseq by lia. cbn [option_map].
      rewrite Z.add_0_l. destruct (nthZ_lt index i) as [x ->]; [lia|]. cbn. now rewrite b2z_nz.
    + apply zlen_alloc. lia.
    + intros i o Hi Ho. destruct (rd_in index i) as (x & -> & ->); [lia|]. reflexivity.
  - destruct valid_when; cbn [negb].
    + unfold awkward_ByteMaskedArray_mask. rewrite (for_fill_all _ (fun i => match nthZ mask i with Some x => b2z (negb (Bool.eqb (negb (x =? 0)) true)) | None => 0 end)).
      * eexists; split; [reflexivity|]. split; [rewrite zlen_map, zlen_zseq; lia|]. intros i Hi. rewrite nthZ_map, nthZ_zseq by lia. cbn [option_map].
        rewrite Z.add_0_l. destruct (nthZ_lt mask i) as [x ->]; [lia|]. cbn [option_map]. now rewrite b2z_nz.
      * apply zlen_alloc. lia.
      * intros i o Hi Ho. destruct (rd_in mask i) as (x & -> & ->); [lia|]. reflexivity.
    + eexists; split; [reflexivity|]. split; [lia|]. intros i Hi. destruct (nthZ mask i); [|reflexivity]. cbn. f_equal. now destruct (z =? 0).
  - destruct (bitmasked_den _ _ _ _ _ _ Hd) as [Hl _]. rewrite bits_to_bytes by (rewrite ?zlen_alloc; lia). cbn [bind].
    rewrite iview_Ok by (rewrite ?zlen_map, ?zlen_zseq; lia). rewrite slice_map, slice_zseq, !Z.add_0_l by lia.
    eexists; split; [reflexivity|]. split; [rewrite zlen_map, zlen_zseq; lia|]. intros i Hi. rewrite nthZ_map, nthZ_zseq by lia. cbn [option_map].
    rewrite Z.add_0_l, b2z_nz. rewrite mask_bit_val by lia. reflexivity.
  - rewrite HL. unfold awkward_zero_mask. rewrite (for_fill_all _ (fun i => 0)) by (intros; rewrite ?zlen_alloc by lia; reflexivity).
    eexists; split; [reflexivity|]. split; [rewrite zlen_map, zlen_zseq; lia|]. intros i Hi. rewrite nthZ_map, nthZ_zseq by lia. reflexivity.
Qed.

(** ** projection *)
Lemma zlen_filter_neg {X} (p : X -> bool) xs : zlen (filter (fun x => negb (p x)) xs) + zlen (filter p xs) = zlen xs.
Proof. induction xs as [|x xs IH]; [reflexivity|]. cbn [filter]. destruct (p x); cbn [negb]; rewrite !zlen_cons; lia. Qed.
Lemma filter_ext_in {X} (p q : X -> bool) xs : (forall x, In x xs -> p x = q x) -> filter p xs = filter q xs.
Proof. intros H. induction xs as [|x xs IH]; [reflexivity|]. cbn [filter]. rewrite H by now left. rewrite IH by (intros; apply H; now right). reflexivity. Qed.
Lemma filter_negb {X} (p : X -> bool) xs : zlen xs - zlen (filter (fun x => negb (p x)) xs) = zlen (filter p xs).
Proof. pose proof (zlen_filter_neg p xs). lia. Qed.
Lemma map_nth_zseq {X Y} (f : X -> Y) (d : Y) xs : map (fun i => match nthZ xs i with Some x => f x | None => d end) (zseq 0 (zlen xs)) = map f xs.
Proof.
  pose proof (zlen_nonneg xs). apply list_eqZ; [rewrite !zlen_map, zlen_zseq; lia|]. intros i Hi. rewrite zlen_map, zlen_zseq in Hi by lia.
  rewrite !nthZ_map, nthZ_zseq by lia. cbn [option_map]. rewrite Z.add_0_l. destruct (nthZ_lt xs i) as [x ->]; [lia|]. reflexivity.
Qed.


Lemma omap_filter {X Y} (f g : X -> option Y) p xs ys : omap f xs = Some ys -> (forall x, In x xs -> p x = true -> g x = f x) ->
  omap g (filter p xs) = omap f (filter p xs).
Proof. intros _ H. apply omap_ext. intros x Hx. apply filter_In in Hx. now apply H. Qed.

(** [c'] holds chosen elements of [c] *)
Definition taken (c c' : content) : Prop := exists cry ws ws', den c = Some ws /\ omap (nthZ ws) cry = Some ws' /\ carry c cry false = Ok c'.

Lemma ByteMasked_project_carry mask vw c vs : den (ByteMasked mask vw c) = Some vs ->
  exists c', ByteMasked_project mask vw c = Ok c' /\ taken c c' /\ den c' = omap (nthZ vs) (present (ByteMasked mask vw c) (zlen vs)).
Proof.
  intros Hd. pose proof (den_length _ _ Hd) as HL. pose proof (zlen_nonneg mask). cbn [length_] in HL. unfold ByteMasked_project, awkward_ByteMaskedArray_numnull, awkward_ByteMaskedArray_getitem_nextcarry.
  set (p := fun i => match nthZ mask i with Some m => Bool.eqb (negb (m =? 0)) vw | None => false end).
  rewrite (for_count (zseq 0 (zlen mask)) (fun i => negb (p i))).
  2: rewrite zlen_zseq; lia.
  2: { intros i x k Hx. pose proof (nthZ_Some _ _ _ Hx) as Hi. rewrite zlen_zseq in Hi by lia. rewrite nthZ_zseq in Hx by lia. injection Hx as <-.
       unfold p. rewrite Z.add_0_l. destruct (rd_in mask i) as (x & -> & ->); [lia|]. reflexivity. }
  cbn [bind]. pose proof (filter_negb p (zseq 0 (zlen mask))) as Hn. rewrite zlen_zseq in Hn by lia. pose proof (zlen_nonneg (filter p (zseq 0 (zlen mask)))).
  rewrite (for_filter (zseq 0 (zlen mask)) p (fun i => i)).
  2: rewrite zlen_zseq; lia.
  2: rewrite zlen_alloc; lia.
  2: { intros i x k o Hx. pose proof (nthZ_Some _ _ _ Hx) as Hi. rewrite zlen_zseq in Hi by lia. rewrite nthZ_zseq in Hx by lia. injection Hx as <-.
       unfold p. rewrite Z.add_0_l. destruct (rd_in mask i) as (x & -> & ->); [lia|]. cbn [bind]. reflexivity. }
  cbn [bind snd]. rewrite map_id. cbn [den] in Hd. destruct (den c) as [ws|] eqn:Ec; [|discriminate]. destruct (Z.leb_spec (zlen mask) (zlen ws)); [|discriminate].
  injection Hd as Hd. 
  assert (Hin : forall i, In i (filter p (zseq 0 (zlen mask))) -> 0 <= i < zlen mask). { intros i Hi. apply filter_In in Hi as [Hi _]. now apply In_zseq in Hi. }
  destruct (omap_nthZ_total ws (filter p (zseq 0 (zlen mask)))) as [r Hr]; [intros i Hi; apply Hin in Hi; lia|].
  destruct (carry_den c ws (filter p (zseq 0 (zlen mask))) r false Ec Hr) as (c' & Eca & Hc'). rewrite Eca. exists c'. split; [reflexivity|]. split; [exists (filter p (zseq 0 (zlen mask))), ws, r; auto|]. rewrite Hc', <- Hr.
  unfold present. rewrite <- HL. replace (filter (fun i => match missing_at (ByteMasked mask vw c) i with Some false => true | _ => false end) (zseq 0 (zlen mask))) with (filter p (zseq 0 (zlen mask))).
  - apply omap_ext. intros i Hi. pose proof (Hin i Hi) as Hi'. apply filter_In in Hi as [_ Hp]. rewrite <- Hd, nthZ_map, nthZ_combine. unfold p in Hp.
    destruct (nthZ_lt mask i) as [m Hm]; [lia|]. rewrite Hm in *. destruct (nthZ_lt ws i) as [w ->]; [lia|]. cbn [option_map fst snd]. now rewrite Hp.
  - apply filter_ext_in. intros i _. unfold p, missing_at. destruct (nthZ mask i); [|reflexivity]. cbn [option_map]. now destruct (Bool.eqb _ _).
Qed.
Lemma ByteMasked_project_den mask vw c vs : den (ByteMasked mask vw c) = Some vs ->
  exists c', ByteMasked_project mask vw c = Ok c' /\ den c' = omap (nthZ vs) (present (ByteMasked mask vw c) (zlen vs)).
Proof. intros Hd. destruct (ByteMasked_project_carry _ _ _ _ Hd) as (c' & A & _ & B). eauto. Qed.

Ltac zpos Hx Hi := pose proof (nthZ_Some _ _ _ Hx) as Hi; rewrite zlen_zseq in Hi by lia; rewrite nthZ_zseq in Hx by lia; injection Hx as <-; rewrite ?Z.add_0_l in *.

Lemma indexed_nth index ws vs (opt : bool) : omap (fun i => if opt && (i <? 0) then Some VNone else nthZ ws i) index = Some vs ->
  forall i x, nthZ index i = Some x -> nthZ vs i = if opt && (x <? 0) then Some VNone else nthZ ws x.
Proof. intros H i x Hx. destruct (omap_nth _ _ _ _ _ H Hx) as [<- _]. reflexivity. Qed.

Lemma IndexedOption_project_carry index c vs : den (IndexedOption index c) = Some vs ->
  exists c', IndexedOption_project index c = Ok c' /\ taken c c' /\ den c' = omap (nthZ vs) (present (IndexedOption index c) (zlen vs)).
Proof.
  intros Hd. pose proof (den_length _ _ Hd) as HL. pose proof (zlen_nonneg index). cbn [length_] in HL. unfold IndexedOption_project, awkward_IndexedArray_numnull, awkward_IndexedArray_flatten_nextcarry.
  cbn [den] in Hd. destruct (den c) as [ws|] eqn:Ec; [|discriminate]. rewrite (den_length _ _ Ec).
  set (p := fun i => match nthZ index i with Some j => 0 <=? j | None => false end).
  set (h := fun i => match nthZ index i with Some j => j | None => 0 end).
  rewrite (for_count (zseq 0 (zlen index)) (fun i => negb (p i))).
  2: rewrite zlen_zseq; lia.
  2: { intros i x k Hx. zpos Hx Hi. unfold p. destruct (rd_in index i) as (x & -> & ->); [lia|]. cbn [bind]. destruct (Z.ltb_spec x 0), (Z.leb_spec 0 x); try lia; reflexivity. }
  cbn [bind]. pose proof (filter_negb p (zseq 0 (zlen index))) as Hn. rewrite zlen_zseq in Hn by lia. pose proof (zlen_nonneg (filter p (zseq 0 (zlen index)))).
  rewrite (for_filter (zseq 0 (zlen index)) p h).
  2: rewrite zlen_zseq; lia.
  2: rewrite zlen_alloc; lia.
  2: { intros i x k o Hx. zpos Hx Hi. unfold p, h. destruct (rd_in index i) as (x & -> & Hx); [lia|]. rewrite Hx. cbn [bind].
       destruct (omap_nth _ _ _ _ _ Hd Hx) as (_ & v & Hv). destruct (Z.leb_spec (zlen ws) x); [|reflexivity].
       destruct (Z.ltb_spec x 0); [pose proof (zlen_nonneg ws); lia|]. apply nthZ_Some in Hv. lia. }
  cbn [bind snd].
  assert (Hsame : omap (nthZ ws) (map h (filter p (zseq 0 (zlen index)))) = omap (nthZ vs) (filter p (zseq 0 (zlen index)))).
  { rewrite omap_map. apply omap_ext. intros i Hi. apply filter_In in Hi as [Hi Hp]. apply In_zseq in Hi. unfold p, h in *.
    destruct (nthZ_lt index i) as [x Hx]; [lia|]. rewrite Hx in *. rewrite (indexed_nth index ws vs true Hd i x Hx). cbn [andb].
    apply Z.leb_le in Hp. destruct (Z.ltb_spec x 0); [lia|reflexivity]. }
  destruct (omap_nthZ_total vs (filter p (zseq 0 (zlen index)))) as [r Hr].
  { intros i Hi. apply filter_In in Hi as [Hi _]. apply In_zseq in Hi. lia. }
  rewrite Hr in Hsame.
  destruct (carry_den c ws _ r false Ec Hsame) as (c' & Eca & Hc'). rewrite Eca. exists c'. split; [reflexivity|]. split; [eexists _, ws, r; eauto|]. rewrite Hc', <- Hr. f_equal.
  unfold present. rewrite <- HL. apply filter_ext_in. intros i _. unfold p, missing_at. destruct (nthZ index i) as [x|]; [|reflexivity]. cbn [option_map].
  destruct (Z.ltb_spec x 0), (Z.leb_spec 0 x); try lia; reflexivity.
Qed.
Lemma IndexedOption_project_den index c vs : den (IndexedOption index c) = Some vs ->
  exists c', IndexedOption_project index c = Ok c' /\ den c' = omap (nthZ vs) (present (IndexedOption index c) (zlen vs)).
Proof. intros Hd. destruct (IndexedOption_project_carry _ _ _ Hd) as (c' & A & _ & B). eauto. Qed.

Lemma present_all c n : 0 <= n -> (forall i, 0 <= i < n -> missing_at c i = Some false) -> present c n = zseq 0 n.
Proof.
  intros Hn H. unfold present. transitivity (filter (fun _ : Z => true) (zseq 0 n)).
  - apply filter_ext_in. intros i Hi. apply In_zseq in Hi. now rewrite H by lia.
  - induction (zseq 0 n) as [|x l IH]; [reflexivity|]. cbn [filter]. now rewrite IH.
Qed.

Lemma bm0_missing mask vw lsb n c i : 0 <= n <= 8 * zlen mask -> 0 <= i < n ->
  missing_at (ByteMasked (map (fun i => b2z (maskval mask lsb i)) (zseq 0 n)) vw c) i = missing_at (BitMasked mask vw lsb n c) i.
Proof.
  intros Hn Hi. cbn [missing_at]. rewrite nthZ_map, nthZ_zseq by lia. rewrite mask_bit_val by lia. cbn [option_map]. now rewrite Z.add_0_l, b2z_nz.
Qed.

Lemma project_den c vs : den c = Some vs -> needs_simplify c = true ->
  exists c', project c = Ok c' /\ den c' = omap (nthZ vs) (present c (zlen vs)).
Proof.
  intros Hd Hn. pose proof (den_length _ _ Hd) as HL. pose proof (zlen_nonneg vs). destruct c; try discriminate; cbn [project].
  - cbn [length_] in HL. pose proof Hd as Hd'. cbn [den] in Hd. destruct (den c) as [ws|] eqn:Ec; [|discriminate]. rewrite (den_length _ _ Ec).
    unfold awkward_IndexedArray_getitem_nextcarry. rewrite (for_filter index (fun _ => true) (fun j => j)).
    + cbn [bind snd]. rewrite map_id. assert (Hf : filter (fun _ : Z => true) index = index) by (clear; induction index; cbn [filter]; congruence). rewrite Hf.
      destruct (carry_den c ws index vs false Ec Hd) as (c' & -> & Hc'). exists c'. split; [reflexivity|]. rewrite Hc', present_all.
      * rewrite omap_nthZ_zseq by lia. now rewrite slice_full.
      * lia.
      * intros i Hi. cbn [missing_at]. destruct (nthZ_lt index i) as [x ->]; [lia|]. reflexivity.
    + reflexivity.
    + assert (Hf : filter (fun _ : Z => true) index = index) by (clear; induction index; cbn [filter]; congruence). rewrite Hf. rewrite zlen_alloc; lia.
    + intros i x k o Hx. pose proof (nthZ_Some _ _ _ Hx). destruct (rd_in index i) as (y & -> & Hy); [lia|]. assert (x = y) by congruence; subst y. cbn [bind].
      pose proof (omap_nthZ_range _ _ _ Hd x (nthZ_In _ _ _ Hx)). destruct (Z.ltb_spec x 0); [lia|]. destruct (Z.leb_spec (zlen ws) x); [lia|]. reflexivity.
  - now apply IndexedOption_project_den.
  - now apply ByteMasked_project_den.
  - destruct (bitmasked_den _ _ _ _ _ _ Hd) as [Hl Hd']. cbn [length_] in HL. rewrite bytemask0_spec by lia. cbn [bind].
    pose proof Hd' as Hd2. cbn [den] in Hd'. destruct (den c) as [ws|] eqn:Ec; [|discriminate]. unfold mkByteMasked. rewrite (den_length _ _ Ec).
    destruct (Z.leb_spec (zlen (map (fun i => b2z (maskval mask lsb_order i)) (zseq 0 length))) (zlen ws)); [|discriminate].
    destruct (Z.ltb_spec (zlen ws) (zlen (map (fun i => b2z (maskval mask lsb_order i)) (zseq 0 length)))); [lia|]. cbn [bind].
    destruct (ByteMasked_project_den _ _ _ _ Hd2) as (c' & -> & Hc'). exists c'. split; [reflexivity|]. rewrite Hc'. f_equal.
    unfold present. apply filter_ext_in. intros i Hi. apply In_zseq in Hi. now rewrite bm0_missing by lia.
  - exists c. split; [reflexivity|]. cbn [den length_] in *. rewrite Hd, present_all by (try lia; reflexivity). rewrite omap_nthZ_zseq by lia. now rewrite slice_full.
Qed.

Lemma project_taken c vs p : den c = Some vs -> needs_simplify c = true -> project c = Ok p -> c = Unmasked p \/ taken (below c) p.
Proof.
  intros Hd Hn E. destruct c; try discriminate; cbn [project below] in *.
  - right. apply bind_Ok in E as (cry & E1 & E2). pose proof Hd as Hd'. cbn [den] in Hd. destruct (den c) as [ws|] eqn:Ec; [|discriminate]. rewrite (den_length _ _ Ec) in E1.
    exists index, ws, vs. repeat split; try assumption. rewrite <- E2. f_equal.
    assert (Hf : filter (fun _ : Z => true) index = index) by (clear; induction index; cbn [filter]; congruence).
    unfold awkward_IndexedArray_getitem_nextcarry in E1. pose proof (zlen_nonneg index). rewrite (for_filter index (fun _ => true) (fun j => j)) in E1.
    + cbn [bind snd] in E1. rewrite map_id, Hf in E1. congruence.
    + reflexivity.
    + rewrite Hf, zlen_alloc; lia.
    + intros i x k o Hx. pose proof (nthZ_Some _ _ _ Hx). destruct (rd_in index i) as (y & -> & Hy); [lia|]. assert (x = y) by congruence; subst y. cbn [bind].
      pose proof (omap_nthZ_range _ _ _ Hd x (nthZ_In _ _ _ Hx)). destruct (Z.ltb_spec x 0); [lia|]. destruct (Z.leb_spec (zlen ws) x); [lia|]. reflexivity.
  - right. destruct (IndexedOption_project_carry _ _ _ Hd) as (c' & E' & T & _). rewrite E in E'. injection E' as <-. exact T.
  - right. destruct (ByteMasked_project_carry _ _ _ _ Hd) as (c' & E' & T & _). rewrite E in E'. injection E' as <-. exact T.
  - right. destruct (bitmasked_den _ _ _ _ _ _ Hd) as [Hl Hd']. rewrite bytemask0_spec in E by lia. cbn [bind] in E. apply bind_Ok in E as (? & _ & E).
    destruct (ByteMasked_project_carry _ _ _ _ Hd') as (c' & E' & T & _). rewrite E in E'. injection E' as <-. exact T.
  - left. congruence.
Qed.

(** overlaying a mask *)
Lemma ByteMasked_project_mask_den mymask vw c vs mask : den (ByteMasked mymask vw c) = Some vs -> zlen mask = zlen vs ->
  exists c', ByteMasked_project_mask mymask vw c mask = Ok c' /\
    den c' = omap (nthZ vs) (filter (unmasked_at mask) (present (ByteMasked mymask vw c) (zlen vs))).
Proof.
  intros Hd Hm. pose proof (den_length _ _ Hd) as HL. pose proof (zlen_nonneg vs). cbn [length_] in HL. unfold ByteMasked_project_mask.
  destruct (Z.eqb_spec (zlen mymask) (zlen mask)); [|lia]. cbn [negb]. unfold awkward_ByteMaskedArray_overlay_mask.
  set (g := fun i => match nthZ mask i, nthZ mymask i with Some t, Some m => b2z (negb (t =? 0) || negb (Bool.eqb (negb (m =? 0)) vw)) | _, _ => 0 end).
  rewrite (for_fill_all _ g).
  2: rewrite zlen_alloc; lia.
  2: { intros i o Hi _. unfold g. destruct (rd_in mask i) as (x & -> & ->); [lia|]. destruct (rd_in mymask i) as (y & -> & ->); [lia|]. reflexivity. }
  cbn [bind]. rewrite HL. unfold mkByteMasked. cbn [den] in Hd. destruct (den c) as [ws|] eqn:Ec; [|discriminate]. destruct (Z.leb_spec (zlen mymask) (zlen ws)); [|discriminate]. injection Hd as Hd.
  rewrite (den_length _ _ Ec), zlen_map, zlen_zseq by lia. destruct (Z.ltb_spec (zlen ws) (zlen vs - 0)); [lia|]. cbn [bind].
  destruct (den (ByteMasked (map g (zseq 0 (zlen vs))) false c)) as [us|] eqn:Eu.
  2: { cbn [den] in Eu. rewrite Ec, zlen_map, zlen_zseq in Eu by lia. destruct (Z.leb_spec (zlen vs - 0) (zlen ws)); [discriminate|lia]. }
  destruct (ByteMasked_project_den _ _ _ _ Eu) as (c' & -> & Hc'). exists c'. split; [reflexivity|]. rewrite Hc'.
  assert (Hul : zlen us = zlen vs). { rewrite <- (den_length _ _ Eu). cbn [length_]. rewrite zlen_map, zlen_zseq; lia. }
  rewrite Hul. unfold present.
  assert (Hg : forall i, 0 <= i < zlen vs -> missing_at (ByteMasked (map g (zseq 0 (zlen vs))) false c) i =
     option_map (fun b => b || negb (unmasked_at mask i)) (missing_at (ByteMasked mymask vw c) i)).
  { intros i Hi. cbn [missing_at]. rewrite nthZ_map, nthZ_zseq by lia. cbn [option_map]. rewrite Z.add_0_l. unfold g, unmasked_at.
    destruct (nthZ_lt mask i) as [t ->]; [lia|]. destruct (nthZ_lt mymask i) as [m ->]; [lia|]. cbn [option_map]. rewrite b2z_nz.
    destruct (t =? 0), (Bool.eqb (negb (m =? 0)) vw); reflexivity. }
  assert (Hff : forall (p q : Z -> bool) l, filter p (filter q l) = filter (fun x => q x && p x) l).
  { intros p q l. induction l as [|x l IH]; [reflexivity|]. cbn [filter]. destruct (q x); cbn [andb filter]; rewrite IH; reflexivity. }
  rewrite Hff.
  replace (filter (fun i => match missing_at (ByteMasked (map g (zseq 0 (zlen vs))) false c) i with Some false => true | _ => false end) (zseq 0 (zlen vs)))
    with (filter (fun x => match missing_at (ByteMasked mymask vw c) x with Some false => true | _ => false end && unmasked_at mask x) (zseq 0 (zlen vs))).
  - apply omap_ext. intros i Hi. apply filter_In in Hi as [Hi Hp]. apply In_zseq in Hi. apply andb_prop in Hp as [Hp1 Hp2].
    cbn [den] in Eu. rewrite Ec, zlen_map, zlen_zseq in Eu by lia. destruct (Z.leb_spec (zlen vs - 0) (zlen ws)); [|lia]. injection Eu as Eu.
    apply (f_equal (fun l => nthZ l i)) in Eu, Hd. rewrite <- Eu, <- Hd. rewrite !nthZ_map, !nthZ_combine, nthZ_map, nthZ_zseq by lia. cbn [option_map]. rewrite Z.add_0_l.
    destruct (nthZ_lt mymask i) as [m Hmm]; [lia|]. rewrite Hmm. destruct (nthZ_lt ws i) as [w ->]; [lia|]. cbn [option_map fst snd].
    unfold g. unfold unmasked_at in Hp2. destruct (nthZ_lt mask i) as [t Ht]; [lia|]. rewrite Ht in *. rewrite Hmm. rewrite b2z_nz.
    cbn [missing_at] in Hp1. rewrite Hmm in Hp1. cbn [option_map] in Hp1. rewrite Hp2. cbn [negb orb]. destruct (Bool.eqb (negb (m =? 0)) vw); [reflexivity|discriminate].
  - apply filter_ext_in. intros i Hi. apply In_zseq in Hi. rewrite Hg by lia. destruct (missing_at (ByteMasked mymask vw c) i) as [[]|]; cbn [option_map orb andb]; try reflexivity.
    now destruct (unmasked_at mask i).
Qed.

Lemma Indexed_project_mask_den (opt : bool) index c vs mask : den (if opt then IndexedOption index c else Indexed index c) = Some vs -> zlen mask = zlen vs ->
  exists c', (let* nextindex := awkward_IndexedArray_overlay_mask (alloc (zlen index)) mask index (zlen index) in IndexedOption_project nextindex c) = Ok c' /\
    den c' = omap (nthZ vs) (filter (unmasked_at mask) (present (if opt then IndexedOption index c else Indexed index c) (zlen vs))).
Proof.
  intros Hd Hm. pose proof (den_length _ _ Hd) as HL. pose proof (zlen_nonneg vs).
  assert (HL' : zlen index = zlen vs) by (destruct opt; exact HL). clear HL. unfold awkward_IndexedArray_overlay_mask.
  assert (Hd' : exists ws, den c = Some ws /\ omap (fun i => if opt && (i <? 0) then Some VNone else nthZ ws i) index = Some vs).
  { destruct opt; cbn [den] in Hd; destruct (den c) as [ws|]; try discriminate; exists ws; (split; [reflexivity|exact Hd]). }
  destruct Hd' as (ws & Ec & Hd'). pose proof (indexed_nth _ _ _ _ Hd') as Hnth.
  set (g := fun i => match nthZ mask i, nthZ index i with Some t, Some x => if negb (t =? 0) then -1 else x | _, _ => 0 end).
  rewrite (for_fill_all _ g).
  2: rewrite zlen_alloc; lia.
  2: { intros i o Hi _. unfold g. destruct (rd_in mask i) as (x & -> & ->); [lia|]. destruct (rd_in index i) as (y & -> & ->); [lia|]. reflexivity. }
  cbn [bind]. rewrite HL'.
  destruct (den (IndexedOption (map g (zseq 0 (zlen vs))) c)) as [us|] eqn:Eu.
  2: { exfalso. cbn [den] in Eu. rewrite Ec in Eu. rewrite omap_map in Eu.
       destruct (omap_total (fun x => if g x <? 0 then Some VNone else nthZ ws (g x)) (zseq 0 (zlen vs))) as [r Hr]; [|congruence].
       intros i Hi. apply In_zseq in Hi. unfold g. destruct (nthZ_lt mask i) as [t ->]; [lia|]. destruct (nthZ_lt index i) as [x Hx]; [lia|]. rewrite Hx.
       destruct (t =? 0); cbn [negb]; [|eexists; reflexivity]. pose proof (Hnth i x Hx) as Hv. destruct (nthZ_lt vs i) as [v Ev]; [lia|]. rewrite Ev in Hv.
       destruct (x <? 0) eqn:Ex; [eexists; reflexivity|]. rewrite andb_false_r in Hv. eauto. }
  destruct (IndexedOption_project_den _ _ _ Eu) as (c' & -> & Hc'). exists c'. split; [reflexivity|]. rewrite Hc'.
  assert (Hul : zlen us = zlen vs). { rewrite <- (den_length _ _ Eu). cbn [length_]. rewrite zlen_map, zlen_zseq; lia. }
  rewrite Hul. unfold present.
  assert (Hff : forall (p q : Z -> bool) l, filter p (filter q l) = filter (fun x => q x && p x) l).
  { intros p q l. induction l as [|x l IH]; [reflexivity|]. cbn [filter]. destruct (q x); cbn [andb filter]; rewrite IH; reflexivity. }
  rewrite Hff. set (C := if opt then _ else _) in *.
  assert (HC : forall i x, nthZ index i = Some x -> missing_at C i = Some (opt && (x <? 0))). { intros i x Hx. unfold C. destruct opt; cbn [missing_at]; rewrite Hx; reflexivity. }
  replace (filter (fun i => match missing_at (IndexedOption (map g (zseq 0 (zlen vs))) c) i with Some false => true | _ => false end) (zseq 0 (zlen vs)))
    with (filter (fun x => match missing_at C x with Some false => true | _ => false end && unmasked_at mask x) (zseq 0 (zlen vs))).
  - apply omap_ext. intros i Hi. apply filter_In in Hi as [Hi Hp]. apply In_zseq in Hi. apply andb_prop in Hp as [Hp1 Hp2].
    cbn [den] in Eu. rewrite Ec in Eu. destruct (nthZ_lt index i) as [x Hx]; [lia|]. rewrite (HC i x Hx) in Hp1.
    assert (Hgi : nthZ (map g (zseq 0 (zlen vs))) i = Some x).
    { rewrite nthZ_map, nthZ_zseq by lia. cbn [option_map]. rewrite Z.add_0_l. unfold g. unfold unmasked_at in Hp2. rewrite Hx. destruct (nthZ mask i); [|discriminate]. now rewrite Hp2. }
    rewrite (indexed_nth _ ws us true Eu i x Hgi), (Hnth i x Hx). cbn [andb]. destruct opt; cbn [andb] in *; [reflexivity|].
    destruct (Z.ltb_spec x 0); [|reflexivity]. exfalso. pose proof (Hnth i x Hx) as Hv. destruct (nthZ_lt vs i) as [v Ev]; [lia|]. cbn [andb] in Hv. rewrite Ev in Hv. symmetry in Hv. apply nthZ_Some in Hv. lia.
  - apply filter_ext_in. intros i Hi. apply In_zseq in Hi. destruct (nthZ_lt index i) as [x Hx]; [lia|]. rewrite (HC i x Hx).
    cbn [missing_at]. rewrite nthZ_map, nthZ_zseq by lia. cbn [option_map]. rewrite Z.add_0_l. unfold g, unmasked_at. rewrite Hx. destruct (nthZ_lt mask i) as [t ->]; [lia|].
    destruct (t =? 0); cbn [negb].
    + rewrite andb_true_r. destruct opt; cbn [andb]; [reflexivity|]. destruct (Z.ltb_spec x 0); [|reflexivity].
      exfalso. pose proof (Hnth i x Hx) as Hv. destruct (nthZ_lt vs i) as [v Ev]; [lia|]. cbn [andb] in Hv. rewrite Ev in Hv. symmetry in Hv. apply nthZ_Some in Hv. lia.
    + rewrite andb_false_r. reflexivity.
Qed.

Lemma project_mask_den c vs mask : den c = Some vs -> needs_simplify c = true -> zlen mask = zlen vs ->
  exists c', project_mask c mask = Ok c' /\ den c' = omap (nthZ vs) (filter (unmasked_at mask) (present c (zlen vs))).
Proof.
  intros Hd Hn Hm. pose proof (den_length _ _ Hd) as HL. pose proof (zlen_nonneg vs). destruct c; try discriminate; cbn [project_mask].
  - cbn [length_] in HL. destruct (Z.eqb_spec (zlen index) (zlen mask)); [|lia]. cbn [negb]. exact (Indexed_project_mask_den false index c vs mask Hd Hm).
  - cbn [length_] in HL. destruct (Z.eqb_spec (zlen index) (zlen mask)); [|lia]. cbn [negb]. exact (Indexed_project_mask_den true index c vs mask Hd Hm).
  - now apply ByteMasked_project_mask_den.
  - destruct (bitmasked_den _ _ _ _ _ _ Hd) as [Hl Hd']. cbn [length_] in HL. rewrite bytemask0_spec by lia. cbn [bind].
    pose proof Hd' as Hd2. cbn [den] in Hd'. destruct (den c) as [ws|] eqn:Ec; [|discriminate]. unfold mkByteMasked. rewrite (den_length _ _ Ec).
    destruct (Z.leb_spec (zlen (map (fun i => b2z (maskval mask0 lsb_order i)) (zseq 0 length))) (zlen ws)); [|discriminate].
    destruct (Z.ltb_spec (zlen ws) (zlen (map (fun i => b2z (maskval mask0 lsb_order i)) (zseq 0 length)))); [lia|]. cbn [bind].
    destruct (ByteMasked_project_mask_den _ _ _ _ mask Hd2 Hm) as (c' & -> & Hc'). exists c'. split; [reflexivity|]. rewrite Hc'. f_equal. f_equal.
    unfold present. apply filter_ext_in. intros i Hi. apply In_zseq in Hi. now rewrite bm0_missing by lia.
  - cbn [den length_] in *. unfold mkByteMasked. rewrite HL, Hm. destruct (Z.ltb_spec (zlen vs) (zlen vs)); [lia|]. cbn [bind].
    destruct (den (ByteMasked mask false c)) as [us|] eqn:Eu.
    2: { cbn [den] in Eu. rewrite Hd, Hm in Eu. destruct (Z.leb_spec (zlen vs) (zlen vs)); [discriminate|lia]. }
    destruct (ByteMasked_project_den _ _ _ _ Eu) as (c' & -> & Hc'). exists c'. split; [reflexivity|]. rewrite Hc', (present_all (Unmasked c)) by (try lia; reflexivity).
    assert (Hul : zlen us = zlen vs). { rewrite <- (den_length _ _ Eu). cbn [length_]. lia. }
    rewrite Hul. unfold present. replace (filter (unmasked_at mask) (zseq 0 (zlen vs))) with (filter (fun i => match missing_at (ByteMasked mask false c) i with Some false => true | _ => false end) (zseq 0 (zlen vs))).
    + apply omap_ext. intros i Hi. apply filter_In in Hi as [Hi Hp]. apply In_zseq in Hi. cbn [den] in Eu. rewrite Hd, Hm in Eu. destruct (Z.leb_spec (zlen vs) (zlen vs)); [|lia].
      injection Eu as <-. rewrite nthZ_map, nthZ_combine. cbn [missing_at] in Hp. destruct (nthZ mask i) as [m|]; [|discriminate]. destruct (nthZ_lt vs i) as [v ->]; [lia|]. cbn [option_map fst snd] in *.
      destruct (Bool.eqb (negb (m =? 0)) false); [reflexivity|discriminate].
    + apply filter_ext_in. intros i _. cbn [missing_at]. unfold unmasked_at. destruct (nthZ mask i) as [m|]; [|reflexivity]. cbn [option_map]. now destruct (m =? 0).
Qed.

(** ** simplification *)
Definition idx (opt : bool) (ws : list value) (i : Z) : option value := if opt && (i <? 0) then Some VNone else nthZ ws i.

Lemma den_idx (opt : bool) index c ws : den c = Some ws -> den (if opt then IndexedOption index c else Indexed index c) = omap (idx opt ws) index.
Proof. intros H. destruct opt; cbn [den]; rewrite H; reflexivity. Qed.

Lemma simplify_kernel (o1 o2 : bool) outer inner ws us vs : omap (idx o2 ws) inner = Some us -> omap (idx o1 us) outer = Some vs ->
  exists r, awkward_IndexedArray_simplify (alloc (zlen outer)) outer (zlen outer) inner (zlen inner) = Ok r /\ omap (idx (o1 || o2) ws) r = Some vs.
Proof.
  intros Hi Ho. pose proof (zlen_nonneg outer). pose proof (omap_zlen _ _ _ Hi) as Hil. unfold awkward_IndexedArray_simplify.
  set (g := fun i => match nthZ outer i with Some j => if j <? 0 then -1 else match nthZ inner j with Some x => x | None => 0 end | None => 0 end).
  assert (Hin : forall i j, nthZ outer i = Some j -> 0 <= j -> exists x, nthZ inner j = Some x).
  { intros i j Hj Hj0. destruct (omap_nth _ _ _ _ _ Ho Hj) as (_ & v & Hv). unfold idx in Hv. destruct (Z.ltb_spec j 0); [lia|].
    rewrite andb_false_r in Hv. apply nthZ_lt. apply nthZ_Some in Hv. lia. }
  rewrite (for_fill_all _ g).
  2: rewrite zlen_alloc; lia.
  2: { intros i o Hi' _. unfold g. destruct (rd_in outer i) as (j & -> & Hj); [lia|]. rewrite Hj. cbn [bind]. destruct (Z.ltb_spec j 0); [reflexivity|].
       destruct (Hin i j Hj) as [x Hx]; [lia|]. pose proof (nthZ_Some _ _ _ Hx). destruct (Z.leb_spec (zlen inner) j); [lia|].
       assert (rd inner j = Ok x) as -> by now apply rd_Ok. now rewrite Hx. }
  eexists; split; [reflexivity|]. rewrite omap_map. apply omap_intro; [rewrite (omap_zlen _ _ _ Ho), zlen_zseq; lia|].
  intros i x Hx. zpos Hx Hi'. destruct (nthZ_lt outer i) as [j Hj]; [lia|]. destruct (omap_nth _ _ _ _ _ Ho Hj) as (<- & v & Hv).
  unfold g. rewrite Hj. unfold idx in Hv |- *. destruct (Z.ltb_spec j 0).
  - destruct o1; cbn [andb orb] in *; [reflexivity|]. apply nthZ_Some in Hv. lia.
  - destruct (Hin i j Hj) as [x Hx]; [lia|]. rewrite Hx. rewrite andb_false_r in *. destruct (omap_nth _ _ _ _ _ Hi Hx) as (<- & u & Hu).
    unfold idx in *. destruct o1, o2; cbn [andb orb] in *; try reflexivity. destruct (Z.ltb_spec x 0); [|reflexivity]. apply nthZ_Some in Hu. lia.
Qed.

Lemma simplify_inner_spec c us : den c = Some us ->
  if needs_simplify c then exists o inner c'' ws, simplify_inner c = Ok (Some (o, inner, c'')) /\ den c'' = Some ws /\ omap (idx o ws) inner = Some us
     /\ ((exists m v, c = ByteMasked m v c'') \/ (exists m v l n, c = BitMasked m v l n c'') \/ c = Unmasked c'' \/ c = Indexed inner c'' \/ c = IndexedOption inner c'')
  else simplify_inner c = Ok None.
Proof.
  intros Hd. destruct c; cbn [needs_simplify]; try reflexivity.
  - pose proof Hd as Hd'. cbn [den] in Hd. destruct (den c) as [ws|] eqn:Ec; [|discriminate]. exists false, index, c, ws. repeat split; auto.
  - pose proof Hd as Hd'. cbn [den] in Hd. destruct (den c) as [ws|] eqn:Ec; [|discriminate]. exists true, index, c, ws. repeat split; auto 6.
  - destruct (to_indexed_option _ _ Hd) as (i & c' & E & Hd' & _); [eauto|]. assert (c' = c) as ->. { cbn [toIndexedOptionArray64] in E. destruct (awkward_ByteMaskedArray_toIndexedOptionArray _ _ _ _) in E; try discriminate. now injection E. }
    cbn [simplify_inner]. rewrite E. cbn [bind]. cbn [den] in Hd'. destruct (den c) as [ws|] eqn:Ec; [|discriminate]. exists true, i, c, ws. repeat split; eauto.
  - destruct (to_indexed_option _ _ Hd) as (i & c' & E & Hd' & _); [right; left; eauto 10|]. assert (c' = c) as ->.
    { cbn [toIndexedOptionArray64] in E. destruct (awkward_BitMaskedArray_to_IndexedOptionArray _ _ _ _ _) in E; try discriminate. cbn [bind] in E. destruct (iview _ _ _) in E; try discriminate. now injection E. }
    cbn [simplify_inner]. rewrite E. cbn [bind]. cbn [den] in Hd'. destruct (den c) as [ws|] eqn:Ec; [|discriminate]. exists true, i, c, ws. repeat split; eauto 10.
  - destruct (to_indexed_option _ _ Hd) as (i & c' & E & Hd' & _); [eauto|]. assert (c' = c) as ->.
    { cbn [toIndexedOptionArray64] in E. destruct (awkward_carry_arange _ _) in E; try discriminate. now injection E. }
    cbn [simplify_inner]. rewrite E. cbn [bind]. cbn [den] in Hd'. destruct (den c) as [ws|] eqn:Ec; [|discriminate]. exists true, i, c, ws. repeat split; eauto.
Qed.

Lemma Indexed_simplify_den (o : bool) index c vs : den (if o then IndexedOption index c else Indexed index c) = Some vs ->
  exists c', Indexed_simplify o index c = Ok c' /\ den c' = Some vs /\ below c' = (if needs_simplify c then below c else c) /\ needs_simplify c' = true.
Proof.
  intros Hd. destruct (den c) as [us|] eqn:Ec; [|destruct o; cbn [den] in Hd; rewrite Ec in Hd; discriminate].
  rewrite (den_idx _ _ _ _ Ec) in Hd. unfold Indexed_simplify. pose proof (simplify_inner_spec c us Ec) as Hs. destruct (needs_simplify c).
  - destruct Hs as (o2 & inner & c'' & ws & -> & Ec'' & Hi & Hb). cbn [bind]. destruct (simplify_kernel o o2 index inner ws us vs Hi Hd) as (r & -> & Hr). cbn [bind].
    eexists; split; [reflexivity|]. split; [|split].
    + rewrite (den_idx (o || o2) r c'' ws Ec''). exact Hr.
    + assert (below c = c'') as ->. { destruct Hb as [(?&?&->)|[(?&?&?&?&->)|[->|[->| ->]]]]; reflexivity. } now destruct (o || o2).
    + now destruct (o || o2).
  - rewrite Hs. cbn [bind]. eexists; split; [reflexivity|]. split; [|split]; [now rewrite (den_idx o index c us Ec)|now destruct o|now destruct o].
Qed.

Lemma simplify_den c vs : den c = Some vs -> needs_simplify c = true ->
  exists c', simplify_optiontype c = Ok c' /\ den c' = Some vs /\ (needs_simplify (below (below c)) = false -> needs_simplify (below c') = false) /\ needs_simplify c' = true.
Proof.
  intros Hd Hn.
  assert (G : forall b, needs_simplify (below b) = false -> needs_simplify (if needs_simplify b then below b else b) = false).
  { intros b Hb. destruct (needs_simplify b) eqn:E; [exact Hb|exact E]. }
  destruct c; try discriminate; cbn [simplify_optiontype below].
  - destruct (Indexed_simplify_den false index c vs Hd) as (c' & -> & Hd' & Hb & Hn'). exists c'. repeat split; auto. rewrite Hb. apply G.
  - destruct (Indexed_simplify_den true index c vs Hd) as (c' & -> & Hd' & Hb & Hn'). exists c'. repeat split; auto. rewrite Hb. apply G.
  - destruct (needs_simplify c) eqn:En; [|exists (ByteMasked mask valid_when c); repeat split; auto].
    destruct (simplify_inner_spec _ _ Hd) as (o & i & c1 & ws & E & Ec1 & Hi & Hb). cbn [simplify_inner] in E.
    destruct (to_indexed_option _ _ Hd) as (i' & c' & E' & Hd' & _); [eauto|]. rewrite E' in E |- *. cbn [bind] in E |- *. injection E as <- -> ->.
    destruct (Indexed_simplify_den true i c1 vs Hd') as (c' & -> & Hd2 & Hb2 & Hn'). exists c'. repeat split; auto. rewrite Hb2. intros Hbb.
    assert (c1 = c) as -> by (destruct Hb as [(?&?&[= ]) |[(?&?&?&?&[= ])|[[= ]|[[= ]|[= ]]]]]; auto). apply G, Hbb.
  - destruct (needs_simplify c) eqn:En; [|eexists; repeat split; eauto].
    destruct (simplify_inner_spec _ _ Hd) as (o & i & c1 & ws & E & Ec1 & Hi & Hb). cbn [simplify_inner] in E.
    destruct (to_indexed_option _ _ Hd) as (i' & c' & E' & Hd' & _); [right; left; eauto 10|]. rewrite E' in E |- *. cbn [bind] in E |- *. injection E as <- -> ->.
    destruct (Indexed_simplify_den true i c1 vs Hd') as (c' & -> & Hd2 & Hb2 & Hn'). exists c'. repeat split; auto. rewrite Hb2. intros Hbb.
    assert (c1 = c) as -> by (destruct Hb as [(?&?&[= ]) |[(?&?&?&?&[= ])|[[= ]|[[= ]|[= ]]]]]; auto). apply G, Hbb.
  - cbn [den] in Hd. destruct (needs_simplify c) eqn:En; eexists; repeat split; eauto.
Qed.
