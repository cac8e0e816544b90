(** Jagged slices select what the specification says. *)
From Verif Require Import Base BaseLemmas LoopLemmas OmapLemmas Content KCore Core KRange KConvert Convert KOption Option KAxis Axis KCombinations Combinations KGetitem
  SpecArray SpecForm SpecSlice SpecOption PCore PRange PCarry PList PConvert POption PForm PAxis PNat PNum PCombinations Getitem SpecGetitem PGetitemK PGetitem1 PField PGetitem PGetitem2 SpecJagged.

(** ** kernels *)
Definition segz (index : list Z) (ab : Z * Z) : list Z := slice (fst ab) (snd ab) index.
Definition jpos (index : list Z) (q : (Z * Z) * (Z * Z)) : option (list Z) := arr_pos (segz index (fst q)) (snd q).
Lemma slice_same {A} a (l : list A) : slice a a l = [].
Proof. unfold slice. replace (a - a) with 0 by lia. reflexivity. Qed.
Lemma zlen_segz index ab : sub_ok (zlen index) ab = true -> zlen (segz index ab) = diff ab.
Proof.
  unfold sub_ok, segz, diff. destruct ab as [a b]; cbn [fst snd]. intros H. destruct (Z.eqb_spec a b); [subst; rewrite slice_same; change (zlen (@nil Z)) with 0; lia|]. rewrite zlen_slice by lia. lia.
Qed.
Lemma map_fst_combine {A B} (a : list A) (b : list B) : zlen a <= zlen b -> map fst (combine a b) = a.
Proof.
  revert b. induction a as [|x a IH]; intros [|y b] H; cbn [combine map fst]; try reflexivity; rewrite ?zlen_cons in H.
  - change (zlen (@nil B)) with 0 in H. pose proof (zlen_nonneg a). lia.
  - f_equal. apply IH. lia.
Qed.
Lemma carrylen_spec ss se n : zlen ss = zlen se -> n = zlen ss -> awkward_ListArray_getitem_jagged_carrylen ss se n = Ok (sumZ (map diff (combine ss se))).
Proof.
  intros Hz ->. unfold awkward_ListArray_getitem_jagged_carrylen. rewrite <- (zlen_combine_le ss se) by lia.
  destruct (for_list (combine ss se) (fun d k => k = sumZ (map diff d)) (fun i carrylen => let* b := rd se i in let* a := rd ss i in Ok (carrylen + (b - a))) 0) as (k & E & ->); [reflexivity| |exact E].
  intros d [a b] r t Hd ->. combine_at Hd Ha Hb. rewrite Ha, Hb. cbn [bind]. eexists; split; [reflexivity|]. rewrite map_app, sumZ_app. cbn [map sumZ fold_right diff fst snd]. unfold diff; cbn [fst snd]. lia.
Qed.
Lemma sumZ_zlens {A} (pss : list (list A)) : sumZ (map zlen pss) = zlen (concat pss).
Proof. induction pss as [|p pss IH]; cbn [map concat]; [reflexivity|]. rewrite zlen_app, <- IH. reflexivity. Qed.

Lemma apply_spec ss se starts stops index len n to tc :
  zlen ss = zlen se -> zlen starts = zlen ss -> zlen starts <= zlen stops -> n = zlen ss ->
  forallb (sub_ok (zlen index)) (combine ss se) = true -> forallb (sub_ok len) (combine starts stops) = true ->
  zlen to = n + 1 -> zlen tc = sumZ (map diff (combine ss se)) ->
  match omap (jpos index) (combine (combine ss se) (combine starts stops)) with
  | Some pss => exists o, awkward_ListArray_getitem_jagged_apply to tc ss se n index (zlen index) starts stops len = Ok (o, concat pss)
                  /\ zlen o = n + 1 /\ pairs o = pairs (offsets_of (map zlen pss))
  | None => exists e, awkward_ListArray_getitem_jagged_apply to tc ss se n index (zlen index) starts stops len = Err e
  end.
Proof.
  intros Hz1 Hz2 Hz3 -> Hs1 Hs2 Hto Htc. unfold awkward_ListArray_getitem_jagged_apply.
  set (xs := combine (combine ss se) (combine starts stops)). set (body := fun i (st : Z * list Z * list Z) => _).
  assert (Hxs : zlen xs = zlen ss). { unfold xs. rewrite zlen_combine_le; rewrite ?zlen_combine_le; lia. }
  set (P := fun (pss : list (list Z)) (st : Z * list Z * list Z) => let '(k, o, t) := st in
     k = zlen (concat pss) /\ zlen o = zlen ss + 1 /\ (pss = [] \/ forall j, 0 <= j <= zlen pss -> nthZ o j = nthZ (offsets_of (map zlen pss)) j) /\
     exists rest, t = concat pss ++ rest /\ zlen rest = sumZ (map diff (combine ss se)) - k).
  pose proof (for_omap xs (jpos index) P body (zlen ss) (0, to, tc)) as G.
  assert (HG : match omap (jpos index) xs with Some ys => exists t, for_ 0 (zlen ss) body (0, to, tc) = Ok t /\ P ys t | None => exists m, for_ 0 (zlen ss) body (0, to, tc) = Err m end).
  { apply G; clear G; [lia| |].
    - unfold P. split; [reflexivity|]. split; [exact Hto|]. split; [left; reflexivity|]. exists tc. split; [reflexivity|lia].
    - intros d [[sa sb] [a b]] r pss [[k o] t] Hd Hps (Hk & Ho & Hoo & rest & Ht & Hrest). unfold body.
      destruct (combine_mid _ _ _ _ _ _ Hd) as [H1 H2]. rewrite nthZ_combine in H1, H2.
      destruct (nthZ ss (zlen d)) as [x1|] eqn:E1; [|discriminate]. destruct (nthZ se (zlen d)) as [x2|] eqn:E2; [|discriminate]. injection H1 as -> ->.
      destruct (nthZ starts (zlen d)) as [x1|] eqn:E3; [|discriminate]. destruct (nthZ stops (zlen d)) as [x2|] eqn:E4; [|discriminate]. injection H2 as -> ->.
      apply nthZ_Some in E1 as Hr. pose proof (zlen_nonneg d) as Hd0.
      assert (Hps' : zlen pss = zlen d) by (eapply omap_zlen; exact Hps).
      assert (Hsab : sub_ok (zlen index) (sa, sb) = true). { rewrite forallb_forall in Hs1. apply Hs1. apply (nthZ_In _ (zlen d)). rewrite nthZ_combine, E1, E2. reflexivity. }
      assert (Hab : sub_ok len (a, b) = true). { rewrite forallb_forall in Hs2. apply Hs2. apply (nthZ_In _ (zlen d)). rewrite nthZ_combine, E3, E4. reflexivity. }
      (* room *)
      assert (Hroom : sb - sa <= zlen rest).
      { assert (Hsplit : map diff (combine ss se) = map diff (map fst d) ++ (sb - sa) :: map diff (map fst r)).
        { assert (Ef : map fst xs = combine ss se) by (unfold xs; apply map_fst_combine; rewrite !zlen_combine_le; lia). rewrite <- Ef, <- Hd. rewrite !map_app. reflexivity. }
        rewrite Hrest, Hsplit, sumZ_app. cbn [sumZ fold_right]. fold (sumZ (map diff (map fst r))).
        assert (Hkd : k = sumZ (map diff (map fst d))).
        { rewrite Hk, <- sumZ_zlens. f_equal. clear -Hps Hd Hs1. revert pss Hps. assert (Hall : forall q, In q d -> sub_ok (zlen index) (fst q) = true).
          { intros [q1 q2] Hq. rewrite forallb_forall in Hs1. apply Hs1. assert (In (q1, q2) xs) as Hin by (rewrite <- Hd; apply in_or_app; now left). unfold xs in Hin. apply in_combine_l in Hin. exact Hin. }
          clear Hd. induction d as [|q d IHd]; intros pss Hps; cbn [omap] in Hps; [injection Hps as <-; reflexivity|].
          destruct (jpos index q) as [ps|] eqn:Eq; [|discriminate]. destruct (omap _ d) as [pss'|]; [|discriminate]. injection Hps as <-. cbn [map]. f_equal.
          - unfold jpos in Eq. apply arr_pos_zlen in Eq. rewrite Eq. apply zlen_segz. apply Hall. now left.
          - apply IHd; [intros; apply Hall; now right|reflexivity]. }
        assert (0 <= sumZ (map diff (map fst r))). { apply sumZ_nonneg. rewrite map_map. apply Forall_forall. intros y Hy. apply in_map_iff in Hy. destruct Hy as ([q1 q2] & <- & Hq). apply (sub_ok_diff (zlen index)).
          rewrite forallb_forall in Hs1. apply Hs1. assert (In (q1, q2) xs) as Hin by (rewrite <- Hd; apply in_or_app; right; now right). unfold xs in Hin. apply in_combine_l in Hin. exact Hin. }
        lia. }
      apply rd_Ok in E1, E2, E3, E4. rewrite E1, E2. cbn [bind].
      destruct (wr_spec o (zlen d) k) as (o1 & Eo1 & Ho1 & No1); [lia|]. rewrite Eo1. cbn [bind].
      assert (Hinner : match jpos index ((sa, sb), (a, b)) with
         | Some ps => exists rest', (if negb (sa =? sb) then
            if sb <? sa then Err "jagged slice's stops[i] < starts[i]" else if zlen index <? sb then Err "jagged slice's offsets extend beyond its content"
            else let* start := rd starts (zlen d) in let* stop := rd stops (zlen d) in
                 if stop <? start then Err "stops[i] < starts[i]" else if negb (start =? stop) && (len <? stop) then Err "stops[i] > len(content)"
                 else for_ sa sb (fun j st => let '(k, tocarry) := st in let* x := rd index j in let* i := regular_at x (stop - start) in let* tocarry := wr tocarry k (start + i) in Ok (k + 1, tocarry)) (k, t)
            else Ok (k, t)) = Ok (k + zlen ps, concat (pss ++ [ps]) ++ rest') /\ zlen rest' = zlen rest - zlen ps
         | None => exists e, (if negb (sa =? sb) then
            if sb <? sa then Err "jagged slice's stops[i] < starts[i]" else if zlen index <? sb then Err "jagged slice's offsets extend beyond its content"
            else let* start := rd starts (zlen d) in let* stop := rd stops (zlen d) in
                 if stop <? start then Err "stops[i] < starts[i]" else if negb (start =? stop) && (len <? stop) then Err "stops[i] > len(content)"
                 else for_ sa sb (fun j st => let '(k, tocarry) := st in let* x := rd index j in let* i := regular_at x (stop - start) in let* tocarry := wr tocarry k (start + i) in Ok (k + 1, tocarry)) (k, t)
            else Ok (k, t)) = Err e end).
      { unfold jpos. cbn [fst snd]. destruct (Z.eqb_spec sa sb) as [->|Hne]; cbn [negb].
        - unfold segz; cbn [fst snd]. rewrite slice_same. cbn [arr_pos omap]. unfold arr_pos; cbn [omap]. exists rest. change (zlen (@nil Z)) with 0. rewrite concat_app. cbn [concat]. rewrite !app_nil_r, Ht, Z.add_0_r. split; [reflexivity|lia].
        - unfold sub_ok in Hsab, Hab. cbn [fst snd] in Hsab, Hab. destruct (Z.ltb_spec sb sa); [lia|]. destruct (Z.ltb_spec (zlen index) sb); [lia|]. rewrite E3, E4. cbn [bind].
          destruct (Z.ltb_spec b a); [lia|]. destruct (negb (a =? b) && (len <? b)) eqn:E; [lia|].
          rewrite PLocalIndex.for_shift. set (ix := segz index (sa, sb)). assert (Hix : zlen ix = sb - sa) by (unfold ix, segz; cbn [fst snd]; rewrite zlen_slice; lia). rewrite <- Hix.
          pose proof (for_omap ix (fun x => at_pos x (a, b)) (fun ps st => exists rest', st = (k + zlen ps, (concat pss ++ ps) ++ rest') /\ zlen rest' = zlen rest - zlen ps)
            (fun i (st : Z * list Z) => let '(k, tocarry) := st in let* x := rd index (sa + i) in let* i := regular_at x (b - a) in let* tocarry := wr tocarry k (a + i) in Ok (k + 1, tocarry)) (zlen ix) (k, t) eq_refl) as G.
          unfold arr_pos. destruct (omap (fun x => at_pos x (a, b)) ix) as [ps|] eqn:Eps.
          + destruct G as (st & Est & rest' & Est' & Hrest').
            * exists rest. rewrite app_nil_r, Ht. change (zlen (@nil Z)) with 0. rewrite Z.add_0_r. split; [reflexivity|lia].
            * intros d1 x r1 ps1 st1 Hd1 Hps1 (rest1 & -> & Hr1). assert (Hx : nthZ ix (zlen d1) = Some x). { rewrite <- Hd1. rewrite nthZ_app. destruct (Z.ltb_spec (zlen d1) (zlen d1)); [lia|]. rewrite Z.sub_diag. reflexivity. }
              apply nthZ_Some in Hx as Hxr. unfold ix, segz in Hx; cbn [fst snd] in Hx. rewrite nthZ_slice in Hx by lia. apply rd_Ok in Hx. rewrite Hx. cbn [bind]. rewrite regular_at_wrap. unfold at_pos, diff. cbn [fst snd].
              destruct (wrap x (b - a)) as [w|]; cbn [option_map bind]; [|eauto]. assert (Hz1' : zlen ps1 = zlen d1) by (eapply omap_zlen; exact Hps1).
              destruct rest1 as [|y rest1]; [exfalso; change (zlen (@nil Z)) with 0 in Hr1; lia|]. assert (Ek : k + zlen ps1 = zlen (concat pss ++ ps1)) by (rewrite zlen_app; lia). rewrite Ek, wr_push. cbn [bind]. eexists; split; [reflexivity|].
              exists rest1. rewrite zlen_cons in Hr1. rewrite !zlen_app, <- !app_assoc. cbn [app]. change (zlen [a + w]) with 1. split; [f_equal; lia|lia].
            * exists rest'. rewrite concat_app. cbn [concat]. rewrite app_nil_r, Est, Est'. split; [reflexivity|exact Hrest'].
          + apply G.
            * exists rest. rewrite app_nil_r, Ht. change (zlen (@nil Z)) with 0. rewrite Z.add_0_r. split; [reflexivity|lia].
            * intros d1 x r1 ps1 st1 Hd1 Hps1 (rest1 & -> & Hr1). assert (Hx : nthZ ix (zlen d1) = Some x). { rewrite <- Hd1. rewrite nthZ_app. destruct (Z.ltb_spec (zlen d1) (zlen d1)); [lia|]. rewrite Z.sub_diag. reflexivity. }
              apply nthZ_Some in Hx as Hxr. unfold ix, segz in Hx; cbn [fst snd] in Hx. rewrite nthZ_slice in Hx by lia. apply rd_Ok in Hx. rewrite Hx. cbn [bind]. rewrite regular_at_wrap. unfold at_pos, diff. cbn [fst snd].
              destruct (wrap x (b - a)) as [w|]; cbn [option_map bind]; [|eauto]. assert (Hz1' : zlen ps1 = zlen d1) by (eapply omap_zlen; exact Hps1).
              destruct rest1 as [|y rest1]; [exfalso; change (zlen (@nil Z)) with 0 in Hr1; lia|]. assert (Ek : k + zlen ps1 = zlen (concat pss ++ ps1)) by (rewrite zlen_app; lia). rewrite Ek, wr_push. cbn [bind]. eexists; split; [reflexivity|].
              exists rest1. rewrite zlen_cons in Hr1. rewrite !zlen_app, <- !app_assoc. cbn [app]. change (zlen [a + w]) with 1. split; [f_equal; lia|lia]. }
      destruct (jpos index ((sa, sb), (a, b))) as [ps|] eqn:Ejp.
      + destruct Hinner as (rest' & -> & Hrest'). cbn [bind]. destruct (wr_spec o1 (zlen d + 1) (k + zlen ps)) as (o2 & Eo2 & Ho2 & No2); [lia|]. rewrite Eo2. cbn [bind]. eexists; split; [reflexivity|].
        unfold P. pose proof (zlen_nonneg ps). split; [rewrite concat_app, zlen_app; cbn [concat]; rewrite app_nil_r; lia|]. split; [lia|]. split.
        * right. rewrite zlen_app. change (zlen [ps]) with 1. intros j Hj. rewrite No2, No1. rewrite map_app. cbn [map]. rewrite PFlatten.offsets_of_snoc. rewrite nthZ_app, PList.zlen_offsets_of, zlen_map.
          destruct (Z.eqb_spec j (zlen d + 1)).
          { destruct (Z.ltb_spec j (zlen pss + 1)); [lia|]. replace (j - (zlen pss + 1)) with 0 by lia. change (nthZ [sumZ (map zlen pss) + zlen ps] 0) with (Some (sumZ (map zlen pss) + zlen ps)). rewrite sumZ_zlens, Hk. reflexivity. }
          destruct (Z.ltb_spec j (zlen pss + 1)); [|lia]. destruct (Z.eqb_spec j (zlen d)) as [->|].
          { rewrite <- Hps', <- (zlen_map zlen pss). rewrite PFlatten.nthZ_offsets_of by (pose proof (zlen_nonneg (map zlen pss)); lia). rewrite slice_full, sumZ_zlens, Hk. reflexivity. }
          destruct Hoo as [->|Hoo]; [change (zlen (@nil (list Z))) with 0 in *; lia|]. apply Hoo. lia.
        * exists rest'. split; [reflexivity|]. lia.
      + destruct Hinner as (e & ->). cbn [bind]. eauto. }
  fold xs. clear G. destruct (omap (jpos index) xs) as [pss|] eqn:Eps.
  - destruct HG as ([[k o] t] & -> & (Hk & Ho & Hoo & rest & Ht & Hrest)). cbn [bind]. exists o.
    assert (zlen pss = zlen ss) as Hzp by (rewrite <- Hxs; eapply omap_zlen; exact Eps).
    assert (Hrest0 : zlen rest = 0).
    { rewrite Hrest, Hk, <- sumZ_zlens. replace (map zlen pss) with (map diff (combine ss se)); [lia|]. assert (Ef : map fst xs = combine ss se) by (unfold xs; apply map_fst_combine; rewrite !zlen_combine_le; lia).
      rewrite <- Ef. assert (Hall : forall q, In q xs -> sub_ok (zlen index) (fst q) = true).
      { intros [q1 q2] Hq. rewrite forallb_forall in Hs1. apply Hs1. unfold xs in Hq. apply in_combine_l in Hq. exact Hq. }
      clear -Eps Hall. revert pss Eps. induction xs as [|q d IHd]; intros pss Hps; cbn [omap] in Hps; [injection Hps as <-; reflexivity|].
      destruct (jpos index q) as [ps|] eqn:Eq; [|discriminate]. destruct (omap _ d) as [pss'|]; [|discriminate]. injection Hps as <-. cbn [map]. f_equal.
      - unfold jpos in Eq. apply arr_pos_zlen in Eq. rewrite Eq. symmetry. apply zlen_segz. apply Hall. now left.
      - apply IHd; [intros; apply Hall; now right|reflexivity]. }
    destruct rest; [|rewrite zlen_cons in Hrest0; pose proof (zlen_nonneg rest); lia]. rewrite app_nil_r in Ht. subst t. split; [reflexivity|]. split; [exact Ho|].
    destruct Hoo as [->|Hoo].
    + change (zlen (@nil (list Z))) with 0 in Hzp. destruct o as [|x [|y o]]; [reflexivity|reflexivity|]. rewrite !zlen_cons in Ho. pose proof (zlen_nonneg o). lia.
    + f_equal. apply list_eqZ; [rewrite PList.zlen_offsets_of, zlen_map; lia|]. intros j Hj. apply Hoo. lia.
  - destruct HG as (e & ->). cbn [bind]. eauto.
Qed.
