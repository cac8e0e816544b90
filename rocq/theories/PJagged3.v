(** Jagged slices: the whole method. *)
From Verif Require Import Base BaseLemmas LoopLemmas OmapLemmas Content KCore Core KRange KConvert Convert KOption Option KAxis Axis KCombinations Combinations KGetitem
  SpecArray SpecForm SpecSlice SpecOption PAt PCore PRange PCarry PList PConvert POption PForm PAxis PNat PNum PCombinations Getitem SpecGetitem PGetitemK PGetitem1 PField PGetitem PGetitem2 SpecJagged PJagged PJagged2.

Definition cost (c : content) : nat := (2 * bound c - match c with ListA _ _ _ | ListOffset _ _ | ByteMasked _ _ _ | Record _ _ _ => 1 | _ => 0 end)%nat.
Lemma cost_le c : (cost c <= 2 * bound c)%nat.
Proof. unfold cost. lia. Qed.
Lemma jpick_eq d : exists f, forall j v, jpick d j v = thru (f j) v.
Proof. destruct d as [|d]; eexists; intros j v; cbn [jpick]; reflexivity. Qed.
Lemma jpick_None d j : jpick d j VNone = Some VNone.
Proof. destruct (jpick_eq d) as (f & ->). reflexivity. Qed.
Lemma jpick_row d j keys row : keys_ok keys (zlen row) = true -> jpick d j (mkrow keys row) = option_map (mkrow keys) (omap (jpick d j) row).
Proof. intros H. destruct (jpick_eq d) as (f & Hf). rewrite Hf, thru_mkrow by exact H. f_equal. apply omap_ext. intros; now rewrite Hf. Qed.
Lemma sub_ok_map {A B} (f : A -> B) (l : list A) : sub_ok (zlen (map f l)) = sub_ok (zlen l).
Proof. now rewrite zlen_map. Qed.
Lemma seg_ints index ab : seg (map VInt index) ab = map VInt (segz index ab).
Proof. unfold seg, segz. apply slice_map. Qed.
Lemma den_pairs o o' c : pairs o = pairs o' -> 1 <= zlen o -> 1 <= zlen o' -> den (ListOffset o c) = den (ListOffset o' c).
Proof. intros E H H'. cbn [den]. rewrite E. destruct (den c); [|reflexivity]. destruct (Z.leb_spec 1 (zlen o)); [|lia]. destruct (Z.leb_spec 1 (zlen o')); [|lia]. reflexivity. Qed.

(** one level of lists, integers *)
Lemma last_case reg fuel is64 c' ws starts stops ss se index : den c' = Some ws -> forallb (sub_ok (zlen ws)) (combine starts stops) = true -> zlen starts <= zlen stops ->
  zlen ss = zlen starts -> zlen se = zlen ss -> forallb (sub_ok (zlen index)) (combine ss se) = true -> (1 <= fuel)%nat ->
  outcome reg (let* carrylen := awkward_ListArray_getitem_jagged_carrylen ss se (zlen ss) in
        let* oc := awkward_ListArray_getitem_jagged_apply (alloc (zlen ss + 1)) (alloc carrylen) ss se (zlen ss) index (zlen index) starts stops (length_ c') in
        let '(outoffsets, nextcarry) := oc in
        let* nextcontent := carry c' nextcarry true in
        let* outcontent := getitem_next is64 fuel nextcontent [] None in
        mkListOffset outoffsets outcontent)
    (prows (jpick 0) (map VList (map (seg (map VInt index)) (combine ss se))) (map VList (map (seg ws) (combine starts stops)))).
Proof.
  intros Hd Hs Hz1 Hz2 Hz3 Hs2 Hf. rewrite (carrylen_spec ss se) by lia. cbn [bind]. rewrite (den_length _ _ Hd). pose proof (zlen_nonneg ss) as Hss.
  assert (H0 : 0 <= sumZ (map diff (combine ss se))). { apply sumZ_nonneg. apply Forall_forall. intros y Hy. apply in_map_iff in Hy. destruct Hy as (ab & <- & Hab). rewrite forallb_forall in Hs2. eapply sub_ok_diff. apply Hs2. exact Hab. }
  pose proof (apply_spec ss se starts stops index (zlen ws) (zlen ss) (alloc (zlen ss + 1)) (alloc (sumZ (map diff (combine ss se))))) as G. concl G G'.
  { apply G; try lia; try assumption; apply zlen_alloc; lia. } clear G.
  set (xs := combine (combine ss se) (combine starts stops)) in *.
  (* the specification row by row *)
  set (e := fun q : (Z * Z) * (Z * Z) => omap (elem (seg ws (snd q))) (segz index (fst q))).
  assert (Espec : prows (jpick 0) (map VList (map (seg (map VInt index)) (combine ss se))) (map VList (map (seg ws) (combine starts stops))) = option_map (map VList) (omap e xs)).
  { unfold prows. rewrite !map_map. rewrite combine_map_l, combine_map_r, map_map, omap_map. rewrite <- omap_option_map. apply omap_ext. intros [sab ab] _. cbn [fst snd jpick thru]. rewrite seg_ints, omap_map. reflexivity. }
  rewrite Espec. clear Espec.
  pose proof (omap_pos (jpos index) (omap (nthZ ws)) e xs) as GP.
  assert (GP' : match omap (jpos index) xs with Some ps => exists vs, omap (omap (nthZ ws)) ps = Some vs /\ omap e xs = Some vs | None => omap e xs = None end).
  { apply GP. intros [sab ab] Hin. unfold jpos, e. cbn [fst snd]. assert (Hab : sub_ok (zlen ws) ab = true). { rewrite forallb_forall in Hs. apply Hs. unfold xs in Hin. apply in_combine_r in Hin. exact Hin. }
    unfold arr_pos. apply (omap_pos (fun x => at_pos x ab) (nthZ ws) (elem (seg ws ab))). intros i _. rewrite elem_pos by exact Hab. destruct (at_pos i ab) as [p|] eqn:Ep; [|reflexivity]. destruct (at_pos_in ws ab i p Hab Ep) as (x & Hx). eauto. }
  clear GP. destruct (omap (jpos index) xs) as [pss|].
  - destruct G' as (o & -> & Ho & Hp). cbn [bind]. destruct GP' as (vss & E1 & ->). cbn [option_map]. assert (Hcat : omap (nthZ ws) (concat pss) = Some (concat vss)) by (rewrite omap_concat, E1; reflexivity).
    destruct (carry_den _ _ _ _ true Hd Hcat) as (next & -> & Hdn). cbn [bind]. destruct fuel as [|fuel]; [lia|]. cbn [getitem_next bind].
    assert (Hlen : map zlen pss = map zlen vss). { clear -E1. revert vss E1. induction pss as [|p pss IH]; intros vss E1; cbn [omap] in E1; [injection E1 as <-; reflexivity|]. destruct (omap (nthZ ws) p) as [v|] eqn:Ev; [|discriminate]. destruct (omap _ pss) as [vs|]; [|discriminate]. injection E1 as <-. cbn [map]. rewrite (omap_zlen _ _ _ Ev). f_equal. auto. }
    assert (Hdo : den (ListOffset o next) = Some (map VList vss)). { rewrite (den_pairs o (offsets_of (map zlen vss))); [apply listoffset_den0; exact Hdn|congruence|lia|rewrite PList.zlen_offsets_of; pose proof (zlen_nonneg (map zlen vss)); lia]. }
    rewrite (mkListOffset_den _ _ _ Hdo). cbn [outcome]. eauto.
  - destruct G' as (m & ->). cbn [bind outcome]. rewrite GP'. left. reflexivity.
Qed.

Section Main.
Variable is64 : content -> bool.
Definition contiguous (ss se : list Z) (n : Z) : Prop := exists lens, combine ss se = pairs (offsets_of lens) /\ sumZ lens = n /\ nonneg_counts lens.
Definition jcorrect (fuel : nat) : Prop := forall c sc ss se jv vs,
  (cost c <= fuel)%nat -> den c = Some vs -> jfits (jdepth sc) (form_of c) -> jag sc = Some jv -> zlen ss = zlen vs -> zlen se = zlen ss ->
  forallb (sub_ok (zlen jv)) (combine ss se) = true -> ((0 < jdepth sc)%nat -> contiguous ss se (zlen jv)) ->
  outcome false (getitem_next_jagged is64 fuel c ss se sc []) (prows (jpick (jdepth sc)) (map VList (map (seg jv) (combine ss se))) vs).

Lemma jag_offsets offsets (js : list value) : (1 <=? zlen offsets) && (hd (-1) offsets =? 0) && (last offsets (-1) =? zlen js) = true -> forallb (sub_ok (zlen js)) (pairs offsets) = true ->
  exists lens, offsets = offsets_of lens /\ sumZ lens = zlen js /\ nonneg_counts lens.
Proof.
  intros H Hs. apply Bool.andb_true_iff in H. destruct H as [H H3]. apply Bool.andb_true_iff in H. destruct H as [H1 H2]. apply Z.leb_le in H1. apply Z.eqb_eq in H2, H3.
  destruct (offsets_diffs offsets H1) as (a & Ha & Eo). assert (a = 0) as ->. { destruct offsets; [change (zlen (@nil Z)) with 0 in H1; lia|]. cbn [hd] in H2. subst z. rewrite nthZ_cons in Ha. cbn in Ha. congruence. }
  fold (offsets_of (map diff (pairs offsets))) in Eo. exists (map diff (pairs offsets)). split; [exact Eo|]. split.
  - rewrite <- H3. set (lens := map diff (pairs offsets)) in *. rewrite Eo. clear. assert (G : forall a l, last (offsets_from a l) (-1) = a + sumZ l).
    { intros a l. revert a. induction l as [|n l IH]; intros a; [cbn; lia|]. rewrite offsets_from_cons. cbn [sumZ fold_right]. transitivity (last (offsets_from (a + n) l) (-1)); [destruct l; reflexivity|]. rewrite IH. unfold sumZ. lia. }
    unfold offsets_of. rewrite G. lia.
  - apply Forall_forall. intros y Hy. apply in_map_iff in Hy. destruct Hy as (ab & <- & Hab). rewrite forallb_forall in Hs. eapply sub_ok_diff. apply Hs. exact Hab.
Qed.

(** one level of lists, more levels of slices *)
Lemma descend_case fuel w c' ws starts stops ss se offsets sc jv : jcorrect fuel -> (2 * bound c' <= fuel)%nat -> den c' = Some ws -> jfits (jdepth sc) (form_of c') ->
  forallb (sub_ok (zlen ws)) (combine starts stops) = true -> zlen starts <= zlen stops -> zlen ss = zlen starts -> zlen se = zlen ss ->
  jag (SJagged offsets sc) = Some jv -> forallb (sub_ok (zlen jv)) (combine ss se) = true -> contiguous ss se (zlen jv) ->
  outcome false (let* outoffsets := awkward_ListArray_getitem_jagged_descend (alloc (zlen ss + 1)) ss se (zlen ss) starts stops in
        let* compact := toListOffsetArray64 w true (ListA starts stops c') in
        match compact with
        | ListOffset _ next_content =>
            let* sstarts := make_starts offsets in
            let* sstops := make_stops offsets in
            let* outcontent := getitem_next_jagged is64 fuel next_content sstarts sstops sc [] in
            mkListOffset outoffsets outcontent
        | _ => UB
        end)
    (prows (jpick (S (jdepth sc))) (map VList (map (seg jv) (combine ss se))) (map VList (map (seg ws) (combine starts stops)))).
Proof.
  intros IH Hf Hd Hfit Hs Hz1 Hz2 Hz3 Hj Hs2 (lens & Hp & Hsum & Hnn). pose proof (zlen_nonneg ss) as Hss.
  pose proof (descend_spec ss se starts stops lens (zlen ss) (alloc (zlen ss + 1))) as G. concl G G'. { apply G; try lia; try assumption. apply zlen_alloc. lia. } clear G.
  set (lse := combine ss se) in *. set (l := combine starts stops) in *. assert (Hzl : zlen lse = zlen l) by (unfold lse, l; rewrite !zlen_combine_le; lia).
  assert (Hrow : forall sab ab, sub_ok (zlen jv) sab = true -> sub_ok (zlen ws) ab = true -> jpick (S (jdepth sc)) (VList (seg jv sab)) (VList (seg ws ab)) =
     if diff sab =? diff ab then option_map VList (prows (jpick (jdepth sc)) (seg jv sab) (seg ws ab)) else None).
  { intros sab ab H1 H2. cbn [jpick thru]. rewrite !zlen_seg by assumption. reflexivity. }
  destruct (omap _ (combine lse l)) as [lens'|] eqn:El.
  - rewrite G'. cbn [bind]. assert (Hlens : map diff lse = map diff l /\ lens' = map diff l).
    { clearbody lse l. clear -El Hzl. revert l Hzl lens' El. induction lse as [|x lse IHl]; intros l Hzl lens' El.
      - destruct l; [|rewrite zlen_cons in Hzl; change (zlen (@nil (Z * Z))) with 0 in Hzl; pose proof (zlen_nonneg l); lia]. injection El as <-. split; reflexivity.
      - destruct l as [|y l]; [rewrite zlen_cons in Hzl; change (zlen (@nil (Z * Z))) with 0 in Hzl; pose proof (zlen_nonneg lse); lia|]. rewrite !zlen_cons in Hzl. cbn [combine omap fst snd] in El.
        destruct (Z.eqb_spec (diff x) (diff y)) as [Exy|]; [|discriminate]. destruct (omap _ (combine lse l)) as [lens''|] eqn:E2; [|discriminate]. injection El as <-. destruct (IHl l ltac:(lia) _ E2) as [E3 E4]. cbn [map]. rewrite E3, E4, Exy. split; reflexivity. }
    destruct Hlens as [Hl1 Hl2].
    assert (Hdl : den (ListA starts stops c') = Some (map VList (map (seg ws) l))). { cbn [den]. rewrite Hd. destruct (Z.leb_spec (zlen starts) (zlen stops)); [|lia]. rewrite subs_den. fold l. rewrite Hs. reflexivity. }
    assert (Hcompact : exists c'', toListOffsetArray64 w true (ListA starts stops c') = Ok (ListOffset (offsets_of (map diff l)) c'') /\ den c'' = Some (concat (map (seg ws) l))).
    { unfold toListOffsetArray64. rewrite (compact_den w (ListA starts stops c') l c' (map (seg ws) l) Hdl eq_refl). cbn [bind]. rewrite map_zlen_seg by exact Hs.
      destruct (broadcast_list (ListA starts stops c') l c' (map (seg ws) l) (map diff l) Hdl eq_refl) as [(E1 & c'' & E2 & E3)|(E1 & _)].
      - discriminate.
      - rewrite <- (map_zlen_seg ws) by exact Hs. apply nonneg_zlens.
      - exists c''. split; [exact E2|]. rewrite E3. rewrite slice_full' by (now rewrite !zlen_map). reflexivity.
      - exfalso. apply E1. rewrite slice_full' by (now rewrite !zlen_map). now rewrite map_zlen_seg. }
    destruct Hcompact as (c'' & Ec & Hdc). rewrite Ec. cbn [bind].
    destruct (tolistoffset_same _ _ _ _ Ec) as (o' & x' & Eo' & F & B). injection Eo' as <- <-. cbn [form_of bound] in F, B. injection F as F. injection B as B.
    cbn [jag] in Hj. destruct (jag sc) as [jv'|] eqn:Ejv; [|discriminate]. destruct (_ && _ && _) eqn:Eok in Hj; [|discriminate]. rewrite subs_den in Hj. destruct (forallb (sub_ok (zlen jv')) (pairs offsets)) eqn:Eso; [|discriminate]. injection Hj as Hj.
    destruct (jag_offsets _ _ Eok Eso) as (lens2 & Eo2 & Es2 & Hn2). assert (Hzo : 1 <= zlen offsets) by (apply Bool.andb_true_iff in Eok; lia).
    rewrite (make_starts_spec _ Hzo), (make_stops_spec _ Hzo). cbn [bind].
    assert (Hjvl : zlen jv = zlen offsets - 1) by (rewrite <- Hj, !zlen_map, zlen_pairs by exact Hzo; reflexivity).
    assert (HL : lens = map diff lse) by (rewrite Hp; unfold offsets_of; now rewrite diff_pairs_offsets).
    assert (Hcat : zlen (concat (map (seg ws) l)) = zlen jv). { rewrite <- sumZ_zlens, map_zlen_seg by exact Hs. rewrite <- Hl1, <- HL. exact Hsum. }
    assert (Hjcat : concat (map (seg jv) lse) = jv). { rewrite Hp. unfold offsets_of. rewrite concat_segs_offsets; [|lia|exact Hnn|lia]. rewrite Z.add_0_l, Hsum. apply slice_full. }
    pose proof (IH c'' sc (slice 0 (zlen offsets - 1) offsets) (slice 1 (zlen offsets) offsets) jv' (concat (map (seg ws) l))) as HI. rewrite (combine_starts_stops _ Hzo), Hj in HI.
    concl HI HI'.
    { apply HI; auto.
      - pose proof (cost_le c''). lia.
      - rewrite F. exact Hfit.
      - rewrite zlen_slice by lia. lia.
      - rewrite !zlen_slice by lia. lia.
      - intros _. exists lens2. split; [|split; [exact Es2|exact Hn2]]. rewrite (combine_starts_stops _ Hzo), Eo2. reflexivity. }
    clear HI. rewrite <- Hjcat in HI' at 1. rewrite Hl2.
    eapply pwrap_step; [|exact HI'| |].
    + assert (HzF : forall a b, zlen a = zlen b -> map diff a = map diff b -> (forall x, In x a -> sub_ok (zlen jv) x = true) -> (forall x, In x b -> sub_ok (zlen ws) x = true) -> Forall2 (fun ks xs : list value => zlen ks = zlen xs) (map (seg jv) a) (map (seg ws) b)).
      { clear. induction a as [|x a IHa]; intros [|y b] Hz He H1 H2; cbn [map]; try (constructor; fail); try (rewrite zlen_cons in Hz; change (zlen (@nil (Z * Z))) with 0 in Hz; pose proof (zlen_nonneg a); pose proof (zlen_nonneg b); lia).
        - exfalso. rewrite zlen_cons in Hz. change (zlen (@nil (Z * Z))) with 0 in Hz. pose proof (zlen_nonneg b). lia.
        - exfalso. rewrite zlen_cons in Hz. change (zlen (@nil (Z * Z))) with 0 in Hz. pose proof (zlen_nonneg a). lia.
        - cbn [map] in He. injection He as E1 E2. rewrite !zlen_cons in Hz. constructor; [rewrite (zlen_seg jv), (zlen_seg ws); [exact E1|apply H2; now left|apply H1; now left]|]. apply IHa; [lia|exact E2|intros; apply H1; now right|intros; apply H2; now right]. }
      rewrite forallb_forall in Hs, Hs2. apply HzF; auto.
    + intros out yss Ho Hzy. assert (Hdo : den (ListOffset (offsets_of (map diff l)) out) = Some (map VList yss)). { rewrite <- (map_zlen_seg ws l Hs), <- Hzy. apply listoffset_den0. exact Ho. }
      rewrite (mkListOffset_den _ _ _ Hdo). eauto.
    + unfold prows at 1. rewrite !map_map. rewrite !combine_map_l, !combine_map_r, !map_map, !omap_map. rewrite <- omap_option_map. apply omap_ext. intros [sab ab] Hin. cbn [fst snd].
      rewrite forallb_forall in Hs, Hs2. rewrite Hrow; [|apply Hs2; eapply in_combine_l; exact Hin|apply Hs; eapply in_combine_r; exact Hin].
      assert (Eab : diff sab = diff ab). { apply In_nthZ in Hin. destruct Hin as (i & Hi). destruct (omap_nth _ _ _ _ _ El Hi) as (_ & y & Hy). cbn [fst snd] in Hy. destruct (Z.eqb_spec (diff sab) (diff ab)); [assumption|discriminate]. }
      rewrite Eab, Z.eqb_refl. reflexivity.
  - destruct G' as (m & ->). cbn [bind outcome]. left. apply omap_None in El. destruct El as (i & [sab ab] & Hi & Hn). cbn [fst snd] in Hn.
    apply nthZ_In in Hi as Hin. rewrite forallb_forall in Hs, Hs2. unfold prows. apply (omap_None_In _ _ (VList (seg jv sab), VList (seg ws ab))).
    + rewrite !map_map. rewrite combine_map_l, combine_map_r, map_map. apply in_map_iff. exists (sab, ab). split; [reflexivity|exact Hin].
    + cbn [fst snd]. rewrite Hrow; [|apply Hs2; eapply in_combine_l; exact Hin|apply Hs; eapply in_combine_r; exact Hin]. destruct (diff sab =? diff ab); [discriminate|reflexivity].
Qed.
End Main.
