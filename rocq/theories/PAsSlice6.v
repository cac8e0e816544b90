(** Slices in lists: the induction over the array. *)
From Verif Require Import Base BaseLemmas LoopLemmas OmapLemmas Content KCore Core KRange KConvert Convert KOption Option KAxis Axis KCombinations Combinations KGetitem
  SpecArray SpecForm SpecSlice SpecOption PAt PCore PRange PCarry PList PConvert POption PForm PAxis PNat PNum PCombinations PMergeC Getitem SpecGetitem PGetitemK PGetitem1 PField PGetitem PGetitem2 SpecJagged PJagged PJagged2 PJagged3 PJagged4
  KAsSlice AsSlice SpecAsSlice PAsSlice1 PAsSlice2 PAsSlice3 PAsSlice4 PAsSlice5.
Local Open Scope list_scope.
Local Open Scope Z_scope.

(** no missing values *)
Fixpoint plain (a : arrayslice) : bool := match a with AArray _ _ => true | AJagged _ a => plain a | _ => false end.
Definition plaini (a : arrayslice) : bool := match a with AMissing _ _ a => plain a | a => plain a end.
Lemma jagged_of_plain offs a a' : jagged_of offs a = Ok a' -> plain a = true -> plain a' = true.
Proof.
  destruct a as [i b|o a|i m a|a]; cbn [plain]; intros E H; try discriminate.
  - destruct b; cbn [jagged_of] in E.
    + apply bind_Ok in E as ([x y] & _ & E). injection E as <-. reflexivity.
    + injection E as <-. reflexivity.
  - injection E as <-. exact H.
Qed.

Section Main.
Variable is64 : content -> bool.
Lemma asslice_plain fuel : forall c a, tidy c -> jagged_slice false (form_of c) -> asslice is64 fuel c = Ok a -> plain a = true.
Proof.
  induction fuel as [|fuel IH]; intros c a HT HJ E; [discriminate|].
  assert (K : forall offsets c', tidy c' -> jagged_slice false (form_of c') -> (let* start := rd offsets 0 in
    let* stop := rd offsets (zlen offsets - 1) in
    let* next := getitem_range_nowrap c' start stop in
    let* offsets' := if start =? 0 then Ok offsets else awkward_ListOffsetArray_compact_offsets (alloc (zlen offsets)) offsets (zlen offsets - 1) in
    let* slicecontent := asslice is64 fuel next in
    jagged_of offsets' slicecontent) = Ok a -> plain a = true).
  { intros offsets c' HT' HJ' E'. apply bind_Ok in E' as (start & _ & E'). apply bind_Ok in E' as (stop & _ & E'). apply bind_Ok in E' as (next & En & E'). apply bind_Ok in E' as (o' & _ & E'). apply bind_Ok in E' as (sl & Es & E').
    eapply jagged_of_plain; [exact E'|]. apply (IH next); [eapply range_tidy; eassumption| |exact Es]. destruct (range_same _ _ _ _ En) as [-> _]. exact HJ'. }
  assert (K2 : forall w g, form_of c = FList g -> jagged_slice false g -> (let* lo := toListOffsetArray64 w true c in
      match lo with ListOffset offsets c' => (let* start := rd offsets 0 in
    let* stop := rd offsets (zlen offsets - 1) in
    let* next := getitem_range_nowrap c' start stop in
    let* offsets' := if start =? 0 then Ok offsets else awkward_ListOffsetArray_compact_offsets (alloc (zlen offsets)) offsets (zlen offsets - 1) in
    let* slicecontent := asslice is64 fuel next in
    jagged_of offsets' slicecontent) | _ => UB end) = Ok a -> plain a = true).
  { intros w g Ef HJ' E'. apply bind_Ok in E' as (lo & El & E'). destruct (tolistoffset_same _ _ _ _ El) as (o' & x & -> & F & B). cbn [form_of] in F. eapply K; [| |exact E'].
    - eapply tolistoffset_tidy; eassumption.
    - replace (form_of x) with g by congruence. exact HJ'. }
  destruct c; try contradiction HT; cbn [form_of] in HJ; try (apply js_inv in HJ; destruct HJ as [HJ _]; discriminate HJ).
  - injection E as <-. reflexivity.
  - destruct dt; cbn [asslice] in E; [|injection E as <-; reflexivity|discriminate]. apply bind_Ok in E as (n & _ & E). apply bind_Ok in E as (i & _ & E). injection E as <-. reflexivity.
  - apply js_inv in HJ. exact (K2 _ _ eq_refl HJ E).
  - apply js_inv in HJ. cbn [asslice] in E. destruct (is64 (ListOffset offsets c)); [exact (K _ _ (proj2 HT) HJ E)|exact (K2 _ _ eq_refl HJ E)].
  - cbn [asslice] in E. apply bind_Ok in E as (p & Ep & E). apply (IH p); [eapply project_tidy; [exact Ep|exact HT]| |exact E]. cbn [project] in Ep. apply bind_Ok in Ep as (nc & _ & Ec). destruct (carry_same _ _ _ _ Ec) as [-> _]. exact HJ.
Qed.
Lemma asslice_plaini fuel : forall c a g, tidy c -> form_of c = FOption (FList g) -> jagged_slice false g -> asslice is64 fuel c = Ok a -> plaini a = true.
Proof.
  induction fuel as [|fuel IH]; intros c a g HT HF HJ E; [discriminate|]. apply js_list in HJ.
  assert (M : forall oi n x, plain x = true -> missing_of oi n x = Ok a -> plaini a = true).
  { intros oi n x Hx Em. destruct x as [i b|o x|i m x|x]; try discriminate Hx; cbn [missing_of] in Em; [|injection Em as <-; exact Hx]. destruct b; [apply bind_Ok in Em as ([[x y] z] & _ & Em)|]; injection Em as <-; reflexivity. }
  assert (P : forall x, plain x = true -> plaini x = true) by (intros []; cbn; congruence).
  assert (K : forall index c', tidy c' -> form_of c' = FList g -> (let* numnull := awkward_IndexedArray_numnull index (zlen index) in
    let* p := awkward_IndexedArray_getitem_nextcarry_outindex_mask (alloc (zlen index - numnull)) (alloc (zlen index)) index (zlen index) (length_ c') in
    let '(nextcarry, outindex) := p in
    let* next := carry c' nextcarry false in
    let* slicecontent := asslice is64 fuel next in
    missing_of outindex numnull slicecontent) = Ok a -> plaini a = true).
  { intros index c' HT' HF' E'. apply bind_Ok in E' as (nn & _ & E'). apply bind_Ok in E' as ([nc oi] & _ & E'). apply bind_Ok in E' as (next & En & E'). apply bind_Ok in E' as (sl & Es & E'). eapply M; [|exact E'].
    destruct (carry_same _ _ _ _ En) as [F _]. eapply asslice_plain; [eapply carry_tidy; eassumption|rewrite F, HF'; exact HJ|exact Es]. }
  destruct c; cbn [form_of] in HF; try discriminate HF; try contradiction HT.
  - cbn [asslice] in E. apply bind_Ok in E as (p & Ep & E). apply js_inv in HJ. apply (IH p a g); [eapply project_tidy; [exact Ep|exact HT]| |exact HJ|exact E]. cbn [project] in Ep. apply bind_Ok in Ep as (nc & _ & Ec). destruct (carry_same _ _ _ _ Ec) as [-> _]. exact HF.
  - injection HF as HF. apply (K index c); assumption.
  - injection HF as HF. cbn [asslice] in E. apply bind_Ok in E as (io & Ei & E). destruct (toindexedoption_same _ _ Ei) as (i' & c'' & -> & F & B). cbn [form_of] in F. injection F as F. eapply K; [eapply toindexedoption_tidy; eassumption| |exact E]. congruence.
  - injection HF as HF. cbn [asslice] in E. apply bind_Ok in E as (io & Ei & E). destruct (toindexedoption_same _ _ Ei) as (i' & c'' & -> & F & B). cbn [form_of] in F. injection F as F. eapply K; [eapply toindexedoption_tidy; eassumption| |exact E]. congruence.
  - injection HF as HF. cbn [asslice] in E. apply P. eapply (asslice_plain fuel c); [exact HT|rewrite HF; exact HJ|exact E].
Qed.

(** ** slice_jagged *)
Definition mcorrect (fuel : nat) : Prop := forall o d c sc ss se jv vs,
  (cost c <= fuel)%nat -> den c = Some vs -> slice_fits o d (form_of c) -> means d sc jv -> (o = false -> plain sc = true) -> zlen ss = zlen vs -> zlen se = zlen ss ->
  forallb (sub_ok (zlen jv)) (combine ss se) = true -> ((0 < d)%nat \/ o = true -> contiguous ss se (zlen jv)) ->
  outcome false (slice_jagged is64 fuel c ss se sc) (prows (choose d) (map VList (map (seg jv) (combine ss se))) vs).

Lemma slice_fits_inv o d f : slice_fits o d f -> match f with FList g => d = O \/ exists e, d = S e /\ slice_fits o e g | FOption g => o = false /\ d = O /\ slice_fits false O g | FRecord _ fs => Forall (slice_fits o d) fs | _ => False end.
Proof. destruct 1; eauto. Qed.
Lemma means_plain sc jv : means 0 sc jv -> plain sc = true -> exists index b, sc = AArray index b /\ jv = map VInt index.
Proof. intros H P. inversion H; subst; [eauto|discriminate]. Qed.

Lemma mmasked_case fuel c' ws vs (nc oi : list Z) ws' ss se sc jv pair len : mcorrect fuel -> (2 * bound c' <= fuel)%nat -> den c' = Some ws -> slice_fits false 0 (form_of c') -> means 0 sc jv -> plain sc = true ->
  zlen ss = zlen vs -> zlen se = zlen ss -> forallb (sub_ok (zlen jv)) (combine ss se) = true -> len = zlen vs ->
  pair = Ok (nc, oi) -> omap (nthZ ws) nc = Some ws' -> omap (optget ws') oi = Some vs -> ranked oi (zlen nc) ->
  outcome false (if negb (zlen ss =? len) then Err "cannot fit jagged slice" else
    let* p := (pair : res (list Z * list Z)) in
    let '(nextcarry, outindex) := p in
    let* red := awkward_MaskedArray_getitem_next_jagged_project outindex ss se (alloc (zlen nextcarry)) (alloc (zlen nextcarry)) len in
    let '(reducedstarts, reducedstops) := red in
    let* next := carry c' nextcarry true in
    let* out := slice_jagged is64 fuel next reducedstarts reducedstops sc in
    simplify_optiontype (IndexedOption outindex out)) (prows (choose 0) (map VList (map (seg jv) (combine ss se))) vs).
Proof.
  intros IH Hf Hd Hfit Hj Hpl Hz1 Hz2 Hs -> -> Hnc Hoi (p & xs & Eoi & Enc). rewrite Hz1, Z.eqb_refl. cbn [negb bind].
  pose proof (omap_zlen _ _ _ Hoi) as Hzv. assert (Hzx : zlen oi = zlen xs) by (rewrite Eoi; apply zlen_ranks).
  assert (Hzc : zlen (combine ss se) = zlen xs) by (rewrite zlen_combine_le; lia).
  destruct (ranks_kept p xs 0 (combine ss se) Hzc (Z.le_refl 0)) as [K1 K2]. rewrite <- Eoi in K1, K2. set (kept := map snd (filter (fun q => 0 <=? fst q) (combine oi (combine ss se)))) in *.
  rewrite (project_spec oi ss se (zlen vs) (zlen nc)); [|lia|lia|lia|unfold kept in K1; rewrite zlen_map in K1; lia]. cbn [bind]. fold kept.
  destruct (carry_den _ _ _ _ true Hd Hnc) as (next & En & Hdn). rewrite En. cbn [bind]. pose proof (omap_zlen _ _ _ Hnc) as Hzw.
  destruct (carry_same _ _ _ _ En) as [F B].
  assert (Hkin : forall x, In x kept -> In x (combine ss se)). { intros x Hx. unfold kept in Hx. apply in_map_iff in Hx. destruct Hx as ([q x'] & <- & Hq). apply filter_In in Hq. destruct Hq as [Hq _]. eapply in_combine_r; exact Hq. }
  eapply (poption_step _ false oi _ (map VList (map (seg jv) kept))); [intros; apply choose_None|exact Hoi|rewrite !zlen_map; lia|rewrite !zlen_map; lia| | |].
  - intros i q j Hq Hq0 Hjj. rewrite map_map, nthZ_map in Hjj |- *. destruct (nthZ (combine ss se) i) as [ab|] eqn:Eab; [|discriminate]. specialize (K2 _ _ _ Hq Hq0 Eab). rewrite Z.sub_0_r in K2. rewrite K2. exact Hjj.
  - intros q Hq. rewrite Eoi. apply ranks_all. lia.
  - pose proof (IH false O next sc (map fst kept) (map snd kept) jv ws') as HI. rewrite PMergeC.combine_fst_snd in HI. apply HI; auto.
    + pose proof (cost_le next). lia.
    + rewrite F. exact Hfit.
    + rewrite zlen_map. lia.
    + rewrite !zlen_map. reflexivity.
    + apply forallb_forall. intros x Hx. rewrite forallb_forall in Hs. apply Hs. apply Hkin. exact Hx.
    + intros [H|H]; [lia|discriminate].
Qed.

(** one level of lists, more levels of slices *)
Lemma mdescend_case fuel w o d c' ws starts stops ss se pss sc : mcorrect fuel -> (2 * bound c' <= fuel)%nat -> den c' = Some ws -> slice_fits o d (form_of c') ->
  forallb (sub_ok (zlen ws)) (combine starts stops) = true -> zlen starts <= zlen stops -> zlen ss = zlen starts -> zlen se = zlen ss ->
  means d sc (concat pss) -> (o = false -> plain sc = true) -> forallb (sub_ok (zlen pss)) (combine ss se) = true -> contiguous ss se (zlen pss) ->
  outcome false (let* outoffsets := awkward_ListArray_getitem_jagged_descend (alloc (zlen ss + 1)) ss se (zlen ss) starts stops in
        let* compact := toListOffsetArray64 w true (ListA starts stops c') in
        match compact with
        | ListOffset _ next_content =>
            let* sstarts := make_starts (offsets_of (map zlen pss)) in
            let* sstops := make_stops (offsets_of (map zlen pss)) in
            let* outcontent := slice_jagged is64 fuel next_content sstarts sstops sc in
            mkListOffset outoffsets outcontent
        | _ => UB
        end)
    (prows (choose (S d)) (map VList (map (seg (map VList pss)) (combine ss se))) (map VList (map (seg ws) (combine starts stops)))).
Proof.
  intros IH Hf Hd Hfit Hs Hz1 Hz2 Hz3 Hj Hpl Hs2 (lens & Hp & Hsum & Hnn). pose proof (zlen_nonneg ss) as Hss. set (jv := map VList pss). assert (Zjv : zlen jv = zlen pss) by apply zlen_map. rewrite <- Zjv in Hs2, Hsum.
  pose proof (descend_spec ss se starts stops lens (zlen ss) (alloc (zlen ss + 1))) as G. concl G G'. { apply G; try lia; try assumption. apply zlen_alloc. lia. } clear G.
  set (lse := combine ss se) in *. set (l := combine starts stops) in *. assert (Hzl : zlen lse = zlen l) by (unfold lse, l; rewrite !zlen_combine_le; lia).
  assert (Hrow : forall sab ab, sub_ok (zlen jv) sab = true -> sub_ok (zlen ws) ab = true -> choose (S d) (VList (seg jv sab)) (VList (seg ws ab)) =
     if diff sab =? diff ab then option_map VList (prows (choose d) (seg jv sab) (seg ws ab)) else None).
  { intros sab ab H1 H2. cbn [choose thru]. rewrite !zlen_seg by assumption. destruct (diff sab =? diff ab); [|reflexivity]. f_equal. unfold prows. apply omap_ext. intros [x y] Hxy. cbn [fst snd]. apply in_combine_l in Hxy. apply In_slice in Hxy. unfold jv in Hxy. apply in_map_iff in Hxy. destruct Hxy as (x' & <- & _). reflexivity. }
  destruct (omap _ (combine lse l)) as [lens'|] eqn:El.
  - rewrite G'. cbn [bind]. assert (Hlens : map diff lse = map diff l /\ lens' = map diff l).
    { clearbody lse l. clear -El Hzl. revert l Hzl lens' El. induction lse as [|x lse IHl]; intros l Hzl lens' El.
      - destruct l; [|rewrite zlen_cons in Hzl; change (zlen (@nil (Z * Z))) with 0 in Hzl; pose proof (zlen_nonneg l); lia]. injection El as <-. split; reflexivity.
      - destruct l as [|y l]; [rewrite zlen_cons in Hzl; change (zlen (@nil (Z * Z))) with 0 in Hzl; pose proof (zlen_nonneg lse); lia|]. rewrite !zlen_cons in Hzl. cbn [combine omap fst snd] in El.
        destruct (Z.eqb_spec (diff x) (diff y)) as [Exy|]; [|discriminate]. destruct (omap _ (combine lse l)) as [lens''|] eqn:E2; [|discriminate]. injection El as <-. destruct (IHl l ltac:(lia) _ E2) as [E3 E4]. cbn [map]. rewrite E3, E4, Exy. split; reflexivity. }
    destruct Hlens as [Hl1 Hl2].
    assert (Hdl : den (ListA starts stops c') = Some (map VList (map (seg ws) l))). { cbn [den]. rewrite Hd. destruct (Z.leb_spec (zlen starts) (zlen stops)); [|lia]. rewrite subs_den. fold l. rewrite Hs. reflexivity. }
    assert (Hcompact : exists c'', toListOffsetArray64 w true (ListA starts stops c') = Ok (ListOffset (offsets_of (map diff l)) c'') /\ den c'' = Some (concat (map (seg ws) l))).
    { unfold toListOffsetArray64. rewrite (compact_den w (ListA starts stops c') l c' (map (seg ws) l) Hdl eq_refl). cbn [bind]. rewrite map_zlen_seg by exact Hs.
      destruct (broadcast_list (ListA starts stops c') l c' (map (seg ws) l) (map diff l) Hdl eq_refl) as [(E1 & c'' & E2 & E3)|(E1 & _)].
      - discriminate.
      - rewrite <- (map_zlen_seg ws) by exact Hs. apply nonneg_zlens.
      - exists c''. split; [exact E2|]. rewrite E3. rewrite slice_full' by (now rewrite !zlen_map). reflexivity.
      - exfalso. apply E1. rewrite slice_full' by (now rewrite !zlen_map). now rewrite map_zlen_seg. }
    destruct Hcompact as (c'' & Ec & Hdc). rewrite Ec. cbn [bind].
    destruct (tolistoffset_same _ _ _ _ Ec) as (o' & x' & Eo' & F & B). injection Eo' as <- <-. cbn [form_of bound] in F, B. injection F as F. injection B as B.
    set (offsets := offsets_of (map zlen pss)) in *. assert (Zo : zlen offsets = zlen pss + 1) by (unfold offsets; rewrite zlen_offsets_of, zlen_map; reflexivity). pose proof (zlen_nonneg pss) as Hp0. assert (Hzo : 1 <= zlen offsets) by lia.
    rewrite (make_starts_spec _ Hzo), (make_stops_spec _ Hzo). cbn [bind]. destruct (segs_cut pss) as [C1 C2]. fold offsets in C1, C2.
    assert (HL : lens = map diff lse) by (rewrite Hp; unfold offsets_of; now rewrite diff_pairs_offsets).
    assert (Hcat : zlen (concat (map (seg ws) l)) = zlen jv). { rewrite <- sumZ_zlens, map_zlen_seg by exact Hs. rewrite <- Hl1, <- HL. exact Hsum. }
    assert (Hjcat : concat (map (seg jv) lse) = jv). { rewrite Hp. unfold offsets_of. rewrite concat_segs_offsets; [|lia|exact Hnn|lia]. rewrite Z.add_0_l, Hsum. apply slice_full. }
    pose proof (IH o d c'' sc (slice 0 (zlen offsets - 1) offsets) (slice 1 (zlen offsets) offsets) (concat pss) (concat (map (seg ws) l))) as HI. rewrite (combine_starts_stops _ Hzo), C1 in HI. fold jv in HI.
    concl HI HI'.
    { apply HI; auto.
      - pose proof (cost_le c''). lia.
      - rewrite F. exact Hfit.
      - rewrite zlen_slice by lia. lia.
      - rewrite !zlen_slice by lia. lia.
      - intros _. exists (map zlen pss). split; [|split; [apply sumZ_zlen_concat|apply nonneg_zlens]]. rewrite (combine_starts_stops _ Hzo). reflexivity. }
    clear HI. rewrite <- Hjcat in HI' at 1. rewrite Hl2.
    eapply pwrap_step; [|exact HI'| |].
    + assert (HzF : forall a b, zlen a = zlen b -> map diff a = map diff b -> (forall x, In x a -> sub_ok (zlen jv) x = true) -> (forall x, In x b -> sub_ok (zlen ws) x = true) -> Forall2 (fun ks xs : list value => zlen ks = zlen xs) (map (seg jv) a) (map (seg ws) b)).
      { clear. induction a as [|x a IHa]; intros [|y b] Hz He H1 H2; cbn [map]; try (constructor; fail).
        - exfalso. rewrite zlen_cons in Hz. change (zlen (@nil (Z * Z))) with 0 in Hz. pose proof (zlen_nonneg b). lia.
        - exfalso. rewrite zlen_cons in Hz. change (zlen (@nil (Z * Z))) with 0 in Hz. pose proof (zlen_nonneg a). lia.
        - cbn [map] in He. injection He as E1 E2. rewrite !zlen_cons in Hz. constructor; [rewrite (zlen_seg jv), (zlen_seg ws); [exact E1|apply H2; now left|apply H1; now left]|]. apply IHa; [lia|exact E2|intros; apply H1; now right|intros; apply H2; now right]. }
      rewrite forallb_forall in Hs, Hs2. apply HzF; auto.
    + intros out yss Ho Hzy. assert (Hdo : den (ListOffset (offsets_of (map diff l)) out) = Some (map VList yss)). { rewrite <- (map_zlen_seg ws l Hs), <- Hzy. apply listoffset_den0. exact Ho. }
      rewrite (mkListOffset_den _ _ _ Hdo). eauto.
    + unfold prows at 1. rewrite !map_map. rewrite !combine_map_l, !combine_map_r, !map_map, !omap_map. rewrite <- omap_option_map. apply omap_ext. intros [sab ab] Hin. cbn [fst snd].
      rewrite forallb_forall in Hs, Hs2. rewrite Hrow; [|apply Hs2; eapply in_combine_l; exact Hin|apply Hs; eapply in_combine_r; exact Hin].
      assert (Eab : diff sab = diff ab). { apply In_nthZ in Hin. destruct Hin as (i & Hi). destruct (omap_nth _ _ _ _ _ El Hi) as (_ & y & Hy). cbn [fst snd] in Hy. destruct (Z.eqb_spec (diff sab) (diff ab)); [assumption|discriminate]. }
      rewrite Eab, Z.eqb_refl. reflexivity.
  - destruct G' as (m & ->). cbn [bind outcome]. left. apply omap_None in El. destruct El as (i & [sab ab] & Hi & Hn). cbn [fst snd] in Hn.
    apply nthZ_In in Hi as Hin. rewrite forallb_forall in Hs, Hs2. unfold prows. apply (omap_None_In _ _ (VList (seg jv sab), VList (seg ws ab))).
    + rewrite !map_map. rewrite combine_map_l, combine_map_r, map_map. apply in_map_iff. exists (sab, ab). split; [reflexivity|exact Hin].
    + cbn [fst snd]. rewrite Hrow; [|apply Hs2; eapply in_combine_l; exact Hin|apply Hs; eapply in_combine_r; exact Hin]. destruct (diff sab =? diff ab); [discriminate|reflexivity].
Qed.

Lemma mlists_case fuel w o d c' ws starts stops ss se sc jv : mcorrect fuel -> (2 * bound c' <= fuel)%nat -> den c' = Some ws -> forallb (sub_ok (zlen ws)) (combine starts stops) = true -> zlen starts <= zlen stops ->
  zlen ss = zlen starts -> zlen se = zlen ss -> slice_fits o d (FList (form_of c')) -> means d sc jv -> (o = false -> plain sc = true) -> forallb (sub_ok (zlen jv)) (combine ss se) = true -> ((0 < d)%nat \/ o = true -> contiguous ss se (zlen jv)) ->
  outcome false (if negb (zlen ss =? zlen starts) then Err "cannot fit jagged slice" else
    match sc with
    | AArray sliceindex _ =>
        if zlen stops <? zlen starts then Err "len(stops) < len(starts)" else
        let* carrylen := awkward_ListArray_getitem_jagged_carrylen ss se (zlen ss) in
        let* oc := awkward_ListArray_getitem_jagged_apply (alloc (zlen ss + 1)) (alloc carrylen) ss se (zlen ss) sliceindex (zlen sliceindex) starts stops (length_ c') in
        let '(outoffsets, nextcarry) := oc in
        let* nextcontent := carry c' nextcarry true in
        mkListOffset outoffsets nextcontent
    | AJagged offsets sc' =>
        let* outoffsets := awkward_ListArray_getitem_jagged_descend (alloc (zlen ss + 1)) ss se (zlen ss) starts stops in
        let* compact := toListOffsetArray64 w true (ListA starts stops c') in
        match compact with
        | ListOffset _ next_content =>
            let* sstarts := make_starts offsets in
            let* sstops := make_stops offsets in
            let* outcontent := slice_jagged is64 fuel next_content sstarts sstops sc' in
            mkListOffset outoffsets outcontent
        | _ => UB
        end
    | AMissing missing _ sc' =>
        let* numvalid := awkward_ListArray_getitem_jagged_numvalid ss se (zlen ss) missing (zlen missing) in
        let* r := awkward_ListArray_getitem_jagged_shrink (alloc numvalid) (alloc (zlen ss + 1)) (alloc (zlen ss + 1)) ss se (zlen ss) missing in
        let '(nextcarry, smalloffsets, largeoffsets) := r in
        let* smallstarts := make_starts smalloffsets in
        let* smallstops := make_stops smalloffsets in
        let* out :=
          match sc' with
          | AJagged _ _ =>
              let* nextcontent := carry c' nextcarry true in
              let* next := mkListOffset smalloffsets nextcontent in
              slice_jagged is64 fuel next smallstarts smallstops sc'
          | _ => slice_jagged is64 fuel (ListA starts stops c') smallstarts smallstops sc'
          end in
        match out with
        | ListOffset _ content =>
            let* total := rd largeoffsets (zlen largeoffsets - 1) in
            let* missing_trim := iview 0 total missing in
            let* inner := simplify_optiontype (IndexedOption missing_trim content) in
            mkListOffset largeoffsets inner
        | _ => Err "expected ListOffsetArray64 from ListArray::getitem_next_jagged"
        end
    | AVarNewAxis _ => Err "unexpected slice type for getitem_next_jagged"
    end) (prows (choose d) (map VList (map (seg jv) (combine ss se))) (map VList (map (seg ws) (combine starts stops)))).
Proof.
  intros IH Hf Hd Hs Hz1 Hz2 Hz3 Hfit Hj Hpl Hs2 Hc. replace (zlen ss =? zlen starts) with true by (symmetry; apply Z.eqb_eq; exact Hz2). cbn [negb]. pose proof (bound_pos c') as Hb. destruct Hj as [index b|os m b|d a pss Hj].
  - destruct (Z.ltb_spec (zlen stops) (zlen starts)); [lia|]. rewrite zlen_map in Hs2. apply last_outcome; auto.
  - assert (o = true) as -> by (destruct o; [reflexivity|discriminate (Hpl eq_refl)]). rewrite zlen_map in Hc. apply (missing_outcome is64 fuel "expected ListOffsetArray64 from ListArray::getitem_next_jagged"); auto. lia.
  - rewrite zlen_map in Hs2, Hc. assert (Hfit' : slice_fits o d (form_of c')). { apply slice_fits_inv in Hfit. destruct Hfit as [?|(e & E & H)]; [discriminate|]. injection E as <-. exact H. }
    apply (mdescend_case fuel w o d); auto. apply Hc. left. lia.
Qed.

Lemma slice_correct fuel : mcorrect fuel.
Proof.
  induction fuel as [|fuel IH]; intros o d c sc ss se jv vs Hf Hd Hfit Hj Hpl Hz1 Hz2 Hs Hc; [unfold cost in Hf; pose proof (bound_pos c); destruct c; lia|].
  assert (HL : forall c' l, list_view c = Some (l, c') -> exists ws, den c' = Some ws /\ forallb (sub_ok (zlen ws)) l = true /\ vs = map VList (map (seg ws) l)) by (intros c' l; apply list_inv; exact Hd).
  pose proof (slice_fits_inv _ _ _ Hfit) as Hfi.
  destruct c as [|dt data|starts stops c'|offsets c'|size zl c'|index c'|index c'|mask vw c'|mask vw lsb len c'|c'|keys len cs|tags index cs]; cbn [form_of] in Hfit, Hfi; try contradiction.
  - (* ListA *) destruct (HL _ _ eq_refl) as (ws & Hdw & Hsw & ->). unfold cost in Hf; cbn [bound] in Hf.
    assert (Hz : zlen starts <= zlen stops). { cbn [den] in Hd. rewrite Hdw in Hd. destruct (Z.leb_spec (zlen starts) (zlen stops)); [assumption|discriminate]. }
    rewrite !zlen_map, zlen_combine_le in Hz1 by exact Hz. cbn [slice_jagged]. eapply mlists_case; eauto. lia.
  - (* ListOffset *) destruct (HL _ _ eq_refl) as (ws & Hdw & Hsw & ->). unfold cost in Hf; cbn [bound] in Hf.
    assert (Hz : 1 <= zlen offsets). { cbn [den] in Hd. rewrite Hdw in Hd. destruct (Z.leb_spec 1 (zlen offsets)); [assumption|discriminate]. }
    cbn [slice_jagged]. rewrite (make_starts_spec _ Hz), (make_stops_spec _ Hz). cbn [bind]. rewrite <- (combine_starts_stops _ Hz) in Hsw, Hz1 |- *.
    rewrite !zlen_map, zlen_combine_le in Hz1 by (rewrite !zlen_slice; lia). eapply mlists_case; eauto; [lia|rewrite !zlen_slice; lia].
  - (* Regular *) cbn [slice_jagged]. destruct (to_listoffset (is64 (Regular size zl c')) true (Regular size zl c') _ c' vs Hd eq_refl) as (oo & c'' & E & Hdo & _). rewrite E. cbn [bind].
    destruct (tolistoffset_same _ _ _ _ E) as (o' & x' & Eo' & F & B). injection Eo' as <- <-. apply (IH o); auto.
    + unfold cost in *. rewrite B. cbn [bound] in *. lia.
    + rewrite F. exact Hfit.
  - (* Indexed *) destruct (project_indexed _ _ _ Hd) as (p & Ep & Hdp & Fp & Bp).
    assert (Hzi : zlen index = zlen vs). { destruct (content_inv1 _ _ Hd) as [ws Hws]. cbn [den] in Hd. rewrite Hws in Hd. symmetry. eapply omap_zlen. exact Hd. }
    assert (E : slice_jagged is64 (S fuel) (Indexed index c') ss se sc = let* next := project (Indexed index c') in slice_jagged is64 fuel next ss se sc).
    { cbn [slice_jagged project]. rewrite Hz1, Hzi, Z.eqb_refl. cbn [negb]. destruct (awkward_IndexedArray_getitem_nextcarry _ _ _ _); cbn [bind]; try reflexivity; destruct (carry c' _ false); reflexivity. }
    rewrite E, Ep. cbn [bind]. apply (IH o); auto.
    + pose proof (project_need _ _ _ Ep) as Hn. unfold need, cost in *. destruct p; cbn [pred] in *; lia.
    + rewrite Fp. exact Hfit.
  - (* IndexedOption *) destruct Hfi as (-> & -> & Hfi). destruct (content_inv1 _ _ Hd) as [ws Hws]. destruct (indexedoption_nextcarry' _ _ _ _ Hws Hd) as (nc & oi & ws' & E1 & E2 & E3 & E4).
    assert (Hzi : zlen index = zlen vs). { cbn [den] in Hd. rewrite Hws in Hd. symmetry. eapply omap_zlen. exact Hd. }
    unfold cost in Hf; cbn [bound] in Hf. cbn [slice_jagged]. apply (mmasked_case fuel c' ws vs nc oi ws'); auto. lia.
  - (* ByteMasked *) destruct Hfi as (-> & -> & Hfi). destruct (content_inv1 _ _ Hd) as [ws Hws]. destruct (bytemasked_nextcarry' _ _ _ _ _ Hws Hd) as (nc & oi & ws' & E1 & E2 & E3 & E4).
    assert (Hzi : zlen mask = zlen vs). { rewrite <- (den_length _ _ Hd). reflexivity. }
    unfold cost in Hf; cbn [bound] in Hf. cbn [slice_jagged]. apply (mmasked_case fuel c' ws vs nc oi ws'); auto. lia.
  - (* BitMasked *) destruct (to_byte_masked _ _ Hd) as (mask' & vw' & c'' & Eb & Hd' & _); [left; eauto 8|]. cbn [slice_jagged]. rewrite Eb. cbn [bind].
    destruct (tobytemasked_same _ _ Eb) as (m2 & v2 & x2 & Eq & F & B). injection Eq as <- <- <-. apply (IH o); auto.
    + unfold cost in *. rewrite B. cbn [bound] in *. lia.
    + rewrite F. exact Hfit.
  - (* Unmasked *) destruct Hfi as (-> & -> & Hfi). change (den (Unmasked c')) with (den c') in Hd. unfold cost in Hf; cbn [bound] in Hf. cbn [slice_jagged].
    assert (HI : outcome false (slice_jagged is64 fuel c' ss se sc) (prows (choose 0) (map VList (map (seg jv) (combine ss se))) vs)). { apply (IH false); auto. pose proof (cost_le c'); lia. }
    destruct (slice_jagged is64 fuel c' ss se sc) as [out|e|]; cbn [bind outcome] in *; auto. destruct HI as (ws & Hr & Ho).
    destruct (simplify_den (Unmasked out) ws Ho eq_refl) as (c2 & -> & H2 & _). exists ws. split; assumption.
  - (* Record *) unfold cost in Hf; cbn [bound] in Hf. destruct (record_cols _ _ _ _ Hd) as (vss & Hvss & Hlen & Hkeys & Hzl & Hrows).
    destruct cs as [|c0 cs].
    + cbn [slice_jagged outcome]. exists vs. split; [|exact Hd]. cbn [omap] in Hvss. injection Hvss as <-. apply omap_intro; [rewrite zlen_combine by (rewrite !zlen_map, zlen_combine_le; lia); rewrite !zlen_map, zlen_combine_le; lia|].
      intros i [j v] Hjv. rewrite nthZ_combine in Hjv. destruct (nthZ (map VList _) i); [|discriminate]. destruct (nthZ vs i) as [v'|] eqn:Ev; [|discriminate]. injection Hjv as -> ->. cbn [fst snd].
      destruct (omap_nth' _ _ _ _ _ Hrows Ev) as (k & _ & E). cbn [omap option_map] in E. injection E as <-. rewrite choose_row by exact Hkeys. reflexivity.
    + assert (E : slice_jagged is64 (S fuel) (Record keys len (c0 :: cs)) ss se sc =
        let* contents := mapres (fun x => let* trimmed := getitem_range_nowrap x 0 len in slice_jagged is64 fuel trimmed ss se sc) (c0 :: cs) in Ok (Record keys (minlength contents) contents)) by reflexivity.
      rewrite E. eapply precord_step; [exact Hd|discriminate|rewrite !zlen_map, zlen_combine_le; lia| |].
      * intros j row Hzr. apply choose_row. rewrite Hzr. exact Hkeys.
      * intros x xs Hx Hdx Hle. destruct (range_den x xs 0 len Hdx ltac:(lia) Hle) as (t & Et & Hdt). rewrite Et. cbn [bind]. destruct (range_same _ _ _ _ Et) as [F B]. apply (IH o); auto.
        -- pose proof (cost_le t). pose proof (maxl_In _ _ (in_map bound _ _ Hx)). lia.
        -- rewrite F. rewrite Forall_forall in Hfi. apply Hfi. apply in_map. exact Hx.
        -- rewrite zlen_slice; lia.
Qed.
End Main.
