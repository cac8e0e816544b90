(** Jagged slices: the induction over the array. *)
From Verif Require Import Base BaseLemmas LoopLemmas OmapLemmas Content KCore Core KRange KConvert Convert KOption Option KAxis Axis KCombinations Combinations KGetitem
  SpecArray SpecForm SpecSlice SpecOption PAt PCore PRange PCarry PList PConvert POption PForm PAxis PNat PNum PCombinations Getitem SpecGetitem PGetitemK PGetitem1 PField PGetitem PGetitem2 SpecJagged PJagged PJagged2 PJagged3.

Section Main.
Variable is64 : content -> bool.
Lemma masked_case fuel c' ws vs (nc oi : list Z) ws' ss se sc jv pair len : jcorrect is64 fuel -> (2 * bound c' <= fuel)%nat -> den c' = Some ws -> jdepth sc = O -> jfits 0 (form_of c') -> jag sc = Some jv ->
  zlen ss = zlen vs -> zlen se = zlen ss -> forallb (sub_ok (zlen jv)) (combine ss se) = true -> len = zlen vs ->
  pair = Ok (nc, oi) -> omap (nthZ ws) nc = Some ws' -> omap (optget ws') oi = Some vs -> ranked oi (zlen nc) ->
  outcome false (if negb (zlen ss =? len) then Err "cannot fit jagged slice" else
    let* p := (pair : res (list Z * list Z)) in
    let '(nextcarry, outindex) := p in
    let* red := awkward_MaskedArray_getitem_next_jagged_project outindex ss se (alloc (zlen nextcarry)) (alloc (zlen nextcarry)) len in
    let '(reducedstarts, reducedstops) := red in
    let* next := carry c' nextcarry true in
    let* out := getitem_next_jagged is64 fuel next reducedstarts reducedstops sc [] in
    simplify_optiontype (IndexedOption outindex out)) (prows (jpick 0) (map VList (map (seg jv) (combine ss se))) vs).
Proof.
  intros IH Hf Hd Hdep Hfit Hj Hz1 Hz2 Hs -> -> Hnc Hoi (p & xs & Eoi & Enc). rewrite Hz1, Z.eqb_refl. cbn [negb bind].
  pose proof (omap_zlen _ _ _ Hoi) as Hzv. assert (Hzx : zlen oi = zlen xs) by (rewrite Eoi; apply zlen_ranks).
  assert (Hzc : zlen (combine ss se) = zlen xs) by (rewrite zlen_combine_le; lia).
  destruct (ranks_kept p xs 0 (combine ss se) Hzc (Z.le_refl 0)) as [K1 K2]. rewrite <- Eoi in K1, K2. set (kept := map snd (filter (fun q => 0 <=? fst q) (combine oi (combine ss se)))) in *.
  rewrite (project_spec oi ss se (zlen vs) (zlen nc)); [|lia|lia|lia|unfold kept in K1; rewrite zlen_map in K1; lia]. cbn [bind]. fold kept.
  destruct (carry_den _ _ _ _ true Hd Hnc) as (next & En & Hdn). rewrite En. cbn [bind]. pose proof (omap_zlen _ _ _ Hnc) as Hzw.
  destruct (carry_same _ _ _ _ En) as [F B].
  assert (Hkin : forall x, In x kept -> In x (combine ss se)). { intros x Hx. unfold kept in Hx. apply in_map_iff in Hx. destruct Hx as ([q x'] & <- & Hq). apply filter_In in Hq. destruct Hq as [Hq _]. eapply in_combine_r; exact Hq. }
  eapply (poption_step _ false oi _ (map VList (map (seg jv) kept))); [intros; apply jpick_None|exact Hoi|rewrite !zlen_map; lia|rewrite !zlen_map; lia| | |].
  - intros i q j Hq Hq0 Hjj. rewrite map_map, nthZ_map in Hjj |- *. destruct (nthZ (combine ss se) i) as [ab|] eqn:Eab; [|discriminate]. specialize (K2 _ _ _ Hq Hq0 Eab). rewrite Z.sub_0_r in K2. rewrite K2. exact Hjj.
  - intros q Hq. rewrite Eoi. apply ranks_all. lia.
  - pose proof (IH next sc (map fst kept) (map snd kept) jv ws') as HI. rewrite PMergeC.combine_fst_snd, Hdep in HI. apply HI; auto.
    + pose proof (cost_le next). lia.
    + rewrite F. exact Hfit.
    + rewrite zlen_map. lia.
    + rewrite !zlen_map. reflexivity.
    + apply forallb_forall. intros x Hx. rewrite forallb_forall in Hs. apply Hs. apply Hkin. exact Hx.
    + lia.
Qed.

Lemma jfits_inv d f : jfits d f -> match f with FList g => d = O \/ exists e, d = S e /\ jfits e g | FOption g => d = O /\ jfits O g | FRecord _ fs => Forall (jfits d) fs | _ => False end.
Proof. destruct 1; eauto. Qed.

Lemma lists_case fuel w c' ws starts stops ss se sc jv : jcorrect is64 fuel -> (2 * bound c' <= fuel)%nat -> den c' = Some ws -> forallb (sub_ok (zlen ws)) (combine starts stops) = true -> zlen starts <= zlen stops ->
  zlen ss = zlen starts -> zlen se = zlen ss -> jfits (jdepth sc) (FList (form_of c')) -> jag sc = Some jv -> forallb (sub_ok (zlen jv)) (combine ss se) = true -> ((0 < jdepth sc)%nat -> contiguous ss se (zlen jv)) ->
  outcome false (if negb (zlen ss =? zlen starts) then Err "cannot fit jagged slice" else
    match sc with
    | SArray _ sliceindex =>
        if zlen stops <? zlen starts then Err "len(stops) < len(starts)" else
        let* carrylen := awkward_ListArray_getitem_jagged_carrylen ss se (zlen ss) in
        let* oc := awkward_ListArray_getitem_jagged_apply (alloc (zlen ss + 1)) (alloc carrylen) ss se (zlen ss) sliceindex (zlen sliceindex) starts stops (length_ c') in
        let '(outoffsets, nextcarry) := oc in
        let* nextcontent := carry c' nextcarry true in
        let* outcontent := getitem_next is64 fuel nextcontent [] None in
        mkListOffset outoffsets outcontent
    | SJagged offsets sc' =>
        let* outoffsets := awkward_ListArray_getitem_jagged_descend (alloc (zlen ss + 1)) ss se (zlen ss) starts stops in
        let* compact := toListOffsetArray64 w true (ListA starts stops c') in
        match compact with
        | ListOffset _ next_content =>
            let* sstarts := make_starts offsets in
            let* sstops := make_stops offsets in
            let* outcontent := getitem_next_jagged is64 fuel next_content sstarts sstops sc' [] in
            mkListOffset outoffsets outcontent
        | _ => UB
        end
    | _ => Err "unexpected slice type for getitem_next_jagged"
    end) (prows (jpick (jdepth sc)) (map VList (map (seg jv) (combine ss se))) (map VList (map (seg ws) (combine starts stops)))).
Proof.
  intros IH Hf Hd Hs Hz1 Hz2 Hz3 Hfit Hj Hs2 Hc. replace (zlen ss =? zlen starts) with true by (symmetry; apply Z.eqb_eq; exact Hz2). cbn [negb]. destruct sc as [at_|a b s| | |shape index|key|offsets sc]; cbn [jag] in Hj; try discriminate.
  - destruct (Z.ltb_spec (zlen stops) (zlen starts)); [lia|]. injection Hj as <-. rewrite zlen_map in Hs2. pose proof (bound_pos c'). cbn [jdepth]. apply last_case; auto; lia.
  - cbn [jdepth] in *. assert (Hfit' : jfits (jdepth sc) (form_of c')). { apply jfits_inv in Hfit. destruct Hfit as [?|(e & E & H)]; [discriminate|]. injection E as <-. exact H. }
    apply (descend_case is64); auto. apply Hc. lia.
Qed.

Lemma jagged_correct fuel : jcorrect is64 fuel.
Proof.
  induction fuel as [|fuel IH]; intros c sc ss se jv vs Hf Hd Hfit Hj Hz1 Hz2 Hs Hc; [unfold cost in Hf; pose proof (bound_pos c); destruct c; lia|].
  assert (HL : forall c' l, list_view c = Some (l, c') -> exists ws, den c' = Some ws /\ forallb (sub_ok (zlen ws)) l = true /\ vs = map VList (map (seg ws) l)) by (intros c' l; apply list_inv; exact Hd).
  pose proof (jfits_inv _ _ Hfit) as Hfi.
  destruct c as [|dt data|starts stops c'|offsets c'|size zl c'|index c'|index c'|mask vw c'|mask vw lsb len c'|c'|keys len cs|tags index cs]; cbn [form_of] in Hfit, Hfi; try contradiction.
  - (* ListA *) destruct (HL _ _ eq_refl) as (ws & Hdw & Hsw & ->). unfold cost in Hf; cbn [bound] in Hf.
    assert (Hz : zlen starts <= zlen stops). { cbn [den] in Hd. rewrite Hdw in Hd. destruct (Z.leb_spec (zlen starts) (zlen stops)); [assumption|discriminate]. }
    rewrite !zlen_map, zlen_combine_le in Hz1 by exact Hz. cbn [getitem_next_jagged]. apply lists_case; auto. lia.
  - (* ListOffset *) destruct (HL _ _ eq_refl) as (ws & Hdw & Hsw & ->). unfold cost in Hf; cbn [bound] in Hf.
    assert (Hz : 1 <= zlen offsets). { cbn [den] in Hd. rewrite Hdw in Hd. destruct (Z.leb_spec 1 (zlen offsets)); [assumption|discriminate]. }
    cbn [getitem_next_jagged]. rewrite (make_starts_spec _ Hz), (make_stops_spec _ Hz). cbn [bind]. rewrite <- (combine_starts_stops _ Hz) in Hsw, Hz1 |- *.
    rewrite !zlen_map, zlen_combine_le in Hz1 by (rewrite !zlen_slice; lia). apply lists_case; auto; [lia|rewrite !zlen_slice; lia].
  - (* Regular *) cbn [getitem_next_jagged]. destruct (to_listoffset (is64 (Regular size zl c')) true (Regular size zl c') _ c' vs Hd eq_refl) as (o & c'' & E & Hdo & _). rewrite E. cbn [bind].
    destruct (tolistoffset_same _ _ _ _ E) as (o' & x' & Eo' & F & B). injection Eo' as <- <-. apply IH; auto.
    + unfold cost in *. rewrite B. cbn [bound] in *. lia.
    + rewrite F. exact Hfit.
  - (* Indexed *) destruct (project_indexed _ _ _ Hd) as (p & Ep & Hdp & Fp & Bp).
    assert (Hzi : zlen index = zlen vs). { destruct (content_inv1 _ _ Hd) as [ws Hws]. cbn [den] in Hd. rewrite Hws in Hd. symmetry. eapply omap_zlen. exact Hd. }
    assert (E : getitem_next_jagged is64 (S fuel) (Indexed index c') ss se sc [] = let* next := project (Indexed index c') in getitem_next_jagged is64 fuel next ss se sc []).
    { cbn [getitem_next_jagged project]. rewrite Hz1, Hzi, Z.eqb_refl. cbn [negb]. destruct (awkward_IndexedArray_getitem_nextcarry _ _ _ _); cbn [bind]; try reflexivity; destruct (carry c' _ false); reflexivity. }
    rewrite E, Ep. cbn [bind]. apply IH; auto.
    + pose proof (project_need _ _ _ Ep) as Hn. unfold need, cost in *. destruct p; cbn [pred] in *; lia.
    + rewrite Fp. exact Hfit.
  - (* IndexedOption *) destruct Hfi as [Hd0 Hfi]. destruct (content_inv1 _ _ Hd) as [ws Hws]. destruct (indexedoption_nextcarry' _ _ _ _ Hws Hd) as (nc & oi & ws' & E1 & E2 & E3 & E4).
    assert (Hzi : zlen index = zlen vs). { cbn [den] in Hd. rewrite Hws in Hd. symmetry. eapply omap_zlen. exact Hd. }
    unfold cost in Hf; cbn [bound] in Hf. cbn [getitem_next_jagged]. rewrite Hd0. apply (masked_case fuel c' ws vs nc oi ws'); auto. lia.
  - (* ByteMasked *) destruct Hfi as [Hd0 Hfi]. destruct (content_inv1 _ _ Hd) as [ws Hws]. destruct (bytemasked_nextcarry' _ _ _ _ _ Hws Hd) as (nc & oi & ws' & E1 & E2 & E3 & E4).
    assert (Hzi : zlen mask = zlen vs). { rewrite <- (den_length _ _ Hd). reflexivity. }
    unfold cost in Hf; cbn [bound] in Hf. cbn [getitem_next_jagged]. rewrite Hd0. apply (masked_case fuel c' ws vs nc oi ws'); auto. lia.
  - (* BitMasked *) destruct (to_byte_masked _ _ Hd) as (mask' & vw' & c'' & Eb & Hd' & _); [left; eauto 8|]. cbn [getitem_next_jagged]. rewrite Eb. cbn [bind].
    destruct (tobytemasked_same _ _ Eb) as (m2 & v2 & x2 & Eq & F & B). injection Eq as <- <- <-. apply IH; auto.
    + unfold cost in *. rewrite B. cbn [bound] in *. lia.
    + rewrite F. exact Hfit.
  - (* Unmasked *) destruct Hfi as [Hd0 Hfi]. change (den (Unmasked c')) with (den c') in Hd. unfold cost in Hf; cbn [bound] in Hf. cbn [getitem_next_jagged].
    assert (HI : outcome false (getitem_next_jagged is64 fuel c' ss se sc []) (prows (jpick (jdepth sc)) (map VList (map (seg jv) (combine ss se))) vs)). { apply IH; auto; [pose proof (cost_le c'); lia|now rewrite Hd0]. }
    destruct (getitem_next_jagged is64 fuel c' ss se sc []) as [out|e|]; cbn [bind outcome] in *; auto. destruct HI as (ws & Hr & Ho).
    destruct (simplify_den (Unmasked out) ws Ho eq_refl) as (c2 & -> & H2 & _). exists ws. split; assumption.
  - (* Record *) unfold cost in Hf; cbn [bound] in Hf. destruct (record_cols _ _ _ _ Hd) as (vss & Hvss & Hlen & Hkeys & Hzl & Hrows).
    destruct cs as [|c0 cs].
    + cbn [getitem_next_jagged outcome]. exists vs. split; [|exact Hd]. cbn [omap] in Hvss. injection Hvss as <-. apply omap_intro; [rewrite zlen_combine by (rewrite !zlen_map, zlen_combine_le; lia); rewrite !zlen_map, zlen_combine_le; lia|].
      intros i [j v] Hjv. rewrite nthZ_combine in Hjv. destruct (nthZ (map VList _) i); [|discriminate]. destruct (nthZ vs i) as [v'|] eqn:Ev; [|discriminate]. injection Hjv as -> ->. cbn [fst snd].
      destruct (omap_nth' _ _ _ _ _ Hrows Ev) as (k & _ & E). cbn [omap option_map] in E. injection E as <-. rewrite jpick_row by exact Hkeys. reflexivity.
    + assert (E : getitem_next_jagged is64 (S fuel) (Record keys len (c0 :: cs)) ss se sc [] =
        let* contents := mapres (fun x => let* trimmed := getitem_range_nowrap x 0 len in getitem_next_jagged is64 fuel trimmed ss se sc []) (c0 :: cs) in Ok (Record keys (minlength contents) contents)) by reflexivity.
      rewrite E. eapply precord_step; [exact Hd|discriminate|rewrite !zlen_map, zlen_combine_le; lia| |].
      * intros j row Hzr. apply jpick_row. rewrite Hzr. exact Hkeys.
      * intros x xs Hx Hdx Hle. destruct (range_den x xs 0 len Hdx ltac:(lia) Hle) as (t & Et & Hdt). rewrite Et. cbn [bind]. destruct (range_same _ _ _ _ Et) as [F B]. apply IH; auto.
        -- pose proof (cost_le t). pose proof (maxl_In _ _ (in_map bound _ _ Hx)). lia.
        -- rewrite F. rewrite Forall_forall in Hfi. apply Hfi. apply in_map. exact Hx.
        -- rewrite zlen_slice; lia.
Qed.

(** ** the whole slice *)
Lemma expand_one offsets n : n = zlen offsets - 1 -> 0 <= n ->
  awkward_RegularArray_getitem_jagged_expand (alloc (n * 1)) (alloc (n * 1)) offsets n 1 = Ok (slice 0 (zlen offsets - 1) offsets, slice 1 (zlen offsets) offsets).
Proof.
  intros Hn H0. unfold awkward_RegularArray_getitem_jagged_expand. rewrite for_step by lia. set (body := fun j (st : list Z * list Z) => _).
  assert (Hzp : zlen (pairs offsets) = n) by (rewrite zlen_pairs; lia).
  destruct (for_list (pairs offsets) (fun d st => exists r1 r2, st = (map fst d ++ r1, map snd d ++ r2) /\ zlen r1 = n - zlen d /\ zlen r2 = n - zlen d) body (alloc (n * 1), alloc (n * 1))) as (st & E & r1 & r2 & -> & L1 & L2).
  - exists (alloc (n * 1)), (alloc (n * 1)). cbn [map app]. change (zlen (@nil (Z * Z))) with 0. rewrite !zlen_alloc by lia. split; [reflexivity|lia].
  - intros d [a b] r st Hd (r1 & r2 & -> & L1 & L2). destruct (PPadK.pairs_mid _ _ _ _ _ Hd) as [Ha Hb]. unfold body. apply rd_Ok in Ha, Hb. rewrite Ha. cbn [bind].
    assert (zlen d + 1 <= n). { rewrite <- Hzp, <- Hd, zlen_app, zlen_cons. pose proof (zlen_nonneg r). lia. }
    destruct r1 as [|y1 r1]; [change (zlen (@nil Z)) with 0 in L1; lia|]. destruct r2 as [|y2 r2]; [change (zlen (@nil Z)) with 0 in L2; lia|]. rewrite zlen_cons in L1, L2. replace (0 * n + zlen d) with (zlen d) by lia.
    assert (W1 : wr (map fst d ++ y1 :: r1) (zlen d) a = Ok ((map fst d ++ [a]) ++ r1)) by (rewrite <- (zlen_map fst d); apply wr_push).
    assert (W2 : wr (map snd d ++ y2 :: r2) (zlen d) b = Ok ((map snd d ++ [b]) ++ r2)) by (rewrite <- (zlen_map snd d); apply wr_push).
    rewrite W1. cbn [bind]. rewrite Hb. cbn [bind]. rewrite W2. cbn [bind]. eexists; split; [reflexivity|]. exists r1, r2. rewrite !map_app, zlen_app. cbn [map fst snd]. change (zlen [(a, b)]) with 1. split; [reflexivity|lia].
  - rewrite Hzp in E. rewrite E. cbn [bind]. rewrite for_nil by lia. rewrite Hzp in L1, L2. destruct r1; [|rewrite zlen_cons in L1; pose proof (zlen_nonneg r1); lia]. destruct r2; [|rewrite zlen_cons in L2; pose proof (zlen_nonneg r2); lia]. rewrite !app_nil_r.
    rewrite <- combine_starts_stops by lia. rewrite map_fst_combine by (rewrite !zlen_slice; lia). f_equal. f_equal.
    assert (G : forall (x y : list Z), zlen x = zlen y -> map snd (combine x y) = y). { clear. induction x as [|u x IHx]; intros [|v y] H; cbn [combine map snd]; try reflexivity; rewrite ?zlen_cons in H. - change (zlen (@nil Z)) with 0 in H. pose proof (zlen_nonneg y). lia. - f_equal. apply IHx. lia. }
    apply G. rewrite !zlen_slice; lia.
Qed.

Lemma regular_jagged_eq fuel size zl c offsets sc : getitem_next is64 (S fuel) (Regular size zl c) [SJagged offsets sc] None =
  let len := length_ (Regular size zl c) in let n := zlen offsets - 1 in
  if negb (n =? size) then Err "cannot fit jagged slice into RegularArray" else
  let* m := awkward_RegularArray_getitem_jagged_expand (alloc (n * len)) (alloc (n * len)) offsets n len in
  let '(multistarts, multistops) := m in
  let* down := getitem_next_jagged is64 fuel c multistarts multistops sc [] in
  mkRegular n len down.
Proof. reflexivity. Qed.

Lemma jagged_getitem c vs offsets sc jv fuel : den c = Some vs -> jfits (jdepth sc) (form_of c) -> jag (SJagged offsets sc) = Some jv -> (2 * bound c < fuel)%nat ->
  match getitem is64 fuel c [SJagged offsets sc] with
  | Ok it => exists v, item_den it = Some v /\ jpick (jdepth (SJagged offsets sc)) (VList jv) (VList vs) = Some v
  | Err _ => jpick (jdepth (SJagged offsets sc)) (VList jv) (VList vs) = None
  | UB => False
  end.
Proof.
  intros Hd Hfit Hj Hf. unfold getitem. destruct (one_row is64 c vs Hd) as [Hd1 HL1]. rewrite (mkRegular_den _ _ _ _ Hd1). cbn [bind]. destruct fuel as [|fuel]; [lia|]. rewrite regular_jagged_eq. cbv zeta. rewrite HL1.
  pose proof Hj as Hj0. cbn [jag] in Hj. destruct (jag sc) as [jv'|] eqn:Ejv; [|discriminate]. destruct (_ && _ && _) eqn:Eok in Hj; [|discriminate]. rewrite subs_den in Hj. destruct (forallb (sub_ok (zlen jv')) (pairs offsets)) eqn:Eso; [|discriminate]. injection Hj as Hj.
  destruct (jag_offsets _ _ Eok Eso) as (lens & Eo2 & Es2 & Hn2). assert (Hzo : 1 <= zlen offsets) by (apply Bool.andb_true_iff in Eok; lia).
  assert (Hjvl : zlen jv = zlen offsets - 1) by (rewrite <- Hj, !zlen_map, zlen_pairs by exact Hzo; reflexivity).
  assert (Hs : jpick (jdepth (SJagged offsets sc)) (VList jv) (VList vs) = if zlen jv =? zlen vs then option_map VList (prows (jpick (jdepth sc)) jv vs) else None) by reflexivity.
  rewrite Hs. clear Hs. rewrite (den_length _ _ Hd), Hjvl. destruct (Z.eqb_spec (zlen offsets - 1) (zlen vs)) as [Hz|Hz]; cbn [negb]; [|reflexivity].
  rewrite (expand_one offsets) by lia. cbn [bind].
  pose proof (jagged_correct fuel c sc (slice 0 (zlen offsets - 1) offsets) (slice 1 (zlen offsets) offsets) jv' vs) as HI. rewrite (combine_starts_stops _ Hzo), Hj in HI.
  concl HI HI'.
  { apply HI; auto.
    - pose proof (cost_le c). lia.
    - rewrite zlen_slice by lia. lia.
    - rewrite !zlen_slice by lia. lia.
    - intros _. exists lens. split; [|split; [exact Es2|exact Hn2]]. rewrite (combine_starts_stops _ Hzo), Eo2. reflexivity. }
  clear HI. destruct (getitem_next_jagged is64 fuel c _ _ sc []) as [down|e|]; cbn [bind outcome] in *.
  - destruct HI' as (ws & Hws & Hw). rewrite Hws. cbn [option_map]. apply prows_zlen in Hws; [|lia].
    assert (Hd2 : den (Regular (zlen offsets - 1) 1 down) = Some [VList ws]) by (rewrite Hz, <- Hws, <- (den_length _ _ Hw); apply (one_row is64 _ _ Hw)).
    rewrite (mkRegular_den _ _ _ _ Hd2). cbn [bind]. rewrite (den_length _ _ Hd2). change (zlen [VList ws] =? 0) with false. cbn match.
    destruct (at_den _ _ 0 _ Hd2 eq_refl) as (it & -> & Hit). exists (VList ws). split; [exact Hit|reflexivity].
  - destruct HI' as [->|?]; [reflexivity|discriminate].
  - exact HI'.
Qed.
End Main.
