(** Slices in lists, with missing values among the integers. *)
From Verif Require Import Base BaseLemmas LoopLemmas OmapLemmas Content KCore Core KRange KConvert Convert KOption Option KAxis Axis KCombinations Combinations KGetitem
  SpecArray SpecForm SpecSlice SpecOption PAt PCore PRange PCarry PList PConvert POption PForm PAxis PNat PNum PCombinations PMergeC Getitem SpecGetitem PGetitemK PGetitem1 PField PGetitem PGetitem2 SpecJagged PJagged PJagged2 PJagged3 PJagged4
  KAsSlice AsSlice SpecAsSlice PAsSlice1 PAsSlice2 PAsSlice3 PAsSlice4.
Local Open Scope list_scope.
Local Open Scope Z_scope.

Lemma choose_eq d : exists f, forall j v, choose d j v = thru (f j) v.
Proof. destruct d as [|d]; eexists; intros j v; cbn [choose]; reflexivity. Qed.
Lemma choose_None d j : choose d j VNone = Some VNone.
Proof. destruct (choose_eq d) as (f & ->). reflexivity. Qed.
Lemma choose_row d j keys row : keys_ok keys (zlen row) = true -> choose d j (mkrow keys row) = option_map (mkrow keys) (omap (choose d j) row).
Proof. intros H. destruct (choose_eq d) as (f & Hf). rewrite Hf, thru_mkrow by exact H. f_equal. apply omap_ext. intros; now rewrite Hf. Qed.

(** one level of lists, integers *)
Definition epos (ws : list value) (index : list Z) (q : (Z * Z) * (Z * Z)) : option (list value) := omap (elem (seg ws (snd q))) (segz index (fst q)).
Lemma last_den c' ws starts stops ss se index : den c' = Some ws -> forallb (sub_ok (zlen ws)) (combine starts stops) = true -> zlen starts <= zlen stops ->
  zlen ss = zlen starts -> zlen se = zlen ss -> forallb (sub_ok (zlen index)) (combine ss se) = true ->
  match omap (epos ws index) (combine (combine ss se) (combine starts stops)) with
  | Some vss => exists o next, (let* carrylen := awkward_ListArray_getitem_jagged_carrylen ss se (zlen ss) in
        let* oc := awkward_ListArray_getitem_jagged_apply (alloc (zlen ss + 1)) (alloc carrylen) ss se (zlen ss) index (zlen index) starts stops (length_ c') in
        let '(outoffsets, nextcarry) := oc in
        let* nextcontent := carry c' nextcarry true in
        mkListOffset outoffsets nextcontent) = Ok (ListOffset o next) /\ den (ListOffset o next) = Some (map VList vss) /\ den next = Some (concat vss)
  | None => exists m, (let* carrylen := awkward_ListArray_getitem_jagged_carrylen ss se (zlen ss) in
        let* oc := awkward_ListArray_getitem_jagged_apply (alloc (zlen ss + 1)) (alloc carrylen) ss se (zlen ss) index (zlen index) starts stops (length_ c') in
        let '(outoffsets, nextcarry) := oc in
        let* nextcontent := carry c' nextcarry true in
        mkListOffset outoffsets nextcontent) = Err m
  end.
Proof.
  intros Hd Hs Hz1 Hz2 Hz3 Hs2. rewrite (carrylen_spec ss se) by lia. cbn [bind]. rewrite (den_length _ _ Hd). pose proof (zlen_nonneg ss) as Hss.
  assert (H0 : 0 <= sumZ (map diff (combine ss se))). { apply sumZ_nonneg. apply Forall_forall. intros y Hy. apply in_map_iff in Hy. destruct Hy as (ab & <- & Hab). rewrite forallb_forall in Hs2. eapply sub_ok_diff. apply Hs2. exact Hab. }
  pose proof (apply_spec ss se starts stops index (zlen ws) (zlen ss) (alloc (zlen ss + 1)) (alloc (sumZ (map diff (combine ss se))))) as G. concl G G'.
  { apply G; try lia; try assumption; apply zlen_alloc; lia. } clear G.
  set (xs := combine (combine ss se) (combine starts stops)) in *.
  pose proof (omap_pos (jpos index) (omap (nthZ ws)) (epos ws index) xs) as GP.
  assert (GP' : match omap (jpos index) xs with Some ps => exists vs, omap (omap (nthZ ws)) ps = Some vs /\ omap (epos ws index) xs = Some vs | None => omap (epos ws index) xs = None end).
  { apply GP. intros [sab ab] Hin. unfold jpos, epos. cbn [fst snd]. assert (Hab : sub_ok (zlen ws) ab = true). { rewrite forallb_forall in Hs. apply Hs. unfold xs in Hin. apply in_combine_r in Hin. exact Hin. }
    unfold arr_pos. apply (omap_pos (fun x => at_pos x ab) (nthZ ws) (elem (seg ws ab))). intros i _. rewrite elem_pos by exact Hab. destruct (at_pos i ab) as [p|] eqn:Ep; [|reflexivity]. destruct (at_pos_in ws ab i p Hab Ep) as (x & Hx). eauto. }
  clear GP. destruct (omap (jpos index) xs) as [pss|].
  - destruct G' as (o & -> & Ho & Hp). cbn [bind]. destruct GP' as (vss & E1 & ->). assert (Hcat : omap (nthZ ws) (concat pss) = Some (concat vss)) by (rewrite omap_concat, E1; reflexivity).
    destruct (carry_den _ _ _ _ true Hd Hcat) as (next & -> & Hdn). cbn [bind].
    assert (Hlen : map zlen pss = map zlen vss). { clear -E1. revert vss E1. induction pss as [|p pss IH]; intros vss E1; cbn [omap] in E1; [injection E1 as <-; reflexivity|]. destruct (omap (nthZ ws) p) as [v|] eqn:Ev; [|discriminate]. destruct (omap _ pss) as [vs|]; [|discriminate]. injection E1 as <-. cbn [map]. rewrite (omap_zlen _ _ _ Ev). f_equal. auto. }
    assert (Hdo : den (ListOffset o next) = Some (map VList vss)). { rewrite (den_pairs o (offsets_of (map zlen vss))); [apply listoffset_den0; exact Hdn|congruence|lia|rewrite PList.zlen_offsets_of; pose proof (zlen_nonneg (map zlen vss)); lia]. }
    rewrite (mkListOffset_den _ _ _ Hdo). eauto.
  - destruct G' as (m & ->). cbn [bind]. rewrite GP'. eauto.
Qed.
Lemma last_outcome c' ws starts stops ss se index : den c' = Some ws -> forallb (sub_ok (zlen ws)) (combine starts stops) = true -> zlen starts <= zlen stops ->
  zlen ss = zlen starts -> zlen se = zlen ss -> forallb (sub_ok (zlen index)) (combine ss se) = true ->
  outcome false (let* carrylen := awkward_ListArray_getitem_jagged_carrylen ss se (zlen ss) in
        let* oc := awkward_ListArray_getitem_jagged_apply (alloc (zlen ss + 1)) (alloc carrylen) ss se (zlen ss) index (zlen index) starts stops (length_ c') in
        let '(outoffsets, nextcarry) := oc in
        let* nextcontent := carry c' nextcarry true in
        mkListOffset outoffsets nextcontent)
    (prows (choose 0) (map VList (map (seg (map VInt index)) (combine ss se))) (map VList (map (seg ws) (combine starts stops)))).
Proof.
  intros Hd Hs Hz1 Hz2 Hz3 Hs2. pose proof (last_den _ _ _ _ _ _ _ Hd Hs Hz1 Hz2 Hz3 Hs2) as G. set (xs := combine (combine ss se) (combine starts stops)) in *.
  assert (Espec : prows (choose 0) (map VList (map (seg (map VInt index)) (combine ss se))) (map VList (map (seg ws) (combine starts stops))) = option_map (map VList) (omap (epos ws index) xs)).
  { unfold prows. rewrite !map_map. rewrite combine_map_l, combine_map_r, map_map, omap_map. rewrite <- omap_option_map. apply omap_ext. intros [sab ab] _. cbn [fst snd choose thru]. rewrite seg_ints, omap_map. reflexivity. }
  rewrite Espec. destruct (omap (epos ws index) xs) as [vss|].
  - destruct G as (o & next & -> & Hdo & _). cbn [outcome option_map]. eauto.
  - destruct G as (m & ->). left. reflexivity.
Qed.

(** filling what is kept back between what is missing *)
Fixpoint ofill {A} (xs : list (option A)) (ys : list value) : list value :=
  match xs with
  | [] => []
  | None :: t => VNone :: ofill t ys
  | Some _ :: t => match ys with [] => [] | y :: ys => y :: ofill t ys end
  end.
Lemma ofill_optget {A} (xs : list (option A)) : forall p q, zlen q = zlen (keep xs) -> omap (optget (p ++ q)) (oranks (zlen p) xs) = Some (ofill xs q).
Proof.
  induction xs as [|[a|] xs IH]; intros p q Hq; cbn [oranks keep omap ofill] in *; [reflexivity| |].
  - rewrite zlen_cons in Hq. pose proof (zlen_nonneg (keep xs)). destruct q as [|y q]; [change (zlen (@nil value)) with 0 in Hq; lia|]. rewrite zlen_cons in Hq. unfold optget at 1. pose proof (zlen_nonneg p). destruct (Z.ltb_spec (zlen p) 0); [lia|]. rewrite nthZ_mid.
    specialize (IH (p ++ [y]) q ltac:(lia)). rewrite zlen_app, <- app_assoc in IH. change (zlen [y]) with 1 in IH. cbn [app] in IH. rewrite IH. reflexivity.
  - change (optget (p ++ q) (-1)) with (Some VNone). cbv iota beta. rewrite IH by exact Hq. reflexivity.
Qed.
Lemma ofill_app {A} (x1 x2 : list (option A)) : forall y1 y2, zlen y1 = zlen (keep x1) -> ofill (x1 ++ x2) (y1 ++ y2) = ofill x1 y1 ++ ofill x2 y2.
Proof.
  induction x1 as [|[a|] x1 IH]; intros y1 y2 Hz; cbn [app ofill keep] in *.
  - apply zlen_0 in Hz. subst. reflexivity.
  - rewrite zlen_cons in Hz. pose proof (zlen_nonneg (keep x1)). destruct y1 as [|y y1]; [change (zlen (@nil value)) with 0 in Hz; lia|]. rewrite zlen_cons in Hz. cbn [app]. rewrite IH by lia. reflexivity.
  - rewrite IH by exact Hz. reflexivity.
Qed.
Lemma zlen_ofill {A} (xs : list (option A)) : forall ys, zlen ys = zlen (keep xs) -> zlen (ofill xs ys) = zlen xs.
Proof. intros ys H. pose proof (ofill_optget xs [] ys H) as E. apply omap_zlen in E. change (zlen (@nil value)) with 0 in E. rewrite E. apply zlen_oranks. Qed.
Lemma choose_fill (x : list (option Z)) l : choose 0 (VList (map (ogetv VInt) x)) (VList l) = option_map (fun ys => VList (ofill x ys)) (omap (elem l) (keep x)).
Proof.
  cbn [choose thru]. assert (G : omap (fun i => match i with VInt i => elem l i | VNone => Some VNone | _ => None end) (map (ogetv VInt) x) = option_map (ofill x) (omap (elem l) (keep x))).
  { induction x as [|[a|] x IH]; cbn [map omap keep ofill]; [reflexivity| |].
    - unfold ogetv at 1. destruct (elem l a) as [y|]; [|reflexivity]. rewrite IH. destruct (omap (elem l) (keep x)); reflexivity.
    - unfold ogetv at 1. rewrite IH. destruct (omap (elem l) (keep x)); reflexivity. }
  rewrite G. destruct (omap (elem l) (keep x)); reflexivity.
Qed.

Lemma split_lens {A} lens : forall os : list A, nonneg_counts lens -> sumZ lens = zlen os -> exists oss, concat oss = os /\ map zlen oss = lens.
Proof.
  induction lens as [|n lens IH]; intros os Hn Hs.
  - exists []. split; [|reflexivity]. symmetry. apply zlen_0. symmetry. exact Hs.
  - inversion Hn; subst. change (sumZ (n :: lens)) with (n + sumZ lens) in Hs. assert (0 <= sumZ lens) by (apply sumZ_nonneg; assumption).
    destruct (IH (slice n (zlen os) os) ltac:(assumption)) as (oss & E1 & E2); [rewrite zlen_slice; lia|]. exists (slice 0 n os :: oss). cbn [concat map]. rewrite E1, E2. split; [|rewrite zlen_slice by lia; f_equal; lia].
    rewrite <- slice_split by lia. apply slice_full.
Qed.
Lemma segs_cut (pss : list (list value)) : map (seg (concat pss)) (pairs (offsets_of (map zlen pss))) = pss /\ forallb (sub_ok (zlen (concat pss))) (pairs (offsets_of (map zlen pss))) = true.
Proof. pose proof (segs_of_offsets pss [] []) as H. cbv zeta in H. cbn [app] in H. rewrite app_nil_r in H. exact H. Qed.
Lemma map_zlen_map {A B} (f : A -> B) l : map zlen (map (map f) l) = map zlen l.
Proof. rewrite map_map. apply map_ext. intros. apply zlen_map. Qed.
Lemma segz_cut (pss : list (list Z)) : map (segz (concat pss)) (pairs (offsets_of (map zlen pss))) = pss /\ forallb (sub_ok (zlen (concat pss))) (pairs (offsets_of (map zlen pss))) = true.
Proof.
  destruct (segs_cut (map (map VInt) pss)) as [H1 H2]. rewrite map_zlen_map, <- concat_map in H1, H2. rewrite zlen_map in H2. split; [|exact H2].
  rewrite (map_ext _ _ (seg_ints (concat pss))) in H1. rewrite <- (map_map (segz (concat pss)) (map VInt)) in H1. revert H1. generalize (map (segz (concat pss)) (pairs (offsets_of (map zlen pss)))) as a. clear. intros a. revert pss.
  induction a as [|x a IH]; intros [|y pss] H; cbn [map] in H; try discriminate; [reflexivity|]. injection H as H1 H2. f_equal; [|apply IH; exact H2].
  revert y H1. induction x as [|u x IHx]; intros [|v y] H; cbn [map] in H; try discriminate; [reflexivity|]. injection H as -> H. f_equal. apply IHx. exact H.
Qed.
Lemma zlen_pairs_cut {A} (l : list (list A)) : zlen (pairs (offsets_of (map zlen l))) = zlen l.
Proof. pose proof (zlen_nonneg l). rewrite zlen_pairs; rewrite zlen_offsets_of, zlen_map; lia. Qed.

Section Main.
Variable is64 : content -> bool.

Lemma missing_outcome fuel w c' ws starts stops ss se os b : (1 <= fuel)%nat -> den c' = Some ws -> forallb (sub_ok (zlen ws)) (combine starts stops) = true -> zlen starts <= zlen stops ->
  zlen ss = zlen starts -> zlen se = zlen ss -> contiguous ss se (zlen os) ->
  outcome false (let missing := oranks 0 os in
        let* numvalid := awkward_ListArray_getitem_jagged_numvalid ss se (zlen ss) missing (zlen missing) in
        let* r := awkward_ListArray_getitem_jagged_shrink (alloc numvalid) (alloc (zlen ss + 1)) (alloc (zlen ss + 1)) ss se (zlen ss) missing in
        let '(nextcarry, smalloffsets, largeoffsets) := r in
        let* smallstarts := make_starts smalloffsets in
        let* smallstops := make_stops smalloffsets in
        let* out := slice_jagged is64 fuel (ListA starts stops c') smallstarts smallstops (AArray (keep os) b) in
        match out with
        | ListOffset _ content =>
            let* total := rd largeoffsets (zlen largeoffsets - 1) in
            let* missing_trim := iview 0 total missing in
            let* inner := simplify_optiontype (IndexedOption missing_trim content) in
            mkListOffset largeoffsets inner
        | _ => Err w
        end)
    (prows (choose 0) (map VList (map (seg (map (ogetv VInt) os)) (combine ss se))) (map VList (map (seg ws) (combine starts stops)))).
Proof.
  intros Hf Hd Hs Hz1 Hz2 Hz3 (lens & Hp & Hsum & Hnn). destruct (split_lens lens os Hnn Hsum) as (oss & <- & <-). cbv zeta. clear Hsum Hnn.
  assert (Hzo : zlen ss = zlen oss). { rewrite <- (zlen_pairs_cut oss), <- Hp, zlen_combine_le by lia. reflexivity. }
  rewrite (numvalid_spec oss ss se (zlen ss) Hp Hzo). cbn [bind]. destruct (shrink_spec oss ss se (zlen ss) Hp Hzo) as (tc & ->). cbn [bind]. clear tc.
  set (small := offsets_of (map (fun x => zlen (keep x)) oss)). set (large := offsets_of (map zlen oss)). pose proof (zlen_nonneg oss) as Hn0.
  assert (Zs : zlen small = zlen oss + 1) by (unfold small; rewrite zlen_offsets_of, zlen_map; reflexivity). assert (Zl : zlen large = zlen oss + 1) by (unfold large; rewrite zlen_offsets_of, zlen_map; reflexivity).
  rewrite (make_starts_spec small), (make_stops_spec small) by lia. cbn [bind]. destruct fuel as [|fuel]; [lia|]. cbn [slice_jagged].
  assert (Zss : zlen (slice 0 (zlen small - 1) small) = zlen starts) by (rewrite zlen_slice; lia). rewrite Zss, Z.eqb_refl. cbn [negb]. destruct (Z.ltb_spec (zlen stops) (zlen starts)); [lia|].
  assert (Esm : small = offsets_of (map zlen (map keep oss))) by (unfold small; now rewrite map_map).
  assert (Ek : keep (concat oss) = concat (map keep oss)) by apply keep_concat. rewrite Ek. destruct (segz_cut (map keep oss)) as [C1 C2]. rewrite <- Esm in C1, C2.
  pose proof (last_den c' ws starts stops (slice 0 (zlen small - 1) small) (slice 1 (zlen small) small) (concat (map keep oss)) Hd Hs Hz1 ltac:(lia) ltac:(rewrite !zlen_slice; lia)) as G.
  rewrite combine_starts_stops in G by lia. specialize (G C2). rewrite Zss in G. set (L := combine starts stops) in *. assert (ZL : zlen L = zlen oss) by (unfold L; rewrite zlen_combine_le; lia).
  set (e := fun q : list (option Z) * (Z * Z) => omap (elem (seg ws (snd q))) (keep (fst q))).
  assert (E1 : omap (epos ws (concat (map keep oss))) (combine (pairs small) L) = omap e (combine oss L)).
  { assert (E0 : omap (epos ws (concat (map keep oss))) (combine (pairs small) L) = omap (fun q => omap (elem (seg ws (snd q))) (fst q)) (combine (map (segz (concat (map keep oss))) (pairs small)) L)) by (rewrite combine_map_l, omap_map; reflexivity).
    rewrite E0, C1, combine_map_l, omap_map. reflexivity. }
  assert (E2 : prows (choose 0) (map VList (map (seg (map (ogetv VInt) (concat oss))) (combine ss se))) (map VList (map (seg ws) L)) = option_map (map VList) (omap (fun q => option_map (ofill (fst q)) (e q)) (combine oss L))).
  { rewrite Hp. rewrite concat_map. destruct (segs_cut (map (map (ogetv VInt)) oss)) as [D1 _]. rewrite map_zlen_map in D1. rewrite D1. unfold prows. rewrite !map_map, combine_map_l, combine_map_r, map_map, omap_map. rewrite <- omap_option_map. apply omap_ext. intros [x ab] _. cbn [fst snd]. rewrite choose_fill. unfold e. cbn [fst snd]. destruct (omap _ (keep x)); reflexivity. }
  rewrite E2. rewrite E1 in G. destruct (omap e (combine oss L)) as [vss|] eqn:Ev.
  - destruct G as (o & next & G & _ & Hdn). rewrite G. cbn [bind]. clear G.
    assert (Hzx : Forall2 (fun x v => zlen v = zlen (keep x)) oss vss).
    { clear -Ev ZL. clearbody L. revert L vss Ev ZL. induction oss as [|x oss IH]; intros L vss Ev ZL; [injection Ev as <-; constructor|]. destruct L as [|ab L]; [rewrite zlen_cons in ZL; pose proof (zlen_nonneg oss); change (zlen (@nil (Z * Z))) with 0 in ZL; lia|]. cbn [combine omap] in Ev.
      destruct (e (x, ab)) as [v|] eqn:Ee; [|discriminate]. destruct (omap e (combine oss L)) as [vss'|] eqn:E'; [|discriminate]. injection Ev as <-. rewrite !zlen_cons in ZL. constructor; [unfold e in Ee; apply omap_zlen in Ee; exact Ee|]. eapply IH; [exact E'|lia]. }
    assert (Hz : zlen (concat vss) = zlen (keep (concat oss))). { rewrite Ek. clear -Hzx. induction Hzx as [|x v xs vs E H IH]; [reflexivity|]. cbn [map concat]. rewrite !zlen_app. lia. }
    assert (Et : rd large (zlen large - 1) = Ok (zlen (concat oss))). { apply rd_Ok. rewrite Zl. replace (zlen oss + 1 - 1) with (zlen (map zlen oss)) by (rewrite zlen_map; lia). unfold large, offsets_of. rewrite nthZ_offsets_last, sumZ_zlen_concat. reflexivity. }
    rewrite Et. cbn [bind]. rewrite iview_Ok by (rewrite ?zlen_oranks; pose proof (zlen_nonneg (concat oss)); lia). cbn [bind]. rewrite slice_full' by (now rewrite zlen_oranks).
    assert (Hio : den (IndexedOption (oranks 0 (concat oss)) next) = Some (ofill (concat oss) (concat vss))). { cbn [den]. rewrite Hdn. exact (ofill_optget (concat oss) [] (concat vss) Hz). }
    destruct (simplify_io _ _ _ Hio) as (inner & -> & Hin). cbn [bind].
    set (fss := map (fun q => ofill (fst q) (snd q)) (combine oss vss)).
    assert (F1 : ofill (concat oss) (concat vss) = concat fss /\ map zlen fss = map zlen oss). { unfold fss. clear -Hzx. induction Hzx as [|x v xs vs E H [IH1 IH2]]; [split; reflexivity|]. cbn [concat combine map fst snd]. rewrite ofill_app by exact E. rewrite IH1, IH2, zlen_ofill by exact E. split; reflexivity. }
    destruct F1 as [F1 F2]. rewrite F1 in Hin. assert (Hdo : den (ListOffset large inner) = Some (map VList fss)) by (unfold large; rewrite <- F2; apply listoffset_den0; exact Hin).
    rewrite (mkListOffset_den _ _ _ Hdo). cbn [outcome]. exists (map VList fss). split; [|exact Hdo].
    assert (F3 : omap (fun q => option_map (ofill (fst q)) (e q)) (combine oss L) = Some fss).
    { unfold fss. clear -Ev ZL. clearbody L. revert L vss Ev ZL. induction oss as [|x oss IH]; intros L vss Ev ZL; [reflexivity|]. destruct L as [|ab L]; [rewrite zlen_cons in ZL; pose proof (zlen_nonneg oss); change (zlen (@nil (Z * Z))) with 0 in ZL; lia|]. cbn [combine omap fst] in Ev |- *.
      destruct (e (x, ab)) as [v|] eqn:Ee; [|discriminate]. destruct (omap e (combine oss L)) as [vss'|] eqn:E'; [|discriminate]. injection Ev as <-. rewrite !zlen_cons in ZL. cbn [option_map]. rewrite (IH L vss' E') by lia. reflexivity. }
    rewrite F3. reflexivity.
  - destruct G as (m & G). rewrite G. cbn [bind outcome]. left. apply omap_None in Ev. destruct Ev as (i & q & Hi & Hq). rewrite (omap_None_In _ _ q); [reflexivity|eapply nthZ_In; exact Hi|]. rewrite Hq. reflexivity.
Qed.
End Main.
