(** Jagged slices: the methods. *)
From Verif Require Import Base BaseLemmas LoopLemmas OmapLemmas Content KCore Core KRange KConvert Convert KOption Option KAxis Axis KCombinations Combinations KGetitem
  SpecArray SpecForm SpecSlice SpecOption PCore PRange PCarry PList PConvert POption PForm PAxis PNat PNum PCombinations Getitem SpecGetitem PGetitemK PGetitem1 PField PGetitem PGetitem2 SpecJagged PJagged.

Lemma descend_spec ss se starts stops lens0 n to : zlen ss = zlen se -> zlen starts = zlen ss -> zlen starts <= zlen stops -> n = zlen ss -> zlen to = n + 1 ->
  combine ss se = pairs (offsets_of lens0) ->
  match omap (fun q => if diff (fst q) =? diff (snd q) then Some (diff (snd q)) else None) (combine (combine ss se) (combine starts stops)) with
  | Some lens => awkward_ListArray_getitem_jagged_descend to ss se n starts stops = Ok (offsets_of lens)
  | None => exists e, awkward_ListArray_getitem_jagged_descend to ss se n starts stops = Err e
  end.
Proof.
  intros Hz1 Hz2 Hz3 -> Hto Hp. unfold awkward_ListArray_getitem_jagged_descend. pose proof (zlen_nonneg ss) as Hnn.
  assert (Hfirst : (if zlen ss =? 0 then Ok 0 else rd ss 0) = Ok 0).
  { destruct (Z.eqb_spec (zlen ss) 0); [reflexivity|]. destruct ss as [|s ss]; [change (zlen (@nil Z)) with 0 in *; lia|]. destruct se as [|e se]; [change (zlen (@nil Z)) with 0 in *; rewrite zlen_cons in *; lia|].
    cbn [combine] in Hp. destruct lens0 as [|k lens0]; [discriminate|]. unfold offsets_of in Hp. rewrite pairs_offsets_cons in Hp. injection Hp as -> _ _. reflexivity. }
  rewrite Hfirst. cbn [bind]. destruct (wr_spec to 0 0) as (o1 & Eo1 & Ho1 & No1); [lia|]. rewrite Eo1. cbn [bind]. clear Hfirst Hp lens0.
  set (xs := combine (combine ss se) (combine starts stops)). set (f := fun q : (Z * Z) * (Z * Z) => _). set (body := fun i (tooffsets : list Z) => _).
  assert (Hxs : zlen xs = zlen ss). { unfold xs. rewrite zlen_combine_le; rewrite ?zlen_combine_le; lia. }
  pose proof (for_omap xs f (fun lens o => zlen o = zlen ss + 1 /\ forall j, 0 <= j <= zlen lens -> nthZ o j = nthZ (offsets_of lens) j) body (zlen ss) o1) as G.
  concl G HG.
  { apply G; clear G; [lia| |].
    - split; [lia|]. change (zlen (@nil Z)) with 0. intros j Hj. rewrite No1. assert (j = 0) as -> by lia. reflexivity.
    - intros d [[sa sb] [a b]] r lens o Hd Hl (Ho & No). unfold body, f. cbn [fst snd].
      destruct (combine_mid _ _ _ _ _ _ Hd) as [H1 H2]. rewrite nthZ_combine in H1, H2.
      destruct (nthZ ss (zlen d)) as [x1|] eqn:E1; [|discriminate]. destruct (nthZ se (zlen d)) as [x2|] eqn:E2; [|discriminate]. injection H1 as -> ->.
      destruct (nthZ starts (zlen d)) as [x1|] eqn:E3; [|discriminate]. destruct (nthZ stops (zlen d)) as [x2|] eqn:E4; [|discriminate]. injection H2 as -> ->.
      apply nthZ_Some in E1 as Hr. apply rd_Ok in E1, E2, E3, E4. rewrite E1, E2, E3, E4. cbn [bind]. unfold diff. cbn [fst snd].
      assert (zlen lens = zlen d) as Hzl by (eapply omap_zlen; exact Hl). pose proof (zlen_nonneg d).
      destruct (Z.eqb_spec (sb - sa) (b - a)); cbn [negb]; [|eauto].
      assert (Ht : rd o (zlen d) = Ok (sumZ lens)). { apply rd_Ok. rewrite No by lia. rewrite PFlatten.nthZ_offsets_of by lia. rewrite <- Hzl, slice_full. reflexivity. }
      rewrite Ht. cbn [bind]. destruct (wr_spec o (zlen d + 1) (sumZ lens + (b - a))) as (o2 & Eo2 & Ho2 & No2); [lia|]. exists o2. split; [exact Eo2|]. split; [lia|].
      rewrite zlen_app. change (zlen [b - a]) with 1. intros j Hj. rewrite No2, PFlatten.offsets_of_snoc, nthZ_app, PList.zlen_offsets_of.
      destruct (Z.eqb_spec j (zlen d + 1)) as [->|].
      + destruct (Z.ltb_spec (zlen d + 1) (zlen lens + 1)); [lia|]. rewrite Hzl, Z.sub_diag. reflexivity.
      + destruct (Z.ltb_spec j (zlen lens + 1)); [apply No; lia|lia]. }
  clear G. destruct (omap f xs) as [lens|] eqn:El; [|exact HG]. destruct HG as (o & -> & Ho & No). f_equal. assert (zlen lens = zlen ss) by (rewrite <- Hxs; eapply omap_zlen; exact El).
  apply list_eqZ; [rewrite PList.zlen_offsets_of; lia|]. intros j Hj. apply No. lia.
Qed.

(** the slices of the rows that are not missing *)
Lemma project_spec (oi ss se : list Z) n k : n = zlen oi -> zlen ss = n -> zlen se = n -> k = zlen (filter (fun q => 0 <=? fst q) (combine oi (combine ss se))) ->
  let kept := map snd (filter (fun q => 0 <=? fst q) (combine oi (combine ss se))) in
  awkward_MaskedArray_getitem_next_jagged_project oi ss se (alloc k) (alloc k) n = Ok (map fst kept, map snd kept).
Proof.
  intros -> H1 H2 Hk kept. unfold awkward_MaskedArray_getitem_next_jagged_project. set (xs := combine oi (combine ss se)) in *. set (p := fun q : Z * (Z * Z) => 0 <=? fst q) in *.
  assert (Hxs : zlen xs = zlen oi). { unfold xs. rewrite zlen_combine_le; rewrite ?zlen_combine_le; lia. } rewrite <- Hxs. set (body := fun i (st : Z * list Z * list Z) => _). pose proof (zlen_nonneg (filter p xs)) as Hk0.
  destruct (for_list xs (fun d st => exists r1 r2, st = (zlen (filter p d), map fst (map snd (filter p d)) ++ r1, map snd (map snd (filter p d)) ++ r2) /\ zlen r1 = k - zlen (filter p d) /\ zlen r2 = k - zlen (filter p d)) body (0, alloc k, alloc k)) as (st & E & r1 & r2 & -> & L1 & L2).
  - exists (alloc k), (alloc k). cbn [filter map app]. change (zlen (@nil (Z * (Z * Z)))) with 0. rewrite !zlen_alloc by lia. split; [reflexivity|lia].
  - intros d [x [a b]] r st Hd (r1 & r2 & -> & L1 & L2). unfold body. destruct (combine_mid _ _ _ _ _ _ Hd) as [Hx H3]. rewrite nthZ_combine in H3.
    destruct (nthZ ss (zlen d)) as [x1|] eqn:E1; [|discriminate]. destruct (nthZ se (zlen d)) as [x2|] eqn:E2; [|discriminate]. injection H3 as -> ->. apply rd_Ok in Hx, E1, E2. rewrite Hx. cbn [bind].
    assert (Hroom : zlen (filter p d) + (if 0 <=? x then 1 else 0) <= k). { rewrite Hk, <- Hd, filter_app, zlen_app. cbn [filter]. change (p (x, (a, b))) with (0 <=? x). destruct (0 <=? x); rewrite ?zlen_cons; pose proof (zlen_nonneg (filter p r)); lia. }
    destruct (0 <=? x) eqn:Ex.
    + rewrite E1. cbn [bind]. destruct r1 as [|y1 r1]; [change (zlen (@nil Z)) with 0 in L1; lia|]. destruct r2 as [|y2 r2]; [change (zlen (@nil Z)) with 0 in L2; lia|]. rewrite zlen_cons in L1, L2.
      assert (Hw1 : zlen (filter p d) = zlen (map fst (map snd (filter p d)))) by now rewrite !zlen_map. assert (Hw2 : zlen (filter p d) = zlen (map snd (map snd (filter p d)))) by now rewrite !zlen_map.
      assert (W1 : wr (map fst (map snd (filter p d)) ++ y1 :: r1) (zlen (filter p d)) a = Ok ((map fst (map snd (filter p d)) ++ [a]) ++ r1)) by (rewrite Hw1; apply wr_push).
      assert (W2 : wr (map snd (map snd (filter p d)) ++ y2 :: r2) (zlen (filter p d)) b = Ok ((map snd (map snd (filter p d)) ++ [b]) ++ r2)) by (rewrite Hw2; apply wr_push).
      rewrite W1. cbn [bind]. rewrite E2. cbn [bind]. rewrite W2. cbn [bind]. eexists; split; [reflexivity|].
      rewrite filter_app. cbn [filter]. assert (Ep : p (x, (a, b)) = true) by exact Ex. rewrite Ep. exists r1, r2. rewrite zlen_app, !map_app. cbn [map fst snd]. change (zlen [(x, (a, b))]) with 1. split; [reflexivity|lia].
    + eexists; split; [reflexivity|]. rewrite filter_app. cbn [filter]. assert (Ep : p (x, (a, b)) = false) by exact Ex. rewrite Ep, app_nil_r. exists r1, r2. split; [reflexivity|lia].
  - rewrite E. cbn [bind]. rewrite Hk in L1, L2. destruct r1; [|rewrite zlen_cons in L1; pose proof (zlen_nonneg r1); lia]. destruct r2; [|rewrite zlen_cons in L2; pose proof (zlen_nonneg r2); lia]. rewrite !app_nil_r. reflexivity.
Qed.
Lemma ranks_kept {X Y} (p : X -> bool) xs : forall (k : Z) (zs : list Y), zlen zs = zlen xs -> 0 <= k ->
  let kept := map snd (filter (fun q => 0 <=? fst q) (combine (ranks p k xs) zs)) in
  zlen kept = zlen (filter p xs) /\ forall i r z, nthZ (ranks p k xs) i = Some r -> 0 <= r -> nthZ zs i = Some z -> nthZ kept (r - k) = Some z.
Proof.
  induction xs as [|x xs IH]; intros k zs Hz Hk kept; unfold kept; clear kept.
  - cbn [ranks combine filter map]. split; [reflexivity|]. intros i r z H. rewrite nthZ_nil in H. discriminate.
  - destruct zs as [|y zs]; [rewrite zlen_cons in Hz; change (zlen (@nil Y)) with 0 in Hz; pose proof (zlen_nonneg xs); lia|]. rewrite !zlen_cons in Hz. cbn [ranks filter]. destruct (p x).
    + destruct (IH (k + 1) zs) as [I1 I2]; [lia|lia|]. cbn [combine filter fst]. destruct (Z.leb_spec 0 k); [|lia]. cbn [map snd]. split; [rewrite !zlen_cons, I1; reflexivity|].
      intros i r z Hr Hr0 Hzz. rewrite nthZ_cons in Hr. rewrite nthZ_cons in Hzz. destruct (Z.eqb_spec i 0).
      * injection Hr as <-. injection Hzz as <-. rewrite Z.sub_diag. reflexivity.
      * specialize (I2 _ _ _ Hr Hr0 Hzz). apply nthZ_Some in I2 as Hr2. rewrite nthZ_cons. destruct (Z.eqb_spec (r - k) 0); [lia|]. replace (r - k - 1) with (r - (k + 1)) by lia. exact I2.
    + destruct (IH k zs) as [I1 I2]; [lia|lia|]. cbn [combine filter fst]. split; [exact I1|]. intros i r z Hr Hr0 Hzz. rewrite nthZ_cons in Hr. rewrite nthZ_cons in Hzz. destruct (Z.eqb_spec i 0); [injection Hr as <-; lia|]. eapply I2; eauto.
Qed.

(** ** rows with their own slices *)
Definition prows {J} (F : J -> value -> option value) (js : list J) (vs : list value) : option (list value) := omap (fun q => F (fst q) (snd q)) (combine js vs).
Lemma prows_app {J} (F : J -> value -> option value) k1 k2 v1 v2 : zlen k1 = zlen v1 -> prows F (k1 ++ k2) (v1 ++ v2) = match prows F k1 v1, prows F k2 v2 with Some a, Some b => Some (a ++ b) | _, _ => None end.
Proof. intros H. unfold prows. rewrite PMergeC.combine_app by exact H. apply omap_app. Qed.
Lemma prows_concat {J} (F : J -> value -> option value) kss xss : Forall2 (fun (ks : list J) (xs : list value) => zlen ks = zlen xs) kss xss ->
  prows F (concat kss) (concat xss) = option_map (@concat _) (omap (fun kx => prows F (fst kx) (snd kx)) (combine kss xss)).
Proof.
  induction 1 as [|ks xs kss xss H _ IH]; [reflexivity|]. cbn [concat combine omap fst snd]. rewrite prows_app by exact H. rewrite IH. destruct (prows F ks xs); [|reflexivity].
  destruct (omap _ (combine kss xss)); reflexivity.
Qed.
Lemma prows_zlen {J} (F : J -> value -> option value) ks vs ws : zlen ks = zlen vs -> prows F ks vs = Some ws -> zlen ws = zlen vs.
Proof. intros H E. unfold prows in E. apply omap_zlen in E. rewrite E. rewrite zlen_combine by exact H. exact H. Qed.
Lemma pwrap_step {J} (F : J -> value -> option value) reg r mk kss xss o : Forall2 (fun (ks : list J) (xs : list value) => zlen ks = zlen xs) kss xss ->
  outcome reg r (prows F (concat kss) (concat xss)) ->
  (forall out yss, den out = Some (concat yss) -> map zlen yss = map zlen xss -> exists c, mk out = Ok c /\ den c = Some (map VList yss)) ->
  o = option_map (map VList) (omap (fun kx => prows F (fst kx) (snd kx)) (combine kss xss)) ->
  outcome reg (let* out := r in mk out) o.
Proof.
  intros HF Hr Hmk ->. rewrite (prows_concat _ _ _ HF) in Hr. destruct r as [out|e|]; cbn [bind outcome] in *; [|destruct Hr as [Hr|Hr]; [left|right; exact Hr]|exact Hr].
  - destruct Hr as (ws & E & Hd). destruct (omap _ (combine kss xss)) as [yss|] eqn:Ey; [|discriminate]. cbn [option_map] in *. injection E as <-.
    assert (HL : map zlen yss = map zlen xss).
    { clear -Ey HF. revert yss Ey. induction HF as [|ks xs kss xss H _ IH]; intros yss Ey; cbn [combine omap fst snd] in Ey; [injection Ey as <-; reflexivity|].
      destruct (prows F ks xs) as [ys|] eqn:E; [|discriminate]. destruct (omap _ (combine kss xss)) as [yss'|]; [|discriminate]. injection Ey as <-. cbn [map]. rewrite (prows_zlen _ _ _ _ H E). f_equal. now apply IH. }
    destruct (Hmk out yss Hd HL) as (c & -> & Hc). eexists; split; [reflexivity|exact Hc].
  - destruct (omap _ (combine kss xss)); [discriminate|reflexivity].
Qed.
(** options *)
Lemma poption_step {J} (F : J -> value -> option value) reg (oi : list Z) (js js' : list J) (ws' vs : list value) r : (forall j, F j VNone = Some VNone) ->
  omap (optget ws') oi = Some vs -> zlen js = zlen oi -> zlen js' = zlen ws' ->
  (forall i q j, nthZ oi i = Some q -> 0 <= q -> nthZ js i = Some j -> nthZ js' q = Some j) -> (forall q, 0 <= q < zlen ws' -> In q oi) ->
  outcome reg r (prows F js' ws') -> outcome reg (let* out := r in simplify_optiontype (IndexedOption oi out)) (prows F js vs).
Proof.
  intros HF Hoi Hz1 Hz2 Hj Hin Hr. pose proof (omap_zlen _ _ _ Hoi) as Hzv. destruct r as [out|e|]; cbn [bind outcome] in *; [|destruct Hr as [Hr|Hr]; [left|right; exact Hr]|exact Hr].
  - destruct Hr as (us & Hus & Hout). assert (Hdo : exists zs, prows F js vs = Some zs /\ den (IndexedOption oi out) = Some zs).
    { cbn [den]. rewrite Hout. pose proof (prows_zlen F _ _ _ Hz2 Hus) as Hzu.
      assert (HG : forall i q, nthZ oi i = Some q -> exists v j z, nthZ vs i = Some v /\ nthZ js i = Some j /\ F j v = Some z /\ (if q <? 0 then Some VNone else nthZ us q) = Some z).
      { intros i q Hq. destruct (omap_nth _ _ _ _ _ Hoi Hq) as (Ev & v & Hv). rewrite Hv in Ev. symmetry in Ev. apply nthZ_Some in Hq as Hr. destruct (nthZ_lt js i) as [j Hjj]; [lia|]. unfold optget in Hv. destruct (Z.ltb_spec q 0).
        - injection Hv as <-. exists VNone, j, VNone. auto.
        - pose proof (Hj _ _ _ Hq H Hjj) as Hj'. assert (Hc : nthZ (combine js' ws') q = Some (j, v)) by now rewrite nthZ_combine, Hj', Hv. unfold prows in Hus. destruct (omap_nth _ _ _ _ _ Hus Hc) as (E1 & z & E2). cbn [fst snd] in *. exists v, j, z. repeat split; auto. congruence. }
      destruct (omap_total (fun i => if i <? 0 then Some VNone else nthZ us i) oi) as [zs Hzs].
      { intros q Hq. apply In_nthZ in Hq. destruct Hq as (i & Hq). destruct (HG i q Hq) as (v & j & z & _ & _ & _ & E). eauto. }
      exists zs. split; [|exact Hzs]. apply omap_intro; [rewrite zlen_combine by lia; rewrite (omap_zlen _ _ _ Hzs); lia|]. intros i [j v] Hjv. rewrite nthZ_combine in Hjv. destruct (nthZ js i) as [j'|] eqn:Ej; [|discriminate]. destruct (nthZ vs i) as [v'|] eqn:Ev; [|discriminate]. injection Hjv as -> ->. cbn [fst snd].
      apply nthZ_Some in Ej as Hr. destruct (nthZ_lt oi i) as [q Hq]; [lia|]. destruct (HG i q Hq) as (v2 & j2 & z & A & B & C & D). destruct (omap_nth _ _ _ _ _ Hzs Hq) as (E & _). congruence. }
    destruct Hdo as (zs & -> & Hzs). destruct (simplify_io _ _ _ Hzs) as (c & -> & Hc). exists zs. split; [reflexivity|exact Hc].
  - unfold prows in Hr. apply omap_None in Hr. destruct Hr as (q & [j v] & Hjv & HFv). cbn [fst snd] in HFv. rewrite nthZ_combine in Hjv. destruct (nthZ js' q) as [j'|] eqn:Ej; [|discriminate]. destruct (nthZ ws' q) as [v'|] eqn:Ev; [|discriminate]. injection Hjv as -> ->.
    apply nthZ_Some in Ev as Hq. specialize (Hin _ Hq). apply In_nthZ in Hin. destruct Hin as (i & Hi). destruct (omap_nth _ _ _ _ _ Hoi Hi) as (E & _). unfold optget in E. destruct (Z.ltb_spec q 0); [lia|]. rewrite Ev in E. apply nthZ_Some in Hi as Hr.
    destruct (nthZ_lt js i) as [j2 Hj2]; [lia|]. pose proof (Hj _ _ _ Hi (proj1 Hq) Hj2) as Ej2. assert (j2 = j) as -> by congruence.
    unfold prows. apply (omap_None_In _ _ (j, v)); [|exact HFv]. apply (nthZ_In _ i). rewrite nthZ_combine, Hj2, <- E. reflexivity.
Qed.
(** records *)
Lemma precord_step {J} (F : J -> value -> option value) reg keys len cs vs (js : list J) (op : content -> res content) : den (Record keys len cs) = Some vs -> cs <> [] -> zlen js = zlen vs ->
  (forall j row, zlen row = zlen cs -> F j (mkrow keys row) = option_map (mkrow keys) (omap (F j) row)) ->
  (forall x xs, In x cs -> den x = Some xs -> len <= zlen xs -> outcome reg (op x) (prows F js (slice 0 len xs))) ->
  outcome reg (let* contents := mapres op cs in Ok (Record keys (minlength contents) contents)) (prows F js vs).
Proof.
  intros Hd Hne Hk HP HI. destruct (record_cols _ _ _ _ Hd) as (vss & Hvss & Hlen & Hkeys & Hzl & Hrows).
  assert (Hzv : zlen vss = zlen cs) by (eapply omap_zlen; exact Hvss).
  assert (Hrow : forall i v, nthZ vs i = Some v -> exists row, omap (fun xs => nthZ xs i) vss = Some row /\ v = mkrow keys row /\ zlen row = zlen cs).
  { intros i v Hv. destruct (omap_nth' _ _ _ _ _ Hrows Hv) as (j & Hj & E). apply nthZ_Some in Hv as Hr. rewrite nthZ_zseq in Hj by lia. injection Hj as <-. cbn [Z.add] in E. rewrite ?Z.add_0_l in E.
    destruct (omap (fun xs => nthZ xs i) vss) as [row|] eqn:Er; [|discriminate]. injection E as <-. exists row. split; [reflexivity|]. split; [reflexivity|]. apply omap_zlen in Er. lia. }
  assert (Hcol : forall x xs, In x cs -> den x = Some xs -> len <= zlen xs).
  { intros x xs Hx Hxs. destruct (Z_le_dec len 0); [pose proof (zlen_nonneg xs); lia|]. destruct (nthZ_lt vs (len - 1)) as [v Hv]; [lia|]. destruct (Hrow _ _ Hv) as (row & Er & _).
    assert (In xs vss) as Hin by (eapply omap_In'; eauto). apply In_nthZ in Hin. destruct Hin as (p & Hp). destruct (omap_nth _ _ _ _ _ Er Hp) as (_ & y & Hy). apply nthZ_Some in Hy. lia. }
  assert (HM : match mapres op cs with
     | Ok contents => exists uss, omap den contents = Some uss /\ Forall2 (fun xs us => prows F js (slice 0 len xs) = Some us) vss uss /\ zlen contents = zlen cs
     | Err _ => (exists x xs, In x cs /\ den x = Some xs /\ prows F js (slice 0 len xs) = None) \/ reg = true
     | UB => False end).
  { clear -HI Hvss Hcol. revert vss Hvss. induction cs as [|x cs IHc]; intros vss Hvss; cbn [omap] in Hvss; cbn [mapres].
    - injection Hvss as <-. exists []. repeat split; constructor.
    - destruct (den x) as [xs|] eqn:Ex; [|discriminate]. destruct (omap den cs) as [vss'|] eqn:Ecs; [|discriminate]. injection Hvss as <-.
      pose proof (HI x xs (or_introl eq_refl) Ex (Hcol x xs (or_introl eq_refl) Ex)) as Hx. destruct (op x) as [c|e|]; cbn [bind outcome] in *; [|destruct Hx as [Hx|Hx]|exact Hx].
      + destruct Hx as (us & Hus & Hc). specialize (IHc (fun y ys Hy => HI y ys (or_intror Hy)) (fun y ys Hy => Hcol y ys (or_intror Hy)) _ eq_refl). destruct (mapres _ cs) as [contents|e|]; cbn [bind].
        * destruct IHc as (uss & E1 & E2 & E3). exists (us :: uss). cbn [omap]. rewrite Hc, E1. repeat split; [constructor; assumption|rewrite !zlen_cons; lia].
        * destruct IHc as [(y & ys & H1 & H2 & H3)|H1]; [left; exists y, ys; repeat split; auto; now right|right; exact H1].
        * exact IHc.
      + left. exists x, xs. repeat split; auto. now left.
      + right. exact Hx. }
  destruct (mapres _ cs) as [contents|e|]; cbn [bind].
  - destruct HM as (uss & Huss & HF & Hzc).
    assert (HU : forall us, In us uss -> zlen us = len).
    { intros us Hu. apply In_nthZ in Hu. destruct Hu as (j & Hj). apply nthZ_Some in Hj as Hr. destruct (nthZ_lt vss j) as [xs Hxs]; [rewrite (PPromote.F2_zlen _ _ _ HF); exact Hr|].
      destruct (omap_nth' _ _ _ _ _ Hvss Hxs) as (x & Hx & Edx). pose proof (Hcol x xs (nthZ_In _ _ _ Hx) Edx). assert (Hru : prows F js (slice 0 len xs) = Some us).
      { clear -HF Hxs Hj. revert j Hxs Hj. induction HF as [|a b vss uss Hab _ IHF]; intros j Hxs Hj; [rewrite nthZ_nil in Hj; discriminate|]. rewrite nthZ_cons in Hxs, Hj. destruct (j =? 0); [congruence|eauto]. }
      apply prows_zlen in Hru; rewrite zlen_slice in * by lia; lia. }
    assert (Hml : minlength contents = len).
    { apply minlength_const; [|lia|].
      - intros ->. destruct cs; [congruence|]. rewrite zlen_cons in Hzc. change (zlen (@nil content)) with 0 in Hzc. pose proof (zlen_nonneg cs). lia.
      - intros c Hc. destruct (omap_In _ _ _ _ Huss Hc) as (us & E & Hu). rewrite (den_length _ _ E). auto. }
    rewrite Hml. cbn [outcome].
    assert (Hdr : exists rs, den (Record keys len contents) = Some rs).
    { cbn [den]. rewrite Huss, Hzc, Hkeys. destruct (Z.leb_spec 0 len); [|lia]. cbn [andb]. apply omap_total. intros i Hi. apply In_zseq in Hi.
      destruct (omap_total (fun us => nthZ us i) uss) as [row Hr]; [intros us Hu; apply nthZ_lt; rewrite (HU us Hu); lia|]. rewrite Hr. cbn [option_map]. eauto. }
    destruct Hdr as (rs & Hrs). exists rs. split; [|exact Hrs]. destruct (record_cols _ _ _ _ Hrs) as (uss' & Huss' & _ & _ & Hzrs & Hrows'). rewrite Huss in Huss'. injection Huss' as <-.
    apply omap_intro; [rewrite zlen_combine by exact Hk; lia|]. intros i [k v] Hkv. rewrite nthZ_combine in Hkv. destruct (nthZ js i) as [k'|] eqn:Eki; [|discriminate]. destruct (nthZ vs i) as [v'|] eqn:Ev; [|discriminate]. injection Hkv as -> ->.
    cbn [fst snd]. destruct (Hrow i v Ev) as (row & Er & -> & Hzr). rewrite HP by exact Hzr. apply nthZ_Some in Ev as Hri.
    destruct (nthZ_lt rs i) as [w Hw]; [lia|]. destruct (omap_nth' _ _ _ _ _ Hrows' Hw) as (j & Hj & E). rewrite nthZ_zseq in Hj by lia. injection Hj as <-. rewrite Z.add_0_l in E. rewrite Hw, <- E. f_equal.
    eapply transpose_row; [|exact Er]. assert (Hi : 0 <= i < len) by lia. clear -HF Eki Hi. induction HF as [|a b vss uss Hab _ IHF]; constructor; [|exact IHF]. intros x Hx. unfold prows in Hab.
    assert (Hc : nthZ (combine js (slice 0 len a)) i = Some (k, x)). { rewrite nthZ_combine, Eki. rewrite nthZ_slice by lia. rewrite Z.add_0_l, Hx. reflexivity. }
    destruct (omap_nth _ _ _ _ _ Hab Hc) as (E & _). exact E.
  - destruct HM as [(x & xs & Hx & Hxs & Hnone)|HM]; [left|right; exact HM]. apply omap_None in Hnone. destruct Hnone as (i & [k y] & Hky & Hp). rewrite nthZ_combine in Hky. destruct (nthZ js i) as [k'|] eqn:Ek; [|discriminate]. destruct (nthZ (slice 0 len xs) i) as [y'|] eqn:Ey; [|discriminate]. injection Hky as -> ->.
    cbn [fst snd] in Hp. apply nthZ_Some in Ek as Hr. rewrite nthZ_slice in Ey by lia. rewrite Z.add_0_l in Ey. destruct (nthZ_lt vs i) as [v Hv]; [lia|]. destruct (Hrow i v Hv) as (row & Er & -> & Hzr).
    apply (omap_None_In _ _ (k, mkrow keys row)); [apply (nthZ_In _ i); rewrite nthZ_combine, Ek, Hv; reflexivity|]. cbn [fst snd]. rewrite HP by exact Hzr.
    rewrite (omap_None_In _ row y); [reflexivity| |exact Hp]. eapply omap_In'; [exact Er|eapply omap_In'; [exact Hvss|exact Hx|exact Hxs]|exact Ey].
  - exact HM.
Qed.
