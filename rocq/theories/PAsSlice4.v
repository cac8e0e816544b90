(** Slices with missing values: kernels. *)
From Verif Require Import Base BaseLemmas LoopLemmas OmapLemmas Content KCore Core KRange KConvert Convert KOption Option KAxis Axis KCombinations Combinations KGetitem
  SpecArray SpecForm SpecSlice SpecOption PCore PRange PCarry PList PConvert POption PForm PAxis PNat PFlatten PMergeC Getitem SpecGetitem PGetitem1 KAsSlice AsSlice SpecAsSlice PAsSlice1 PAsSlice2 PAsSlice3.
Local Open Scope list_scope.
Local Open Scope Z_scope.

Definition valid (m : Z) : Z := if 0 <=? m then 1 else 0.
Lemma valid_oranks {A} (x : list (option A)) : forall k, 0 <= k -> sumZ (map valid (oranks k x)) = zlen (keep x).
Proof.
  induction x as [|[a|] x IH]; intros k Hk; [reflexivity| |]; cbn [oranks keep map].
  - change (sumZ (valid k :: map valid (oranks (k + 1) x))) with (valid k + sumZ (map valid (oranks (k + 1) x))). rewrite IH, zlen_cons by lia. unfold valid. destruct (Z.leb_spec 0 k); lia.
  - change (sumZ (valid (-1) :: map valid (oranks k x))) with (0 + sumZ (map valid (oranks k x))). rewrite IH by lia. lia.
Qed.
Lemma valid_nonneg l : 0 <= sumZ (map valid l).
Proof. induction l as [|m l IH]; [cbv; discriminate|]. change (sumZ (map valid (m :: l))) with (valid m + sumZ (map valid l)). unfold valid at 1. destruct (0 <=? m); lia. Qed.
(** the part of the index for one list *)
Lemma oranks_part {A} (d r : list (list (option A))) x : slice (zlen (concat d)) (zlen (concat d) + zlen x) (oranks 0 (concat (d ++ x :: r))) = oranks (zlen (keep (concat d))) x.
Proof.
  rewrite concat_app. cbn [concat]. rewrite !oranks_app, Z.add_0_l. rewrite slice_app_shift by (rewrite zlen_oranks; lia). rewrite !zlen_oranks, Z.sub_diag.
  replace (zlen (concat d) + zlen x - zlen (concat d)) with (zlen (oranks (zlen (keep (concat d))) x)) by (rewrite zlen_oranks; lia). apply slice_app.
Qed.
(** starts and stops of consecutive lists *)
Lemma consecutive_at {A} (oss d r : list (list A)) x ss se : combine ss se = pairs (offsets_of (map zlen oss)) -> d ++ x :: r = oss ->
  nthZ ss (zlen d) = Some (zlen (concat d)) /\ nthZ se (zlen d) = Some (zlen (concat d) + zlen x).
Proof.
  intros Hc <-. pose proof (nth_offsets d x r) as [H1 H2].
  assert (Hp : nthZ (combine ss se) (zlen d) = Some (zlen (concat d), zlen (concat d) + zlen x)) by (rewrite Hc, nthZ_pairs, H1, H2; reflexivity).
  rewrite nthZ_combine in Hp. destruct (nthZ ss (zlen d)), (nthZ se (zlen d)); try discriminate. injection Hp as -> ->. auto.
Qed.

Lemma numvalid_spec {A} (oss : list (list (option A))) ss se n : combine ss se = pairs (offsets_of (map zlen oss)) -> n = zlen oss ->
  awkward_ListArray_getitem_jagged_numvalid ss se n (oranks 0 (concat oss)) (zlen (oranks 0 (concat oss))) = Ok (zlen (keep (concat oss))).
Proof.
  intros Hc ->. unfold awkward_ListArray_getitem_jagged_numvalid.
  match goal with |- for_ _ _ ?body ?s0 = _ => destruct (for_list oss (fun d v => v = zlen (keep (concat d))) body s0) as (v & E & ->) end; [reflexivity| |exact E].
  intros d x r v Hd ->. destruct (consecutive_at _ _ _ _ _ _ Hc Hd) as [H1 H2]. apply rd_Ok in H1, H2. rewrite H1, H2. cbn [bind]. pose proof (zlen_nonneg x). pose proof (zlen_nonneg (concat d)).
  assert (Hk : zlen (keep (concat (d ++ [x]))) = zlen (keep (concat d)) + zlen (keep x)) by (rewrite concat_app; cbn [concat]; rewrite app_nil_r, keep_app, zlen_app; reflexivity).
  assert (Ht : zlen (concat oss) = zlen (concat d) + zlen x + zlen (concat r)) by (rewrite <- Hd, concat_app; cbn [concat]; rewrite !zlen_app; lia). pose proof (zlen_nonneg (concat r)).
  destruct (Z.eqb_spec (zlen (concat d)) (zlen (concat d) + zlen x)).
  - eexists. split; [reflexivity|]. rewrite Hk. assert (x = []) as -> by (apply zlen_0; lia). change (zlen (keep (@nil (option A)))) with 0. lia.
  - destruct (Z.ltb_spec (zlen (concat d) + zlen x) (zlen (concat d))); [lia|]. rewrite zlen_oranks. destruct (Z.ltb_spec (zlen (concat oss)) (zlen (concat d) + zlen x)); [lia|].
    rewrite (for_sum (oranks 0 (concat oss)) valid); [|lia|rewrite zlen_oranks; lia|intros i s y Hy; rewrite (proj2 (rd_Ok _ _ _) Hy); reflexivity].
    eexists. split; [reflexivity|]. rewrite <- Hd, oranks_part, valid_oranks by apply zlen_nonneg. lia.
Qed.

Lemma shrink_spec {A} (oss : list (list (option A))) ss se n : combine ss se = pairs (offsets_of (map zlen oss)) -> n = zlen oss ->
  exists tc, awkward_ListArray_getitem_jagged_shrink (alloc (zlen (keep (concat oss)))) (alloc (n + 1)) (alloc (n + 1)) ss se n (oranks 0 (concat oss)) =
    Ok (tc, offsets_of (map (fun x => zlen (keep x)) oss), offsets_of (map zlen oss)).
Proof.
  intros Hc ->. unfold awkward_ListArray_getitem_jagged_shrink. set (N := zlen (keep (concat oss))). set (ml := oranks 0 (concat oss)). pose proof (zlen_nonneg oss) as Hn.
  assert (F : (if zlen oss =? 0 then Ok 0 else rd ss 0) = Ok 0).
  { destruct (Z.eqb_spec (zlen oss) 0); [reflexivity|]. destruct oss as [|x r]; [contradiction n; reflexivity|]. destruct (consecutive_at (x :: r) [] r x ss se Hc eq_refl) as [H1 _]. apply rd_Ok. exact H1. }
  rewrite F. cbn [bind]. destruct (wr_push' (@nil Z) (alloc (zlen oss + 1)) 0) as (t0 & E0 & Z0); [rewrite zlen_alloc; lia|]. cbn [app] in E0. change (zlen (@nil Z)) with 0 in E0. rewrite E0. cbn [bind]. rewrite zlen_alloc in Z0 by lia.
  match goal with |- exists tc, (let* st := for_ _ _ ?body ?s0 in _) = _ =>
  destruct (for_list oss (fun d st => exists tc t1 t2, st = (zlen (keep (concat d)), tc, offsets_of (map (fun x => zlen (keep x)) d) ++ t1, offsets_of (map zlen d) ++ t2) /\ zlen tc = N /\ zlen t1 = zlen oss - zlen d /\ zlen t2 = zlen oss - zlen d) body s0) as (st & E & tc & t1 & t2 & -> & L0 & L1 & L2) end.
  - exists (alloc N), t0, t0. split; [reflexivity|]. change (zlen (@nil (list (option A)))) with 0. rewrite zlen_alloc by apply zlen_nonneg. lia.
  - intros d x r st Hd (tc & t1 & t2 & -> & L0 & L1 & L2). destruct (consecutive_at _ _ _ _ _ _ Hc Hd) as [H1 H2]. apply rd_Ok in H1, H2. rewrite H1, H2. cbn [bind]. pose proof (zlen_nonneg x). pose proof (zlen_nonneg (concat d)).
    assert (Hk : zlen (keep (concat (d ++ [x]))) = zlen (keep (concat d)) + zlen (keep x)) by (rewrite concat_app; cbn [concat]; rewrite app_nil_r, keep_app, zlen_app; reflexivity).
    assert (Ht : zlen (concat oss) = zlen (concat d) + zlen x + zlen (concat r)) by (rewrite <- Hd, concat_app; cbn [concat]; rewrite !zlen_app; lia). pose proof (zlen_nonneg (concat r)).
    assert (HN : N = zlen (keep (concat d)) + zlen (keep x) + zlen (keep (concat r))) by (unfold N; rewrite <- Hd, concat_app; cbn [concat]; rewrite !keep_app, !zlen_app; lia). pose proof (zlen_nonneg (keep (concat r))). pose proof (zlen_nonneg (keep (concat d))).
    assert (Lo : zlen oss = zlen d + 1 + zlen r) by (rewrite <- Hd, zlen_app, zlen_cons; lia). pose proof (zlen_nonneg r).
    assert (S1 : rd (offsets_of (map (fun x => zlen (keep x)) d) ++ t1) (zlen d) = Ok (sumZ (map (fun x => zlen (keep x)) d))).
    { apply rd_Ok. rewrite nthZ_app, zlen_offsets_of, zlen_map. destruct (Z.ltb_spec (zlen d) (zlen d + 1)); [|lia]. unfold offsets_of. rewrite <- (zlen_map (fun x => zlen (keep x)) d). rewrite nthZ_offsets_last. reflexivity. }
    assert (S2 : rd (offsets_of (map zlen d) ++ t2) (zlen d) = Ok (sumZ (map zlen d))).
    { apply rd_Ok. rewrite nthZ_app, zlen_offsets_of, zlen_map. destruct (Z.ltb_spec (zlen d) (zlen d + 1)); [|lia]. unfold offsets_of. rewrite <- (zlen_map zlen d). rewrite nthZ_offsets_last. reflexivity. }
    rewrite S1. cbn [bind].
    assert (G : exists tc', (if zlen (concat d) =? zlen (concat d) + zlen x then Ok (zlen (keep (concat d)), 0, tc) else for_ (zlen (concat d)) (zlen (concat d) + zlen x) (fun j st =>
        let '(k, smallcount, tocarry) := st in
        let* m := rd ml j in
        if 0 <=? m then let* tocarry := wr tocarry k j in Ok (k + 1, smallcount + 1, tocarry)
        else Ok (k, smallcount, tocarry)) (zlen (keep (concat d)), 0, tc)) = Ok (zlen (keep (concat d)) + zlen (keep x), zlen (keep x), tc') /\ zlen tc' = N).
    { destruct (Z.eqb_spec (zlen (concat d)) (zlen (concat d) + zlen x)).
      - exists tc. assert (x = []) as -> by (apply zlen_0; lia). change (zlen (keep (@nil (option A)))) with 0. rewrite Z.add_0_r. auto.
      - set (a := zlen (concat d)). set (b := a + zlen x). assert (Tot : sumZ (map valid (slice a b ml)) = zlen (keep x)) by (unfold b, a, ml; rewrite <- Hd, oranks_part; apply valid_oranks, zlen_nonneg).
        assert (Lm : zlen ml = zlen (concat oss)) by apply zlen_oranks.
        match goal with |- exists tc', for_ _ _ ?body ?s0 = _ /\ _ => destruct (for_inv (fun j st => exists tc', st = (zlen (keep (concat d)) + sumZ (map valid (slice a j ml)), sumZ (map valid (slice a j ml)), tc') /\ zlen tc' = N) a b body s0) as (st & E & tc' & -> & L) end.
        + unfold b. lia.
        + exists tc. rewrite slice_nil. cbn [map sumZ fold_right]. rewrite Z.add_0_r. auto.
        + intros j st Hj (tc' & -> & L). destruct (nthZ_lt ml j ltac:(unfold b, a in *; lia)) as (m & Hm). rewrite (proj2 (rd_Ok _ _ _) Hm). cbn [bind].
          assert (Sn : sumZ (map valid (slice a (j + 1) ml)) = sumZ (map valid (slice a j ml)) + valid m). { rewrite (slice_snoc_nth a j ml m) by (auto; unfold b, a in *; lia). rewrite map_app, sumZ_app. cbn [map]. change (sumZ [valid m]) with (valid m + 0). lia. }
          assert (Sr : sumZ (map valid (slice a b ml)) = sumZ (map valid (slice a (j + 1) ml)) + sumZ (map valid (slice (j + 1) b ml))) by (rewrite <- sumZ_app, <- map_app, <- slice_split by (unfold b, a in *; lia); reflexivity).
          pose proof (valid_nonneg (slice (j + 1) b ml)). pose proof (valid_nonneg (slice a j ml)). assert (Hv : valid m = if 0 <=? m then 1 else 0) by reflexivity. destruct (0 <=? m) eqn:Em; rewrite Sn, Hv.
          * rewrite wr_Ok by lia. cbn [bind]. eexists. split; [reflexivity|]. eexists. split; [rewrite Z.add_assoc; reflexivity|]. rewrite zlen_upd. exact L.
          * eexists. split; [reflexivity|]. eexists. split; [rewrite !Z.add_0_r; reflexivity|]. exact L.
        + exists tc'. split; [|exact L]. rewrite E. rewrite Tot. reflexivity. }
    destruct G as (tc' & G & Ltc'). rewrite G. cbn [bind].
    destruct (wr_push' (offsets_of (map (fun x => zlen (keep x)) d)) t1 (sumZ (map (fun x => zlen (keep x)) d) + zlen (keep x))) as (t1' & E1 & Z1); [lia|].
    destruct (wr_push' (offsets_of (map zlen d)) t2 (sumZ (map zlen d) + (zlen (concat d) + zlen x - zlen (concat d)))) as (t2' & E2 & Z2); [lia|].
    rewrite zlen_offsets_of, zlen_map in E1, E2. rewrite E1. cbn [bind]. rewrite S2. cbn [bind]. rewrite E2. cbn [bind]. eexists. split; [reflexivity|]. exists tc', t1', t2'. split; [|split; [exact Ltc'|split; rewrite zlen_app; change (zlen [x]) with 1; lia]].
    rewrite Hk, !map_app. cbn [map]. rewrite !offsets_of_snoc. replace (zlen (concat d) + zlen x - zlen (concat d)) with (zlen x) by lia. reflexivity.
  - exists tc. cbn [app] in E. rewrite E. cbn [bind]. rewrite Z.sub_diag in L1, L2. apply zlen_0 in L1, L2. subst. rewrite !app_nil_r. reflexivity.
Qed.

Lemma missing_repeat_spec index size n : n = zlen index -> awkward_missing_repeat (alloc (n * 1)) index n 1 size = Ok index.
Proof.
  intros ->. unfold awkward_missing_repeat. pose proof (zlen_nonneg index). rewrite for_step by lia.
  match goal with |- (let* s := for_ _ _ ?body ?s0 in _) = _ => destruct (for_list index (fun d st => exists t, st = d ++ t /\ zlen t = zlen index - zlen d) body s0) as (st & E & t & -> & L) end.
  - exists (alloc (zlen index * 1)). split; [reflexivity|]. change (zlen (@nil Z)) with 0. rewrite zlen_alloc; lia.
  - intros d x r st Hd (t & -> & L). rewrite (proj2 (rd_Ok index (zlen d) x)) by (rewrite <- Hd; apply nthZ_mid). cbn [bind]. assert (Lo : zlen index = zlen d + 1 + zlen r) by (rewrite <- Hd, zlen_app, zlen_cons; lia). pose proof (zlen_nonneg r).
    destruct (wr_push' d t x) as (t' & E & Zt); [lia|]. replace (0 * zlen index + zlen d) with (zlen d) by lia. replace (x + (if 0 <=? x then 0 * size else 0)) with x by (destruct (0 <=? x); lia). eexists. split; [exact E|]. exists t'. split; [reflexivity|]. rewrite zlen_app. change (zlen [x]) with 1. lia.
  - rewrite E. cbn [bind]. rewrite for_nil by lia. rewrite Z.sub_diag in L. apply zlen_0 in L. subst. rewrite app_nil_r. reflexivity.
Qed.

(** the lists of a slice, empty where they are missing *)
Definition orempty {A} (o : option (list A)) : list A := match o with Some l => l | None => [] end.
Fixpoint omaskidx {A} (k : Z) (os : list (option A)) : list Z := match os with [] => [] | Some _ :: t => k :: omaskidx (k + 1) t | None :: t => -1 :: omaskidx (k + 1) t end.
Lemma omaskidx_app {A} (a b : list (option A)) : forall k, omaskidx k (a ++ b) = omaskidx k a ++ omaskidx (k + zlen a) b.
Proof. induction a as [|[x|] a IH]; intros k; cbn [app omaskidx]; [f_equal; change (zlen (@nil (option A))) with 0; lia| |]; rewrite IH, zlen_cons; cbn [app]; fq. Qed.
Lemma zlen_omaskidx {A} (a : list (option A)) : forall k, zlen (omaskidx k a) = zlen a.
Proof. induction a as [|[x|] a IH]; intros k; cbn [omaskidx]; [reflexivity| |]; rewrite !zlen_cons, IH; reflexivity. Qed.
Lemma concat_orempty {A} (os : list (option (list A))) : concat (map orempty os) = concat (keep os).
Proof. induction os as [|[x|] t IH]; cbn [map concat keep orempty app]; [reflexivity| |]; rewrite ?IH; reflexivity. Qed.

Lemma getmask_spec {A} (os : list (option (list A))) n : n = zlen os ->
  exists ss se, awkward_Content_getitem_next_missing_jagged_getmaskstartstop (oranks 0 os) (offsets_of (map zlen (keep os))) (alloc n) (alloc n) (alloc n) n = Ok (omaskidx 0 os, ss, se)
    /\ zlen ss = n /\ zlen se = n /\ combine ss se = pairs (offsets_of (map zlen (map orempty os))).
Proof.
  intros ->. set (st0 := fun l : list (list A) => map fst (pairs (offsets_of (map zlen l)))). set (sp0 := fun l : list (list A) => map snd (pairs (offsets_of (map zlen l)))).
  unfold awkward_Content_getitem_next_missing_jagged_getmaskstartstop. pose proof (zlen_nonneg os).
  assert (ZP : forall l : list (list A), zlen (pairs (offsets_of (map zlen l))) = zlen l) by (intros l; rewrite zlen_pairs, zlen_offsets_of, zlen_map; rewrite ?zlen_offsets_of, ?zlen_map; pose proof (zlen_nonneg l); lia).
  match goal with |- exists ss se, (let* st := for_ _ _ ?body ?s0 in _) = _ /\ _ =>
  destruct (for_list os (fun d st => exists t1 t2 t3, st = (zlen (keep d), omaskidx 0 d ++ t1, st0 (map orempty d) ++ t2, sp0 (map orempty d) ++ t3) /\ zlen t1 = zlen os - zlen d /\ zlen t2 = zlen os - zlen d /\ zlen t3 = zlen os - zlen d) body s0) as (st & E & t1 & t2 & t3 & -> & L1 & L2 & L3) end.
  - do 3 exists (alloc (zlen os)). split; [reflexivity|]. change (zlen (@nil (option (list A)))) with 0. rewrite zlen_alloc; lia.
  - intros d x r st Hd (t1 & t2 & t3 & -> & L1 & L2 & L3). assert (Lo : zlen os = zlen d + 1 + zlen r) by (rewrite <- Hd, zlen_app, zlen_cons; lia). pose proof (zlen_nonneg r).
    assert (Ks : keep os = keep d ++ keep (x :: r)) by (rewrite <- Hd; apply keep_app). set (start := zlen (concat (keep d))).
    assert (Z1 : zlen (omaskidx 0 d) = zlen d) by apply zlen_omaskidx. assert (Z2 : zlen (st0 (map orempty d)) = zlen d) by (unfold st0; rewrite zlen_map, ZP, zlen_map; reflexivity). assert (Z3 : zlen (sp0 (map orempty d)) = zlen d) by (unfold sp0; rewrite zlen_map, ZP, zlen_map; reflexivity).
    assert (Rs : rd (offsets_of (map zlen (keep os))) (zlen (keep d)) = Ok start).
    { apply rd_Ok. unfold offsets_of. rewrite Ks, map_app. pose proof (zlen_nonneg (keep d)). pose proof (zlen_nonneg (keep (x :: r))). rewrite nthZ_offsets_from by (rewrite zlen_app, !zlen_map; lia). rewrite slice_app_l by (rewrite ?zlen_map; lia). rewrite slice_full' by (rewrite zlen_map; reflexivity). rewrite sumZ_zlen_concat. reflexivity. }
    rewrite Rs. cbn [bind]. destruct (wr_push' (st0 (map orempty d)) t2 start) as (u2 & E2 & Y2); [lia|]. rewrite Z2 in E2. rewrite E2. cbn [bind].
    assert (Rx : nthZ (oranks 0 os) (zlen d) = Some (match x with Some _ => zlen (keep d) | None => -1 end)) by (rewrite <- Hd, oranks_app, nthZ_app, zlen_oranks, Z.ltb_irrefl, Z.sub_diag; destruct x; cbn [oranks]; rewrite nthZ_cons; reflexivity).
    rewrite (proj2 (rd_Ok _ _ _) Rx). cbn [bind].
    assert (Cat : forall y, pairs (offsets_of (map zlen (map orempty d ++ [y]))) = pairs (offsets_of (map zlen (map orempty d))) ++ [(start, start + zlen y)]).
    { intros y. rewrite map_app. cbn [map]. unfold offsets_of. rewrite pairs_offsets_snoc, sumZ_zlen_concat, concat_orempty. reflexivity. }
    destruct x as [l|].
    + pose proof (zlen_nonneg (keep d)). destruct (Z.ltb_spec (zlen (keep d)) 0); [lia|]. destruct (wr_push' (omaskidx 0 d) t1 (zlen d)) as (u1 & E1 & Y1); [lia|]. rewrite Z1 in E1. rewrite E1. cbn [bind].
      assert (Rt : rd (offsets_of (map zlen (keep os))) (zlen (keep d) + 1) = Ok (start + zlen l)).
      { apply rd_Ok. rewrite Ks. cbn [keep]. exact (proj2 (nth_offsets (keep d) l (keep r))). }
      rewrite Rt. cbn [bind]. destruct (wr_push' (sp0 (map orempty d)) t3 (start + zlen l)) as (u3 & E3 & Y3); [lia|]. rewrite Z3 in E3. rewrite E3. cbn [bind]. eexists. split; [reflexivity|]. exists u1, u2, u3.
      rewrite zlen_app. change (zlen [Some l]) with 1. split; [|lia]. rewrite keep_app, zlen_app, omaskidx_app. cbn [keep omaskidx]. change (zlen [l]) with 1. unfold st0, sp0. rewrite (map_app orempty). cbn [map orempty]. rewrite Cat, !map_app. cbn [map fst snd]. rewrite Z.add_0_l. reflexivity.
    + change (-1 <? 0) with true. cbn match. destruct (wr_push' (omaskidx 0 d) t1 (-1)) as (u1 & E1 & Y1); [lia|]. rewrite Z1 in E1. rewrite E1. cbn [bind].
      destruct (wr_push' (sp0 (map orempty d)) t3 start) as (u3 & E3 & Y3); [lia|]. rewrite Z3 in E3. rewrite E3. cbn [bind]. eexists. split; [reflexivity|]. exists u1, u2, u3.
      rewrite zlen_app. change (zlen [@None (list A)]) with 1. split; [|lia]. rewrite keep_app, zlen_app, omaskidx_app. cbn [keep omaskidx]. change (zlen (@nil (list A))) with 0. unfold st0, sp0. rewrite (map_app orempty). cbn [map orempty]. rewrite Cat, !map_app. cbn [map fst snd]. change (zlen (@nil A)) with 0. rewrite !Z.add_0_r. reflexivity.
  - rewrite Z.sub_diag in L1, L2, L3. apply zlen_0 in L1, L2, L3. subst. rewrite E. cbn [bind]. rewrite !app_nil_r. exists (st0 (map orempty os)), (sp0 (map orempty os)). split; [reflexivity|]. unfold st0, sp0. rewrite !zlen_map, !ZP, zlen_map. split; [reflexivity|]. split; [reflexivity|]. apply PMergeC.combine_fst_snd.
Qed.
