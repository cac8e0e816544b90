(** Arrays as slices: what asslice makes of an array. *)
From Verif Require Import Base BaseLemmas LoopLemmas OmapLemmas Content KCore Core KRange KConvert Convert KOption Option KAxis Axis KCombinations Combinations KGetitem
  SpecArray SpecForm SpecSlice SpecOption PCore PRange PCarry PList PConvert POption PForm PAxis PNat Getitem SpecGetitem KAsSlice AsSlice SpecAsSlice.
Local Open Scope list_scope.
Local Open Scope Z_scope.

(** ** booleans *)
Fixpoint trues (k : Z) (bs : list bool) : list Z := match bs with [] => [] | b :: t => (if b then [k] else []) ++ trues (k + 1) t end.
Lemma trues_app a b : forall k, trues k (a ++ b) = trues k a ++ trues (k + zlen a) b.
Proof.
  induction a as [|x a IH]; intros k; cbn [trues app]; [f_equal; change (zlen (@nil bool)) with 0; lia|]. rewrite IH, zlen_cons, app_assoc. do 2 f_equal. lia.
Qed.
Lemma trues_shift bs : forall k j, trues (k + j) bs = map (fun x => x + j) (trues k bs).
Proof. induction bs as [|b bs IH]; intros k j; cbn [trues]; [reflexivity|]. rewrite map_app, <- IH. f_equal; [destruct b; reflexivity|f_equal; lia]. Qed.
Lemma trues_range bs : forall k x, In x (trues k bs) -> k <= x < k + zlen bs.
Proof.
  induction bs as [|b bs IH]; intros k x; cbn [trues]; [intros []|]. rewrite zlen_cons. pose proof (zlen_nonneg bs). intros H1. apply in_app_or in H1. destruct H1 as [H1|H1].
  - destruct b; [destruct H1 as [<-|[]]; lia|destruct H1].
  - apply IH in H1. lia.
Qed.
Definition bit (x : Z) : bool := negb (x =? 0).

Lemma numtrue_spec data : forall d r m n, data = d ++ r -> (length r <= n)%nat ->
  numtrue_from n (zlen d) data (zlen data) 1 m = Ok (m + zlen (trues (zlen d) (map bit r))).
Proof.
  intros d r. revert d. induction r as [|x r IH]; intros d m n Hd Hn.
  - rewrite app_nil_r in Hd. subst d. destruct n; cbn [numtrue_from]; rewrite Z.ltb_irrefl; cbn [negb map trues]; change (zlen (@nil Z)) with 0; f_equal; lia.
  - cbn [length] in Hn. destruct n as [|n]; [lia|]. cbn [numtrue_from]. subst data. assert (L : (zlen d <? zlen (d ++ x :: r)) = true) by (rewrite zlen_app, zlen_cons; pose proof (zlen_nonneg r); lia).
    rewrite L. cbn [negb]. rewrite (proj2 (rd_Ok _ _ _) (nthZ_mid d x r)). cbn [bind]. replace (zlen d + 1) with (zlen (d ++ [x])) by (rewrite zlen_app; reflexivity).
    rewrite IH; [|rewrite <- app_assoc; reflexivity|lia]. cbn [map trues]. replace (zlen (d ++ [x])) with (zlen d + 1) by (rewrite zlen_app; reflexivity). rewrite zlen_app. unfold bit at 2. f_equal.
    destruct (x =? 0); cbn [negb]; change (zlen (@nil Z)) with 0; change (zlen [zlen d]) with 1; lia.
Qed.
Lemma nonzero_spec data : forall r d k o t n, data = d ++ r -> (length r <= n)%nat -> k = zlen o -> zlen t = zlen (trues (zlen d) (map bit r)) ->
  nonzero_from n (zlen d) k (o ++ t) data (zlen data) 1 = Ok (o ++ trues (zlen d) (map bit r)).
Proof.
  induction r as [|x r IH]; intros d k o t n Hd Hn Hk Ht.
  - rewrite app_nil_r in Hd. subst d. cbn [map trues] in *. change (zlen (@nil Z)) with 0 in Ht. apply zlen_0 in Ht. subst t.
    destruct n; cbn [nonzero_from]; rewrite Z.ltb_irrefl; reflexivity.
  - cbn [length] in Hn. destruct n as [|n]; [lia|]. cbn [nonzero_from]. subst data. assert (L : (zlen d <? zlen (d ++ x :: r)) = true) by (rewrite zlen_app, zlen_cons; pose proof (zlen_nonneg r); lia).
    rewrite L. cbn [negb]. rewrite (proj2 (rd_Ok _ _ _) (nthZ_mid d x r)). cbn [bind map trues] in *. rewrite zlen_app in Ht. unfold bit at 1 in Ht. unfold bit at 1.
    assert (E1 : zlen (d ++ [x]) = zlen d + 1) by (rewrite zlen_app; reflexivity). rewrite <- E1 in *.
    destruct (x =? 0); cbn [negb] in *.
    + apply IH; auto; [rewrite <- app_assoc; reflexivity|lia].
    + change (zlen [zlen d]) with 1 in Ht. pose proof (zlen_nonneg (trues (zlen (d ++ [x])) (map bit r))). destruct t as [|y t]; [change (zlen (@nil Z)) with 0 in Ht; lia|]. rewrite zlen_cons in Ht. subst k. rewrite wr_push. cbn [bind].
      rewrite IH; [rewrite <- app_assoc; reflexivity|rewrite <- app_assoc; reflexivity|lia|rewrite zlen_app; reflexivity|lia].
Qed.
Lemma mask_spec data : (let* numtrue := awkward_NumpyArray_getitem_boolean_numtrue data (zlen data) 1 in
   let* index := awkward_NumpyArray_getitem_boolean_nonzero (alloc numtrue) data (zlen data) 1 in Ok (AArray index true)) = Ok (AArray (trues 0 (map bit data)) true).
Proof.
  unfold awkward_NumpyArray_getitem_boolean_numtrue, awkward_NumpyArray_getitem_boolean_nonzero. assert (N : Z.to_nat (zlen data) = length data) by (unfold zlen; lia). rewrite N.
  pose proof (numtrue_spec data [] data 0 (length data) eq_refl ltac:(lia)) as E1. change (zlen (@nil Z)) with 0 in E1. rewrite E1. cbn [bind]. rewrite Z.add_0_l.
  pose proof (nonzero_spec data data [] 0 [] (alloc (zlen (trues 0 (map bit data)))) (length data) eq_refl ltac:(lia) eq_refl ltac:(rewrite zlen_alloc by apply zlen_nonneg; reflexivity)) as E2.
  change (zlen (@nil Z)) with 0 in E2. cbn [app] in E2. rewrite E2. reflexivity.
Qed.

(** ** lists of booleans *)
Lemma adjust_inner_spec start stop nz n : forall (mine rest d o r : list Z) j count, nz = d ++ map (fun x => x + start) mine ++ rest -> (forall x, In x mine -> x + start < stop) -> (forall x, nthZ rest 0 = Some x -> stop <= x) ->
  (length mine <= n)%nat -> j = zlen d -> zlen o = zlen d -> zlen r = zlen mine + zlen rest ->
  exists r', adjust_inner n start stop nz (zlen nz) j count (o ++ r) = Ok (j + zlen mine, count + zlen mine, (o ++ mine) ++ r') /\ zlen r' = zlen rest.
Proof.
  revert start stop. induction n as [|n IH]; intros start stop mine rest d o r j count Hnz Hm Hr Hn Hj Ho Hl; subst j.
  - destruct mine; [|cbn [length] in Hn; lia]. cbn [map app] in *. exists r. change (zlen (@nil Z)) with 0 in *. rewrite !Z.add_0_r, app_nil_r. split; [|lia]. cbn [adjust_inner].
    destruct rest as [|y rest]; [rewrite app_nil_r in Hnz; subst nz; rewrite Z.leb_refl; reflexivity|]. subst nz. rewrite zlen_app, zlen_cons. pose proof (zlen_nonneg rest). destruct (Z.leb_spec (zlen d + (zlen rest + 1)) (zlen d)); [lia|].
    rewrite (proj2 (rd_Ok _ _ _) (nthZ_mid d y rest)). cbn [bind]. specialize (Hr y eq_refl). destruct (Z.ltb_spec y stop); [lia|]. reflexivity.
  - destruct mine as [|x mine].
    + cbn [map app] in *. exists r. change (zlen (@nil Z)) with 0 in *. rewrite !Z.add_0_r, app_nil_r. split; [|lia]. cbn [adjust_inner].
      destruct rest as [|y rest]; [rewrite app_nil_r in Hnz; subst nz; rewrite Z.leb_refl; reflexivity|]. subst nz. rewrite zlen_app, zlen_cons. pose proof (zlen_nonneg rest). destruct (Z.leb_spec (zlen d + (zlen rest + 1)) (zlen d)); [lia|].
      rewrite (proj2 (rd_Ok _ _ _) (nthZ_mid d y rest)). cbn [bind]. specialize (Hr y eq_refl). destruct (Z.ltb_spec y stop); [lia|]. reflexivity.
    + cbn [map app] in Hnz. cbn [adjust_inner]. rewrite zlen_cons in Hl. pose proof (zlen_nonneg mine). pose proof (zlen_nonneg rest).
      assert (L : zlen d < zlen nz) by (subst nz; rewrite zlen_app, zlen_cons; pose proof (zlen_nonneg (map (fun x => x + start) mine ++ rest)); lia).
      destruct (Z.leb_spec (zlen nz) (zlen d)); [lia|]. rewrite (proj2 (rd_Ok nz (zlen d) (x + start))) by (subst nz; apply nthZ_mid). cbn [bind].
      pose proof (Hm x (or_introl eq_refl)). destruct (Z.ltb_spec (x + start) stop); [|lia]. cbn [negb].
      destruct r as [|y r]; [change (zlen (@nil Z)) with 0 in Hl; lia|]. rewrite zlen_cons in Hl. replace (wr (o ++ y :: r) (zlen d)) with (wr (o ++ y :: r) (zlen o)) by (rewrite Ho; reflexivity). rewrite wr_push. cbn [bind]. rewrite Z.add_simpl_r.
      destruct (IH start stop mine rest (d ++ [x + start]) (o ++ [x]) r (zlen d + 1) (count + 1)) as (r' & E & Er).
      * rewrite <- app_assoc. exact Hnz.
      * intros z Hz. apply Hm. right. exact Hz.
      * exact Hr.
      * cbn [length] in Hn. lia.
      * rewrite zlen_app. reflexivity.
      * rewrite !zlen_app. change (zlen [x]) with 1. change (zlen [x + start]) with 1. lia.
      * lia.
      * exists r'. split; [|exact Er]. rewrite E. rewrite zlen_cons, <- !app_assoc. cbn [app]. do 2 f_equal. f_equal; lia.
Qed.

Definition ntrues (bs : list bool) : Z := zlen (trues 0 bs).
Lemma concat_map_app {A} (a b : list (list A)) : concat (a ++ b) = concat a ++ concat b.
Proof. apply concat_app. Qed.
Lemma trues_concat bss : forall k, trues k (concat bss) = concat (map (fun q => map (fun x => x + fst q) (trues 0 (snd q))) (combine (offsets_from k (map zlen bss)) bss)).
Proof.
  induction bss as [|bs bss IH]; intros k; cbn [concat map]; [reflexivity|]. rewrite offsets_from_cons. cbn [combine map concat fst snd]. rewrite trues_app, IH. f_equal. rewrite <- (trues_shift bs 0 k). f_equal.
Qed.
Lemma trues0 bs k : trues k bs = map (fun x => x + k) (trues 0 bs).
Proof. rewrite <- (trues_shift bs 0 k). reflexivity. Qed.
Lemma zlen_trues bs k : zlen (trues k bs) = ntrues bs.
Proof. rewrite trues0, zlen_map. reflexivity. Qed.
Lemma zlen_trues_concat bss k : zlen (trues k (concat bss)) = zlen (concat (map (trues 0) bss)).
Proof. revert k. induction bss as [|bs bss IH]; intros k; cbn [concat map]; [reflexivity|]. rewrite trues_app, !zlen_app, IH, zlen_trues. reflexivity. Qed.
Lemma offsets_of_snoc l n : offsets_of (l ++ [n]) = offsets_of l ++ [sumZ l + n].
Proof.
  unfold offsets_of. assert (G : forall a, offsets_from a (l ++ [n]) = offsets_from a l ++ [a + sumZ l + n]).
  { induction l as [|x l IH]; intros a; cbn [app]; [cbn; f_equal; f_equal; lia|]. rewrite !offsets_from_cons, IH. cbn [app]. do 3 f_equal. change (sumZ (x :: l)) with (x + sumZ l). lia. }
  rewrite G. reflexivity.
Qed.
Lemma sumZ_ntrues bss : sumZ (map ntrues bss) = zlen (concat (map (trues 0) bss)).
Proof. induction bss as [|bs bss IH]; cbn [map concat]; [reflexivity|]. change (sumZ (ntrues bs :: map ntrues bss)) with (ntrues bs + sumZ (map ntrues bss)). rewrite zlen_app, IH. reflexivity. Qed.
Lemma sumZ_zlen_concat {A} (l : list (list A)) : sumZ (map zlen l) = zlen (concat l).
Proof. induction l as [|x l IH]; cbn [map concat]; [reflexivity|]. change (sumZ (zlen x :: map zlen l)) with (zlen x + sumZ (map zlen l)). rewrite zlen_app, IH. reflexivity. Qed.

Lemma adjust_offsets_spec bss : awkward_ListOffsetArray_getitem_adjust_offsets (alloc (zlen (offsets_of (map zlen bss)))) (alloc (zlen (trues 0 (concat bss)))) (offsets_of (map zlen bss)) (zlen (offsets_of (map zlen bss)) - 1)
   (trues 0 (concat bss)) (zlen (trues 0 (concat bss))) = Ok (offsets_of (map ntrues bss), concat (map (trues 0) bss)).
Proof.
  set (offs := offsets_of (map zlen bss)). set (nz := trues 0 (concat bss)).
  assert (ZL : zlen offs = zlen bss + 1) by (unfold offs; rewrite zlen_offsets_of, zlen_map; reflexivity).
  unfold awkward_ListOffsetArray_getitem_adjust_offsets. rewrite (proj2 (rd_Ok offs 0 0)) by (unfold offs; apply nthZ_offsets_0). cbn [bind].
  pose proof (zlen_nonneg bss).
  destruct (wr_push' (@nil Z) (alloc (zlen offs)) 0) as (t0 & E0 & Z0); [rewrite zlen_alloc; lia|]. cbn [app] in E0. change (zlen (@nil Z)) with 0 in E0. rewrite E0. cbn [bind]. rewrite zlen_alloc in Z0 by lia.
  replace (zlen offs - 1) with (zlen bss) by lia.
  destruct (for_list bss (fun d st => exists t1 t2, st = (zlen (concat (map (trues 0) d)), offsets_of (map ntrues d) ++ t1, concat (map (trues 0) d) ++ t2) /\ zlen t1 = zlen bss - zlen d /\ zlen t2 = zlen nz - zlen (concat (map (trues 0) d)))
    (fun i st =>
    let '(j, tooffsets, tononzero) := st in
    let* slicestart := rd offs i in
    let* slicestop := rd offs (i + 1) in
    let* r := adjust_inner (Z.to_nat (zlen nz)) slicestart slicestop nz (zlen nz) j 0 tononzero in
    let '(j, count, tononzero) := r in
    let* o := rd tooffsets i in
    let* tooffsets := wr tooffsets (i + 1) (o + count) in
    Ok (j, tooffsets, tononzero)) (0, [0] ++ t0, alloc (zlen nz))) as (st & E & t1 & t2 & -> & L1 & L2).
  - exists t0, (alloc (zlen nz)). cbn [map concat]. split; [reflexivity|]. rewrite zlen_alloc by apply zlen_nonneg. change (zlen (@nil (list bool))) with 0. change (zlen (@nil Z)) with 0. lia.
  - intros d bs r t Hd (t1 & t2 & -> & L1 & L2). subst bss. rewrite zlen_app, zlen_cons in *. pose proof (zlen_nonneg r). pose proof (zlen_nonneg d).
    assert (S1 : nthZ offs (zlen d) = Some (zlen (concat d))).
    { unfold offs, offsets_of. rewrite nthZ_offsets_from by (rewrite zlen_map, zlen_app, zlen_cons; lia). rewrite map_app. rewrite slice_app_l by (rewrite ?zlen_map; lia). rewrite slice_full' by (rewrite zlen_map; reflexivity). rewrite sumZ_zlen_concat. f_equal. }
    assert (S2 : nthZ offs (zlen d + 1) = Some (zlen (concat d) + zlen bs)).
    { unfold offs, offsets_of. rewrite nthZ_offsets_from by (rewrite zlen_map, zlen_app, zlen_cons; lia). replace (d ++ bs :: r) with ((d ++ [bs]) ++ r) by (rewrite <- app_assoc; reflexivity). rewrite (map_app _ (d ++ [bs])). rewrite slice_app_l by (rewrite ?zlen_map, ?zlen_app; change (zlen [bs]) with 1; lia).
      rewrite slice_full' by (rewrite zlen_map, zlen_app; reflexivity). rewrite sumZ_zlen_concat, concat_app, zlen_app. cbn [concat]. rewrite app_nil_r. f_equal. }
    rewrite (proj2 (rd_Ok _ _ _) S1), (proj2 (rd_Ok _ _ _) S2). cbn [bind].
    assert (Enz : nz = trues 0 (concat d) ++ map (fun x => x + zlen (concat d)) (trues 0 bs) ++ trues (zlen (concat d) + zlen bs) (concat r)).
    { unfold nz. rewrite concat_app. cbn [concat]. rewrite !trues_app, !Z.add_0_l. rewrite (trues0 bs (zlen (concat d))). reflexivity. }
    assert (Lnz : zlen nz = zlen (concat (map (trues 0) d)) + ntrues bs + zlen (trues (zlen (concat d) + zlen bs) (concat r))) by (rewrite Enz, !zlen_app, zlen_map, zlen_trues_concat; unfold ntrues; lia).
    destruct (adjust_inner_spec (zlen (concat d)) (zlen (concat d) + zlen bs) nz (Z.to_nat (zlen nz)) (trues 0 bs) (trues (zlen (concat d) + zlen bs) (concat r)) (trues 0 (concat d))
      (concat (map (trues 0) d)) t2 (zlen (concat (map (trues 0) d))) 0) as (r' & E & Er).
    + exact Enz.
    + intros x Hx. apply trues_range in Hx. lia.
    + intros x Hx. apply nthZ_In in Hx. apply trues_range in Hx. lia.
    + pose proof (zlen_nonneg (concat (map (trues 0) d))). pose proof (zlen_nonneg (trues (zlen (concat d) + zlen bs) (concat r))). unfold ntrues, zlen in *. lia.
    + rewrite zlen_trues_concat. reflexivity.
    + rewrite zlen_trues_concat. reflexivity.
    + rewrite L2. unfold ntrues in Lnz. lia.
    + rewrite E. cbn [bind]. rewrite Z.add_0_l.
      assert (S3 : nthZ (offsets_of (map ntrues d) ++ t1) (zlen d) = Some (zlen (concat (map (trues 0) d)))).
      { rewrite nthZ_app. rewrite zlen_offsets_of, zlen_map. destruct (Z.ltb_spec (zlen d) (zlen d + 1)); [|lia]. unfold offsets_of. rewrite <- (zlen_map ntrues d). rewrite nthZ_offsets_last. rewrite sumZ_ntrues. reflexivity. }
      rewrite (proj2 (rd_Ok _ _ _) S3). cbn [bind]. replace (zlen d + 1) with (zlen (offsets_of (map ntrues d))) by (rewrite zlen_offsets_of, zlen_map; reflexivity).
      destruct (wr_push' (offsets_of (map ntrues d)) t1 (zlen (concat (map (trues 0) d)) + zlen (trues 0 bs))) as (t1' & E1 & Z1); [lia|]. rewrite E1. cbn [bind]. eexists. split; [reflexivity|]. exists t1', r'. split; [|split].
      * f_equal; [f_equal|].
        -- rewrite map_app, concat_app, zlen_app. cbn [map concat]. rewrite app_nil_r. reflexivity.
        -- rewrite map_app. cbn [map]. rewrite offsets_of_snoc, sumZ_ntrues. reflexivity.
        -- rewrite map_app, concat_app. cbn [map concat]. rewrite app_nil_r. reflexivity.
      * rewrite !zlen_app, !zlen_cons. change (zlen (@nil (list bool))) with 0. lia.
      * rewrite map_app, concat_app, zlen_app. cbn [map concat]. rewrite app_nil_r. unfold ntrues in Lnz. lia.
  - cbn [app] in E. rewrite E. cbn [bind]. rewrite Z.sub_diag in L1. apply zlen_0 in L1. subst t1.
    assert (t2 = []) as -> by (apply zlen_0; rewrite L2; unfold nz; rewrite zlen_trues_concat; lia). rewrite !app_nil_r. reflexivity.
Qed.
