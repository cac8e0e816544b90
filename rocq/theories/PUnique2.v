(** Proofs about is_unique: numbers, and numbers picked by index. *)
From Coq Require Import Permutation.
From Verif Require Import Base BaseLemmas OmapLemmas LoopLemmas Content KCore Core KConvert Convert KOption Option KAxis Axis KMerge Merge KReduce Reduce KSort Sort Unique
  SpecArray SpecForm SpecSort SpecUnique PCore PCarry PList PConvert PForm PReduceK PReduceTop PQuick PSortK PSort PUnique.
Local Open Scope list_scope.
Local Open Scope Z_scope.

Section Values.
Variable real : order.
Lemma equal_scalar dt x y : equal_numbers real (scalar dt x) (scalar dt y) = oeq (order_of real dt) x y.
Proof. destruct dt; cbn; try reflexivity. destruct (x =? 0), (y =? 0); reflexivity. Qed.
Lemma proper_numbers dt data : no_nan real (map (scalar dt) data) -> proper (order_of real dt) data.
Proof.
  intros [HC HE]. split; [exact (comparable_total real dt data HC)|]. intros x y Hx Hy. destruct dt; cbn.
  - destruct (x =? 0), (y =? 0); reflexivity.
  - destruct (Z.eqb_spec x y); destruct (Z.leb_spec x y); destruct (Z.leb_spec y x); cbn; try reflexivity; lia.
  - apply HE; apply (in_map (scalar DReal)); assumption.
Qed.
Lemma all_different_numbers dt data : all_different real (map (scalar dt) data) <-> differentZ (order_of real dt) data.
Proof.
  split; intros H i j.
  - intros x y Hij Hx Hy. rewrite <- equal_scalar. apply (H i j); [exact Hij| |]; rewrite nthZ_map; [rewrite Hx|rewrite Hy]; reflexivity.
  - intros v w Hij Hv Hw. rewrite nthZ_map in Hv, Hw. destruct (nthZ data i) as [x|] eqn:Ex; [|discriminate]. destruct (nthZ data j) as [y|] eqn:Ey; [|discriminate]. injection Hv as <-. injection Hw as <-. rewrite equal_scalar. eapply H; eassumption.
Qed.
Lemma increasing_sorted o l : increasing_by o l -> sorted (ole o) l.
Proof.
  induction l as [|x l IH]; intros H i j a b Hij Ha Hb; [rewrite nthZ_nil in Ha; discriminate|]. destruct H as [H1 H2]. rewrite nthZ_cons in Ha, Hb. destruct (Z.eqb_spec j 0) as [->|].
  - destruct (Z.eqb_spec i 0); [lia|]. pose proof (nthZ_Some _ _ _ Ha). lia.
  - destruct (Z.eqb_spec i 0) as [->|]; [|eapply IH; [exact H2| |exact Ha|exact Hb]; lia]. injection Ha as <-. apply H1. eapply nthZ_In; eassumption.
Qed.
Lemma unique_numbers dt data : no_nan real (map (scalar dt) data) ->
  exists out, unique_data (order_of real dt) data 0 (zlen data) = Ok out /\ distinct_values real (map (scalar dt) data) (map (scalar dt) out) /\
    (zlen out = zlen data <-> all_different real (map (scalar dt) data)).
Proof.
  intros HN. destruct (unique_data_spec _ _ (proper_numbers _ _ HN)) as (out & E & (A & B & C) & D). exists out. split; [exact E|]. split; [|rewrite D; symmetry; apply all_different_numbers].
  split; [|split; [|split]].
  - apply increasing_sorted in A. intros i j v w Hij Hv Hw. rewrite nthZ_map in Hv, Hw. destruct (nthZ out i) as [x|] eqn:Ex; [|discriminate]. destruct (nthZ out j) as [y|] eqn:Ey; [|discriminate]. injection Hv as <-. injection Hw as <-.
    rewrite predicate_vle. exact (A i j x y Hij Ex Ey).
  - apply all_different_numbers. apply increasing_by_different. exact A.
  - intros w Hw. apply in_map_iff in Hw. destruct Hw as (x & <- & Hx). apply in_map. apply B. exact Hx.
  - intros v Hv. apply in_map_iff in Hv. destruct Hv as (x & <- & Hx). destruct (C x Hx) as (y & Hy & Exy). exists (scalar dt y). split; [apply in_map; exact Hy|rewrite equal_scalar; exact Exy].
Qed.
End Values.

(** ** the ranges of an index *)
Definition kept (index : list Z) : list Z := filter (fun x => negb (x <? 0)) index.
Lemma one_range_next index : awkward_IndexedArray_ranges_next_64 index [0] [zlen index] 1 (alloc 1) (alloc 1) = Ok ([0], [zlen (kept index)], zlen (kept index)).
Proof.
  unfold awkward_IndexedArray_ranges_next_64. rewrite for_step by lia. cbn [rd nthZ bind]. change (rd [zlen index] 0) with (Ok (zlen index)). change (rd [0] 0) with (@Ok Z 0). cbn [bind]. change (wr (alloc 1) 0 0) with (Ok [0]). cbn [bind].
  rewrite Z.sub_0_r. rewrite (for_count index (fun x => negb (x <? 0))); [|reflexivity|].
  - cbn [bind]. change (wr (alloc 1) 0 (zlen (filter (fun x => negb (x <? 0)) index))) with (Ok [zlen (kept index)]). cbn [bind]. rewrite for_nil by lia. reflexivity.
  - intros i x k Hx. rewrite Z.add_0_l. unfold rd. rewrite Hx. reflexivity.
Qed.
Lemma one_range_carry index : awkward_IndexedArray_ranges_carry_next_64 index [0] [zlen index] 1 (alloc (zlen (kept index))) = Ok (kept index).
Proof.
  unfold awkward_IndexedArray_ranges_carry_next_64. rewrite for_step by lia. change (rd [zlen index] 0) with (Ok (zlen index)). change (rd [0] 0) with (@Ok Z 0). cbn [bind].
  rewrite Z.sub_0_r. rewrite (for_filter index (fun x => negb (x <? 0)) (fun x => x)).
  - cbn [bind]. rewrite for_nil by lia. cbn [bind]. rewrite map_id. reflexivity.
  - reflexivity.
  - apply zlen_alloc. apply zlen_nonneg.
  - intros i x k out Hx. rewrite Z.add_0_l. unfold rd. rewrite Hx. reflexivity.
Qed.

Lemma present_In v vs : In v (present vs) <-> In v vs /\ v <> VNone.
Proof. unfold present. rewrite filter_In. split; intros [A B]; (split; [exact A|]); destruct v; try discriminate; try reflexivity; congruence. Qed.
Lemma no_nan_present real vs ws : (forall x, In (VReal x) ws -> In (VReal x) vs) -> no_nan real vs -> no_nan real ws.
Proof. intros H [A B]. split; [eapply total_order_mono; [|exact A]; exact H|]. intros x y Hx Hy. apply B; auto. Qed.
Lemma present_numbers dt data : present (map (scalar dt) data) = map (scalar dt) data.
Proof. unfold present. induction data as [|x data IH]; [reflexivity|]. cbn [map filter]. rewrite IH. destruct dt; reflexivity. Qed.

(** carried entries: what [den] says about the kept part of an index *)
Lemma kept_indexed (vs : list value) index : forall ws, omap (nthZ vs) index = Some ws -> kept index = index /\ omap (nthZ vs) (kept index) = Some ws.
Proof.
  induction index as [|i index IH]; intros ws H; cbn [omap kept filter] in *; [auto|]. destruct (nthZ vs i) as [v|] eqn:Ev; [|discriminate]. destruct (omap (nthZ vs) index) as [ws'|] eqn:Ew; [|discriminate].
  destruct (IH _ eq_refl) as [E1 E2]. pose proof (nthZ_Some _ _ _ Ev). unfold kept in *. cbn [filter]. destruct (Z.ltb_spec i 0); [lia|]. cbn [negb]. rewrite E1. split; [reflexivity|]. cbn [omap]. rewrite Ev, Ew. exact H.
Qed.
Lemma kept_option (vs : list value) index : forall ws, omap (fun i => if i <? 0 then Some VNone else nthZ vs i) index = Some ws ->
  exists us, omap (nthZ vs) (kept index) = Some us /\ present us = present ws.
Proof.
  induction index as [|i index IH]; intros ws H; cbn [omap] in *; [injection H as <-; exists []; auto|]. change (kept (i :: index)) with (if negb (i <? 0) then i :: kept index else kept index). destruct (i <? 0) eqn:Ei; cbn [negb].
  - destruct (omap (fun i => if i <? 0 then Some VNone else nthZ vs i) index) as [ws'|] eqn:Ew; [|discriminate]. injection H as <-. destruct (IH _ eq_refl) as (us & A & B). exists us. split; [exact A|]. cbn. exact B.
  - destruct (nthZ vs i) as [v|] eqn:Ev; [|discriminate]. destruct (omap (fun i => if i <? 0 then Some VNone else nthZ vs i) index) as [ws'|] eqn:Ew; [|discriminate]. injection H as <-. destruct (IH _ eq_refl) as (us & A & B).
    exists (v :: us). cbn [omap]. rewrite Ev, A. split; [reflexivity|]. unfold present in *. cbn [filter]. rewrite B. reflexivity.
Qed.

(** carrying keeps the layout *)
Definition shape (c : content) : bool * nat := (picked_numbers c, picked_levels c).
Lemma range_shape c : forall a b c', getitem_range_nowrap c a b = Ok c' -> shape c' = shape c.
Proof.
  unfold shape. induction c using content_ind'; intros a' b' c' H0; simpl in H0; binv H0; try (mkinv H0; subst; simpl; eauto; fail); try (injection H0 as <-; simpl; eauto; fail).
  destruct cs; [mkinv H0; subst; reflexivity|]. binv H0; [injection H0 as <-; reflexivity|]. mkinv H0; subst. reflexivity.
Qed.
Lemma contiguous_shape c cry kk c' : carry_contiguous c cry kk = Ok c' -> (kk tt = Ok c' -> shape c' = shape c) -> shape c' = shape c.
Proof. unfold carry_contiguous; intros H Hk. binv H; [injection H as <-; reflexivity|eapply range_shape; exact H|auto]. Qed.
Lemma carry_shape c cry lz c' : carry c cry lz = Ok c' -> picked_numbers c = true -> shape c' = shape c.
Proof.
  intros H0 HP. destruct c; try discriminate HP; cbn [carry] in H0; try (eapply contiguous_shape; [exact H0|clear H0; intros H0; cbv beta in H0]); binv H0; injection H0 as <-; reflexivity.
Qed.

Section Main.
Variable real : order.
Variable is64 : content -> bool.
Notation IU := (is_unique real is64 (fun _ => 0)).
Lemma picked_unique fuel : forall c vs, (picked_levels c <= fuel)%nat -> den c = Some vs -> picked_numbers c = true -> no_nan real vs ->
  exists b, IU fuel c = Ok b /\ (b = true <-> all_different real (present vs)).
Proof.
  induction fuel as [fuel IH] using lt_wf_ind. intros c vs Hn Hd HP HN. destruct fuel as [|fuel]; [destruct c; cbn in Hn; lia|].
  assert (HX : forall index c' us, (exists vs', den c' = Some vs' /\ omap (nthZ vs') (kept index) = Some us /\ present us = present vs) -> picked_numbers c' = true -> (S (S (picked_levels c')) <= S fuel)%nat -> forall cc, cc = Indexed index c' \/ cc = IndexedOption index c' ->
     exists b, is_subrange_equal real is64 (fun _ => 0) fuel cc [0] [zlen index] = Ok b /\ (b = true <-> all_different real (present vs))).
  { intros index c' us (vs' & Hd' & Hk & Hpr) HP' Hl cc Hcc. destruct fuel as [|fuel]; [lia|].
    destruct (carry_den c' vs' (kept index) us false Hd' Hk) as (next & EC & Hdn). pose proof (carry_shape _ _ _ _ EC HP') as HS. injection HS as HS1 HS2.
    destruct (IH fuel ltac:(lia) next us) as (b & EB & HB); [rewrite HS2; lia|exact Hdn|congruence| |].
    - eapply no_nan_present; [|exact HN]. intros x Hx. assert (HI : In (VReal x) (present us)) by (apply present_In; split; [exact Hx|discriminate]). rewrite Hpr in HI. apply present_In in HI. tauto.
    - exists b. rewrite <- Hpr. split; [|exact HB].
      destruct Hcc as [-> | ->]; cbn [is_subrange_equal]; change (zlen [0]) with 1; change (zlen [zlen index]) with 1; cbn [Z.eqb negb]; rewrite one_range_next; cbn [bind]; rewrite one_range_carry; cbn [bind]; rewrite EC; cbn [bind]; change (1 <? zlen [0]) with false; exact EB. }
  destruct c as [ |dt data| | | |index c'|index c'| | | | | ]; try discriminate HP.
  - injection Hd as <-. exists true. split; [reflexivity|]. split; [|reflexivity]. intros _ i j v w _ Hv. change (present []) with (@nil value) in Hv. rewrite nthZ_nil in Hv. discriminate.
  - cbn [den] in Hd. injection Hd as <-. destruct (unique_numbers real dt data HN) as (out & E & _ & HU). cbn [is_unique]. rewrite E. cbn [bind]. eexists. split; [reflexivity|]. rewrite present_numbers, Z.eqb_eq. exact HU.
  - cbn [den] in Hd. destruct (den c') as [vs'|] eqn:Ec; [|discriminate]. destruct (kept_indexed _ _ _ Hd) as [_ HK]. cbn [is_unique]. apply (HX index c' vs); auto. exists vs'. auto.
  - cbn [den] in Hd. destruct (den c') as [vs'|] eqn:Ec; [|discriminate]. destruct (kept_option _ _ _ Hd) as (us & HK & Hpr). cbn [is_unique]. apply (HX index c' us); auto. exists vs'. auto.
Qed.
End Main.
