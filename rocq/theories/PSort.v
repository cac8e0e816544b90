(** Proofs about sort and argsort along the innermost axis. *)
From Coq Require Import Permutation.
From Verif Require Import Base BaseLemmas OmapLemmas LoopLemmas Content KCore Core KConvert Convert KOption Option KAxis Axis KReduce Reduce KSort Sort SpecArray SpecSlice SpecForm SpecMerge SpecReduce SpecSort
  PCore PCarry PList PConvert PForm PAxis PNat PPadK PNum PFlatten PLocalIndex POption PAt PReduceK PReduceF PReduceO PReduceL PReduceTop PMerge PQuick PSortK.
Local Notation get := KSort.get.

(** ** the layout conditions are kept *)
Lemma range_without_index c : forall a b c', getitem_range_nowrap c a b = Ok c' -> without_index c' = without_index c.
Proof.
  induction c using content_ind'; intros a' b' c' H0; simpl in H0; binv H0; try (mkinv H0; subst; simpl; eauto; fail); try (injection H0 as <-; simpl; eauto; fail).
  destruct cs; [mkinv H0; subst; reflexivity|]. binv H0; [injection H0 as <-; reflexivity|]. mkinv H0; subst. reflexivity.
Qed.
Lemma contiguous_without_index c cry kk c' : carry_contiguous c cry kk = Ok c' -> (kk tt = Ok c' -> without_index c' = without_index c) -> without_index c' = without_index c.
Proof. unfold carry_contiguous; intros H Hk. binv H; [injection H as <-; reflexivity|eapply range_without_index; exact H|auto]. Qed.
Lemma carry_without_index c : forall cry lz c', carry c cry lz = Ok c' -> without_index c' = without_index c.
Proof.
  induction c using content_ind'; intros cry lz c' H0; cbn [carry] in H0; try (eapply contiguous_without_index; [exact H0|clear H0; intros H0; cbv beta in H0]); binv H0; try (mkinv H0; subst; simpl; eauto; fail); try (injection H0 as <-; simpl; eauto; fail).
  - eapply (contiguous_without_index (ByteMasked a vw c)); [exact H0|clear H0; intros H0; cbv beta in H0]. binv H0. mkinv H0; subst. simpl. eauto.
  - eapply contiguous_without_index; [exact H0|clear H0; intros H0; cbv beta in H0]. binv H0. mkinv H0; subst. reflexivity.
Qed.
Section Prep.
Variable arg : bool.
Definition ready (c : content) : Prop := sortable arg c \/ (arg = false /\ optional_numbers c).
Lemma range_optional c b c' : getitem_range_nowrap c 0 b = Ok c' -> optional_numbers c -> optional_numbers c'.
Proof. intros H [A B]. destruct (range_same _ _ _ _ H) as [S _]. split; [rewrite (range_without_index _ _ _ _ H); exact A|rewrite S; exact B]. Qed.
Lemma carry_optional c cry lz c' : carry c cry lz = Ok c' -> optional_numbers c -> optional_numbers c'.
Proof. intros H [A B]. destruct (carry_same _ _ _ _ H) as [S _]. split; [rewrite (carry_without_index _ _ _ _ H); exact A|rewrite S; exact B]. Qed.
Lemma range_sortable c : forall b c', sortable arg c -> getitem_range_nowrap c 0 b = Ok c' -> sortable arg c'.
Proof.
  induction c using content_ind'; intros b c' HZ H0; try (destruct HZ; fail); simpl in H0; binv H0; try (mkinv H0; subst; exact HZ).
  - unfold mkListOffset in H0. destruct (Z.eqb_spec (zlen a) 0) as [|Hne]; [discriminate|]. injection H0 as <-. destruct HZ as [A B]. split; [|exact B]. rewrite (iview_head _ _ _ E Hne). exact A.
  - mkinv H0; subst. destruct HZ as [HZ|[HA HZ]]; [left; eapply IHc; [exact HZ|exact E]|right; split; [exact HA|eapply range_optional; [exact E|exact HZ]]].
Qed.
Lemma contiguous_sortable c cry kk c' : sortable arg c -> carry_contiguous c cry kk = Ok c' -> (kk tt = Ok c' -> sortable arg c') -> sortable arg c'.
Proof. unfold carry_contiguous; intros HZ H Hk. binv H; [injection H as <-; exact HZ|eapply range_sortable; [exact HZ|exact H]|auto]. Qed.
Lemma carry_sortable c : forall cry lz c', sortable arg c -> carry c cry lz = Ok c' -> sortable arg c'.
Proof.
  induction c using content_ind'; intros cry lz c' HZ H0; try (destruct HZ; fail); cbn [carry] in H0;
    try (eapply contiguous_sortable; [exact HZ|exact H0|clear H0; intros H0; cbv beta in H0]); binv H0; try (mkinv H0; subst; exact HZ).
  - mkinv H0; subst. apply HZ.
  - mkinv H0; subst. destruct HZ as [HZ|[HA HZ]]; [left; eapply IHc; [exact HZ|exact E0]|right; split; [exact HA|eapply carry_optional; [exact E0|exact HZ]]].
Qed.
Lemma range_ready c b c' : ready c -> getitem_range_nowrap c 0 b = Ok c' -> ready c'.
Proof. intros [H|[A H]] E; [left; eapply range_sortable; eassumption|right; split; [exact A|eapply range_optional; eassumption]]. Qed.
Lemma carry_ready c cry lz c' : ready c -> carry c cry lz = Ok c' -> ready c'.
Proof. intros [H|[A H]] E; [left; eapply carry_sortable; eassumption|right; split; [exact A|eapply carry_optional; eassumption]]. Qed.
Lemma tolistoffset_ready w c l x o c'' : list_view c = Some (l, x) -> ready x -> toListOffsetArray64 w true c = Ok (ListOffset o c'') -> ready c''.
Proof.
  intros Hv HZ H. unfold toListOffsetArray64 in H. destruct c; try discriminate Hv; cbn [list_view] in Hv; injection Hv as <- <-; binv H; try (injection H as <- <-; exact HZ);
    cbn [broadcast_tooffsets64] in H; unfold starts_at_0 in H; binv H; mkinv H; injection H as <- <-; first [exact HZ|eapply carry_ready; [exact HZ|eassumption]].
Qed.
Lemma ready_levels c : ready c -> exists d, levels (form_of c) = Some d /\ union_free (form_of c) = true /\ d = 1 + Z.of_nat (list_levels (form_of c)).
Proof.
  assert (HO : forall c, optional_numbers c -> levels (form_of c) = Some 1 /\ union_free (form_of c) = true /\ list_levels (form_of c) = O).
  { intros c0 [_ B]. destruct (form_of c0) as [ | | |[ | | | | | ]| | ]; try destruct B; auto. }
  assert (HL : forall c', (exists d, levels (form_of c') = Some d /\ union_free (form_of c') = true /\ d = 1 + Z.of_nat (list_levels (form_of c'))) ->
     exists d, levels (FList (form_of c')) = Some d /\ union_free (FList (form_of c')) = true /\ d = 1 + Z.of_nat (list_levels (FList (form_of c')))).
  { intros c' (d & A & B & C). exists (1 + d). cbn [levels union_free list_levels]. rewrite A. split; [reflexivity|]. split; [exact B|lia]. }
  assert (HR : forall c, (sortable arg c -> exists d, levels (form_of c) = Some d /\ union_free (form_of c) = true /\ d = 1 + Z.of_nat (list_levels (form_of c))) -> ready c ->
     exists d, levels (form_of c) = Some d /\ union_free (form_of c) = true /\ d = 1 + Z.of_nat (list_levels (form_of c))).
  { intros c0 H [HS|[_ HS]]; [auto|]. destruct (HO _ HS) as (A & B & C). exists 1. rewrite C. auto. }
  apply HR. induction c using content_ind'; intros HS; try (destruct HS; fail); try (exists 1; auto; fail); cbn [form_of]; apply HL; apply HR; try assumption; apply HS.
Qed.
End Prep.

(** ** numbers *)
Section Leaf.
Variable real : order.
Variable ascending stable : bool.
Lemma predicate_vle dt x y : vle real ascending (scalar dt x) (scalar dt y) = predicate_of (order_of real dt) ascending x y.
Proof. unfold vle, predicate_of. destruct ascending, dt; simpl; try reflexivity; destruct (x =? 0), (y =? 0); reflexivity. Qed.
Lemma comparable_total dt s : comparable real (map (scalar dt) s) -> total (order_of real dt) s.
Proof.
  unfold comparable, total. destruct dt; cbn [order_of].
  - intros _. split; [|split; [|split]]; simpl; intros; destruct (x =? 0), (y =? 0); try destruct (z =? 0); simpl in *; auto; discriminate.
  - intros _. split; [|split; [|split]]; simpl; intros.
    + destruct (Z.leb_spec x y); [auto|right; apply Z.leb_le; lia].
    + rewrite Z.leb_le in *. lia.
    + rewrite Z.leb_antisym, negb_involutive. reflexivity.
    + rewrite Z.eqb_eq, !Z.leb_le in *. lia.
  - assert (HI : forall x, In x s -> In (VReal x) (map (scalar DReal) s)) by (intros x Hx; apply in_map_iff; exists x; auto).
    intros (A & B & C & D). split; [|split; [|split]]; intros; [apply A|eapply B; [| | |eassumption|]|apply C|apply D]; auto.
Qed.
Lemma scalar_not_none dt x : scalar dt x <> VNone.
Proof. destruct dt; discriminate. Qed.
Lemma leaf_sort dt s s' : sortR (order_of real dt) ascending s s' -> is_sort real ascending (map (scalar dt) s) (map (scalar dt) s').
Proof.
  intros [HP HS]. split; [apply Permutation_map; exact HP|]. exists (map (scalar dt) s'), O. split; [symmetry; apply app_nil_r|]. split.
  - apply Forall_forall. intros v Hv. apply in_map_iff in Hv as (x & <- & _). apply scalar_not_none.
  - intros HC. apply comparable_total in HC. specialize (HS HC). intros i j x y Hij Hx Hy. rewrite nthZ_map in Hx, Hy. destruct (nthZ s' i) as [a|] eqn:Ea; [|discriminate]. destruct (nthZ s' j) as [b|] eqn:Eb; [|discriminate].
    injection Hx as <-. injection Hy as <-. rewrite predicate_vle. eapply HS; eassumption.
Qed.
Lemma leaf_argsort dt s ps : argR (order_of real dt) ascending stable s ps -> is_argsort real ascending stable (map (scalar dt) s) (map (scalar DInt) ps).
Proof.
  intros [HP HS]. exists ps. split; [reflexivity|]. rewrite zlen_map. split; [exact HP|]. intros HC a b i j v w Hab Hi Hj Hv Hw. apply comparable_total in HC. specialize (HS HC a b i j Hab Hi Hj).
  rewrite nthZ_map in Hv, Hw. destruct (nthZ s i) as [x|] eqn:Ex; [|discriminate]. destruct (nthZ s j) as [y|] eqn:Ey; [|discriminate]. injection Hv as <-. injection Hw as <-. rewrite !predicate_vle.
  unfold KSort.get in HS. rewrite Ex, Ey in HS. exact HS.
Qed.
Lemma is_sort_zlen vs ws : is_sort real ascending vs ws -> zlen ws = zlen vs.
Proof. intros [HP _]. unfold zlen. rewrite (Permutation_length HP). reflexivity. Qed.
Lemma is_argsort_zlen vs ws : is_argsort real ascending stable vs ws -> zlen ws = zlen vs.
Proof. intros (ps & -> & HP & _). rewrite zlen_map. apply Permutation_length in HP. pose proof (zlen_nonneg vs). assert (zlen (zseq 0 (zlen vs)) = zlen ps) by (unfold zlen at 1 3; rewrite HP; reflexivity). rewrite zlen_zseq in *; lia. Qed.
End Leaf.
Lemma concat_same_lens {A} (a : list (list A)) : forall b, concat a = concat b -> map zlen a = map zlen b -> a = b.
Proof.
  induction a as [|x a IH]; intros [|y b] HC HL; try discriminate; [reflexivity|]. cbn [map concat] in *. injection HL as H1 H2.
  assert (E : x = y /\ concat a = concat b). { clear - HC H1. revert y H1 HC. induction x as [|u x IHx]; intros [|v y] H1 HC; rewrite ?zlen_cons in H1; try (pose proof (zlen_nonneg x)); try (pose proof (zlen_nonneg y)); change (zlen (@nil A)) with 0 in *; try lia; [auto|]. cbn [app] in HC. injection HC as -> HC. destruct (IHx y) as [-> E]; [lia|exact HC|auto]. }
  destruct E as [-> E]. f_equal. apply IH; assumption.
Qed.
(** groups of values are groups of numbers *)
Lemma split_numbers dt data groups : map (scalar dt) data = concat groups -> exists segs, data = concat segs /\ groups = map (map (scalar dt)) segs.
Proof.
  intros H. destruct (split_groups (map zlen groups) (nonneg_zlens groups) data) as (segs & E & L); [rewrite <- (zlen_map (scalar dt)), H; apply zlen_concat|].
  exists segs. split; [exact E|]. apply concat_same_lens; [rewrite <- concat_map, <- E; symmetry; exact H|]. rewrite map_map. rewrite <- L. apply map_ext. intros l. symmetry. apply zlen_map.
Qed.

(** ** where the missing values go *)
Fixpoint lp (ps qs : list Z) (j : Z) {struct ps} : list Z :=
  match ps with
  | [] => []
  | p :: ps => match qs with q :: qs' => if p =? q then j :: lp ps qs' (j + 1) else (-1) :: lp ps qs j | [] => (-1) :: lp ps [] j end
  end.
Lemma lp_kernel (starts qs : list Z) : forall (ps ppre qpre d : list Z), Forall (fun p => 0 <= p < zlen starts) ps -> zlen d = zlen ppre -> forall r : list Z, zlen r = zlen ps ->
  exists j', for_ (zlen ppre) (zlen ppre + zlen ps) (fun i st =>
    let '(j, tocarry) := st in
    let* parent := rd (ppre ++ ps) i in
    let* _ := rd starts parent in
    let* hit := if j <? zlen (qpre ++ qs) then let* p := rd (qpre ++ qs) j in Ok (parent =? p) else Ok false in
    if hit then let* tocarry := wr tocarry i j in Ok (j + 1, tocarry)
    else let* tocarry := wr tocarry i (-1) in Ok (j, tocarry)) (zlen qpre, d ++ r) = Ok (j', d ++ lp ps qs (zlen qpre)).
Proof.
  intros ps. revert qs. induction ps as [|p ps IH]; intros qs ppre qpre d HF Hd r Hr.
  - destruct r; [|rewrite zlen_cons in Hr; pose proof (zlen_nonneg r); change (zlen (@nil Z)) with 0 in Hr; lia]. exists (zlen qpre). rewrite for_nil by (change (zlen (@nil Z)) with 0; lia). reflexivity.
  - inversion HF as [|? ? HF1 HF2]; subst. rewrite zlen_cons in *. pose proof (zlen_nonneg ps). rewrite for_step by lia.
    destruct r as [|y r]; [change (zlen (@nil Z)) with 0 in Hr; lia|]. rewrite zlen_cons in Hr.
    assert (R1 : rd (ppre ++ p :: ps) (zlen ppre) = Ok p) by (unfold rd; rewrite nthZ_app_right by lia; rewrite Z.sub_diag; reflexivity). rewrite R1. cbn [bind].
    destruct (rd_in starts p HF1) as (s & -> & _). cbn [bind].
    replace (zlen ppre + (zlen ps + 1)) with (zlen (ppre ++ [p]) + zlen ps) by (rewrite zlen_app; change (zlen [p]) with 1; lia). replace (zlen ppre + 1) with (zlen (ppre ++ [p])) by (rewrite zlen_app; reflexivity).
    replace (ppre ++ p :: ps) with ((ppre ++ [p]) ++ ps) by (rewrite <- app_assoc; reflexivity). rewrite <- Hd.
    cbn [lp]. destruct qs as [|q qs].
    + rewrite app_nil_r, Z.ltb_irrefl. cbn [bind]. rewrite wr_push. cbn [bind].
      destruct (IH [] (ppre ++ [p]) qpre (d ++ [-1]) HF2 ltac:(rewrite !zlen_app, Hd; reflexivity) r ltac:(lia)) as (j' & E). rewrite app_nil_r in E. exists j'. rewrite E. rewrite <- app_assoc. reflexivity.
    + destruct (Z.ltb_spec (zlen qpre) (zlen (qpre ++ q :: qs))); [|rewrite zlen_app, zlen_cons in *; pose proof (zlen_nonneg qs); lia].
      assert (R2 : rd (qpre ++ q :: qs) (zlen qpre) = Ok q) by (unfold rd; rewrite nthZ_app_right by lia; rewrite Z.sub_diag; reflexivity). rewrite R2. cbn [bind]. destruct (p =? q).
      * rewrite wr_push. cbn [bind]. destruct (IH qs (ppre ++ [p]) (qpre ++ [q]) (d ++ [zlen qpre]) HF2 ltac:(rewrite !zlen_app, Hd; reflexivity) r ltac:(lia)) as (j' & E).
        exists j'. replace (zlen (qpre ++ [q])) with (zlen qpre + 1) in E by (rewrite zlen_app; reflexivity). rewrite <- (app_assoc qpre) in E. cbn [app] in E. rewrite E. rewrite <- app_assoc. reflexivity.
      * rewrite wr_push. cbn [bind]. destruct (IH (q :: qs) (ppre ++ [p]) qpre (d ++ [-1]) HF2 ltac:(rewrite !zlen_app, Hd; reflexivity) r ltac:(lia)) as (j' & E).
        exists j'. rewrite E. rewrite <- app_assoc. reflexivity.
Qed.
Lemma lp_miss g n ps qs : (forall q, In q qs -> g < q) -> forall j, lp (repeat g n ++ ps) qs j = repeat (-1) n ++ lp ps qs j.
Proof. intros Hq. induction n as [|n IH]; intros j; [reflexivity|]. cbn [repeat app lp]. destruct qs as [|q qs]; [rewrite IH; reflexivity|]. destruct (Z.eqb_spec g q); [specialize (Hq q (or_introl eq_refl)); lia|]. rewrite IH. reflexivity. Qed.
Lemma lp_hit g t : forall n ps qs j, (t <= n)%nat -> (forall q, In q qs -> g < q) ->
  lp (repeat g n ++ ps) (repeat g t ++ qs) j = zseq j (j + Z.of_nat t) ++ repeat (-1) (n - t) ++ lp ps qs (j + Z.of_nat t).
Proof.
  induction t as [|t IH]; intros n ps qs j Hn Hq.
  - cbn [repeat app]. rewrite lp_miss by exact Hq. rewrite (zseq_nil j) by lia. rewrite Nat.sub_0_r, Z.add_0_r. reflexivity.
  - destruct n as [|n]; [lia|]. cbn [repeat app lp]. rewrite Z.eqb_refl. rewrite IH by (try lia; exact Hq). rewrite (zseq_cons j) by lia. cbn [app]. replace (j + 1 + Z.of_nat t) with (j + Z.of_nat (S t)) by lia. reflexivity.
Qed.
Definition ntrue (fl : list bool) : Z := zlen (filter (fun b : bool => b) fl).
Lemma ntrue_bounds fl : 0 <= ntrue fl <= zlen fl.
Proof. unfold ntrue. split; [apply zlen_nonneg|]. induction fl as [|b fl IH]; [reflexivity|]. cbn [filter]. destruct b; rewrite ?zlen_cons; lia. Qed.
Fixpoint placed_back (fls : list (list bool)) (j : Z) : list Z :=
  match fls with [] => [] | fl :: fls => zseq j (j + ntrue fl) ++ repeat (-1) (Z.to_nat (zlen fl - ntrue fl)) ++ placed_back fls (j + ntrue fl) end.
Lemma lp_runs fls : forall k j, lp (runs k (map zlen fls)) (runs k (map ntrue fls)) j = placed_back fls j.
Proof.
  induction fls as [|fl fls IH]; intros k j; [reflexivity|]. cbn [map runs placed_back]. pose proof (ntrue_bounds fl).
  rewrite lp_hit; [|lia|].
  - rewrite Z2Nat.id by lia. rewrite IH. rewrite Z2Nat.inj_sub by lia. reflexivity.
  - intros q Hq. pose proof (runs_range (map ntrue fls)) as HR. assert (HN : nonneg_counts (map ntrue fls)) by (apply Forall_forall; intros x Hx; apply in_map_iff in Hx as (y & <- & _); apply ntrue_bounds).
    specialize (HR HN (k + 1)). rewrite Forall_forall in HR. specialize (HR q Hq). lia.
Qed.
Lemma local_preparenext_spec fls starts : zlen fls <= zlen starts ->
  awkward_IndexedArray_local_preparenext_64 (alloc (zlen (runs 0 (map zlen fls)))) starts (runs 0 (map zlen fls)) (zlen (runs 0 (map zlen fls))) (runs 0 (map ntrue fls)) (zlen (runs 0 (map ntrue fls))) = Ok (placed_back fls 0).
Proof.
  intros Hs. unfold awkward_IndexedArray_local_preparenext_64.
  assert (HF : Forall (fun p => 0 <= p < zlen starts) (runs 0 (map zlen fls))) by (eapply Forall_impl; [|apply (runs_range (map zlen fls) (nonneg_zlens fls) 0)]; intros p Hp; cbv beta in Hp; rewrite zlen_map in Hp; lia).
  destruct (lp_kernel starts (runs 0 (map ntrue fls)) (runs 0 (map zlen fls)) [] [] [] HF eq_refl (alloc (zlen (runs 0 (map zlen fls))))) as (j & E); [apply zlen_alloc; apply zlen_nonneg|].
  cbn [app] in E. change (zlen (@nil Z)) with 0 in E. change (0 + zlen (runs 0 (map zlen fls))) with (zlen (runs 0 (map zlen fls))) in E. rewrite E. cbn [bind]. f_equal. apply lp_runs.
Qed.

Lemma pick_perm fl : forall vs : list value, zlen fl = zlen vs -> (forall i, nthZ fl i = Some false -> nthZ vs i = Some VNone) ->
  Permutation vs (pick fl vs ++ repeat VNone (Z.to_nat (zlen fl - ntrue fl))).
Proof.
  induction fl as [|b fl IH]; intros [|v vs] HL HN; rewrite ?zlen_cons in HL; try (pose proof (zlen_nonneg fl)); try (pose proof (zlen_nonneg vs)); try (change (zlen (@nil value)) with 0 in *; change (zlen (@nil bool)) with 0 in *; lia); [constructor|].
  assert (HN' : forall i, nthZ fl i = Some false -> nthZ vs i = Some VNone). { intros i Hi. pose proof (nthZ_Some _ _ _ Hi). specialize (HN (i + 1)). rewrite !nthZ_cons in HN. destruct (Z.eqb_spec (i + 1) 0); [lia|]. rewrite Z.add_simpl_r in HN. auto. }
  specialize (IH vs ltac:(lia) HN'). pose proof (ntrue_bounds fl). unfold ntrue in *. cbn [pick filter]. destruct b; rewrite ?zlen_cons.
  - cbn [app]. constructor. replace (zlen fl + 1 - (zlen (filter (fun b : bool => b) fl) + 1)) with (zlen fl - zlen (filter (fun b : bool => b) fl)) by lia. exact IH.
  - specialize (HN 0 eq_refl). injection HN as ->. replace (Z.to_nat (zlen fl + 1 - zlen (filter (fun b : bool => b) fl))) with (S (Z.to_nat (zlen fl - zlen (filter (fun b : bool => b) fl)))) by lia. cbn [repeat].
    etransitivity; [constructor; exact IH|]. apply Permutation_middle.
Qed.
Lemma total_order_mono o (p q : Z -> Prop) : (forall x, p x -> q x) -> total_order o q -> total_order o p.
Proof. intros H (A & B & C & D). split; [|split; [|split]]; intros; [apply A|eapply B; [| | |eassumption|]|apply C|apply D]; auto. Qed.
Lemma is_sort_option real asc fl vs ws : zlen fl = zlen vs -> (forall i, nthZ fl i = Some false -> nthZ vs i = Some VNone) ->
  is_sort real asc (pick fl vs) ws -> is_sort real asc vs (ws ++ repeat VNone (Z.to_nat (zlen fl - ntrue fl))).
Proof.
  intros HL HN [HP (s & k & -> & HS & HT)]. pose proof (pick_perm fl vs HL HN) as HV. split.
  - etransitivity; [exact HV|]. apply Permutation_app_tail. exact HP.
  - exists s, (k + Z.to_nat (zlen fl - ntrue fl))%nat. split; [rewrite repeat_app, app_assoc; reflexivity|]. split; [exact HS|]. intros HC. apply HT. eapply total_order_mono; [|exact HC].
    intros x Hx. cbv beta in *. eapply Permutation_in; [apply Permutation_sym; exact HV|]. apply in_or_app. left. exact Hx.
Qed.
Lemma placed_back_den dt fls : forall (segs : list (list Z)) pre, map zlen segs = map ntrue fls ->
  omap (fun i => if i <? 0 then Some VNone else nthZ (map (scalar dt) (pre ++ concat segs)) i) (placed_back fls (zlen pre)) =
  Some (concat (map (fun fs => map (scalar dt) (snd fs) ++ repeat VNone (Z.to_nat (zlen (fst fs) - ntrue (fst fs)))) (combine fls segs))).
Proof.
  induction fls as [|fl fls IH]; intros [|s segs] pre HL; try discriminate; [reflexivity|]. cbn [map] in HL. injection HL as H1 H2.
  cbn [placed_back combine map concat fst snd]. rewrite !omap_app. pose proof (zlen_nonneg pre). pose proof (zlen_nonneg s). pose proof (zlen_nonneg (concat segs)).
  assert (E1 : omap (fun i => if i <? 0 then Some VNone else nthZ (map (scalar dt) (pre ++ s ++ concat segs)) i) (zseq (zlen pre) (zlen pre + ntrue fl)) = Some (map (scalar dt) s)).
  { rewrite (omap_ext _ (nthZ (map (scalar dt) (pre ++ s ++ concat segs)))).
    - rewrite <- H1. rewrite omap_nthZ_zseq by (rewrite ?zlen_map, ?zlen_app; lia). rewrite slice_map, slice_mid. reflexivity.
    - intros i Hi. apply In_zseq in Hi. destruct (Z.ltb_spec i 0); [lia|reflexivity]. }
  rewrite E1.
  assert (E2 : forall n, omap (fun i => if i <? 0 then Some VNone else nthZ (map (scalar dt) (pre ++ s ++ concat segs)) i) (repeat (-1) n) = Some (repeat VNone n)) by (induction n as [|n IHn]; [reflexivity|]; cbn [repeat omap]; change (-1 <? 0) with true; cbv iota; rewrite IHn; reflexivity).
  rewrite E2. specialize (IH segs (pre ++ s) H2). rewrite zlen_app, H1, <- app_assoc in IH. rewrite IH. cbn. rewrite <- app_assoc. reflexivity.
Qed.

Section Main.
Variable real : order.
Variable is64 : content -> bool.
Variable rc : Z -> Z.
Variable narrow : content -> bool.
Variable refeq : content -> content -> bool.
Variable mfuel : nat.
Variable arg ascending stable : bool.
Notation SN := (sort_next real is64 rc narrow refeq mfuel arg ascending stable).
Definition P (vs ws : list value) : Prop := if arg then is_argsort real ascending stable vs ws else is_sort real ascending vs ws.
Definition short (vs : list value) : Prop := stable = true \/ zlen vs < 2 ^ kMaxLevels.

Lemma P_zlen vs ws : P vs ws -> zlen ws = zlen vs.
Proof. unfold P. destruct arg; [apply is_argsort_zlen|apply is_sort_zlen]. Qed.
Lemma innermost_zlen d : forall vs ws, innermost P d vs ws -> zlen ws = zlen vs.
Proof. destruct d; intros vs ws H; [apply P_zlen; exact H|]. cbn [innermost] in H. induction H; [reflexivity|]. rewrite !zlen_cons. lia. Qed.
Lemma groups_zlen d gs os : Forall2 (innermost P d) gs os -> map zlen os = map zlen gs.
Proof. induction 1 as [|g o gs os H _ IH]; [reflexivity|]. cbn [map]. rewrite IH, (innermost_zlen _ _ _ H). reflexivity. Qed.

Lemma numpy_groups dt data groups starts : map (scalar dt) data = concat groups -> Forall short groups ->
  exists ptr outs, numpy_sort real arg ascending stable dt data starts (runs 0 (map zlen groups)) false = Ok (Numpy (if arg then DInt else dt) ptr) /\ map (scalar (if arg then DInt else dt)) ptr = concat outs /\ Forall2 P groups outs.
Proof.
  intros HC HF. destruct (split_numbers dt data groups HC) as (segs & -> & ->).
  assert (HL : map zlen (map (map (scalar dt)) segs) = map zlen segs) by (rewrite map_map; apply map_ext; intros; apply zlen_map). rewrite HL.
  assert (Hfit : fits_levels stable segs).
  { unfold fits_levels. destruct stable eqn:Est; [left; reflexivity|]. right. rewrite Forall_map in HF. eapply Forall_impl; [|exact HF]. intros s [H|H]; [congruence|]. rewrite zlen_map in H. exact H. }
  unfold numpy_sort, P. destruct arg.
  - rewrite andb_false_r. destruct (index_sort_groups (order_of real dt) ascending stable segs Hfit) as (segs' & -> & H2). cbn [bind]. exists (concat segs'), (map (map (scalar DInt)) segs'). split; [reflexivity|]. split; [apply concat_map|].
    clear - H2. induction H2 as [|s s' l l' H _ IH]; constructor; [apply leaf_argsort; exact H|exact IH].
  - destruct (array_sort_groups (order_of real dt) ascending stable segs Hfit) as (segs' & E & H2).
    assert (EN : (if (zlen (concat segs) =? 0) && negb false then Ok (Numpy dt (concat segs)) else let* ptr := array_sort (order_of real dt) (concat segs) (runs 0 (map zlen segs)) ascending stable in Ok (Numpy dt ptr)) = Ok (Numpy dt (concat segs'))).
    { rewrite E. cbn [bind negb]. rewrite andb_true_r. destruct (Z.eqb_spec (zlen (concat segs)) 0) as [Hz|]; [|reflexivity]. do 2 f_equal.
      assert (HP : Permutation (concat segs) (concat segs')). { clear - H2. induction H2 as [|s s' l l' [H _] _ IH]; [constructor|]. cbn [concat]. apply Permutation_app; assumption. }
      destruct (concat segs) as [|x l]; [apply Permutation_nil in HP; rewrite HP; reflexivity|]. rewrite zlen_cons in Hz. pose proof (zlen_nonneg l). lia. }
    exists (concat segs'), (map (map (scalar dt)) segs'). split; [exact EN|]. split; [apply concat_map|].
    clear - H2. induction H2 as [|s s' l l' H _ IH]; constructor; [apply leaf_sort; exact H|exact IH].
Qed.

(** [r] is an array of the sorted [groups], one after the other *)
Definition sorts (depth : nat) (groups : list (list value)) (r : res content) : Prop :=
  exists out outs, r = Ok out /\ den out = Some (concat outs) /\ Forall2 (innermost P depth) groups outs.

Lemma leaf_groups fuel c groups starts n : match c with Empty | Numpy _ _ => True | _ => False end -> den c = Some (concat groups) -> Forall short groups -> (1 <= fuel)%nat ->
  exists dt ptr outs, SN fuel c 1 starts (runs 0 (map zlen groups)) n false = Ok (Numpy dt ptr) /\ map (scalar dt) ptr = concat outs /\ Forall2 P groups outs.
Proof.
  intros Hc Hd HF Hfuel. destruct fuel as [|fuel]; [lia|]. destruct c; try destruct Hc; cbn [den] in Hd; injection Hd as Hd; cbn [sort_next].
  - destruct (numpy_groups (if arg then DInt else DReal) [] groups starts Hd HF) as (ptr & outs & E & A & B). exists (if arg then DInt else if arg then DInt else DReal), ptr, outs. auto.
  - destruct (numpy_groups dt data groups starts Hd HF) as (ptr & outs & E & A & B). exists (if arg then DInt else dt), ptr, outs. auto.
Qed.
Lemma short_sub s t : zlen s <= zlen t -> short t -> short s.
Proof. intros H [A|A]; [left; exact A|right; lia]. Qed.
Lemma option_groups fuel ix c' groups starts n : arg = false -> match c' with Empty | Numpy _ _ => True | _ => False end -> den (IndexedOption ix c') = Some (concat groups) -> Forall short groups -> (2 <= fuel)%nat ->
  zlen groups <= zlen starts -> sorts 0 groups (SN fuel (IndexedOption ix c') 1 starts (runs 0 (map zlen groups)) n false).
Proof.
  intros Harg Hc Hd HF Hfuel Hst. destruct fuel as [|fuel]; [lia|]. set (vs := concat groups) in *. set (parents := runs 0 (map zlen groups)).
  assert (Hpl : zlen parents = zlen vs) by (unfold parents, vs; rewrite zlen_runs by apply nonneg_zlens; rewrite zlen_concat; reflexivity).
  pose proof Hd as Hd0. cbn [den] in Hd0. destruct (den c') as [ws|] eqn:Ec; [|discriminate]. pose proof (omap_zlen _ _ _ Hd0) as HZ.
  cbn [sort_next]. destruct (Z.eqb_spec (zlen ix) 0) as [Hz|Hz].
  { unfold nothing_to_sort. rewrite Harg. exists (IndexedOption ix c'), groups. split; [reflexivity|]. split; [exact Hd|]. rewrite Hz in HZ.
    assert (HE : Forall (fun g : list value => g = []) groups). { clear - HZ. unfold vs in HZ. clear vs. induction groups as [|g gs IH]; constructor; cbn [concat] in HZ; rewrite zlen_app in HZ; pose proof (zlen_nonneg g); pose proof (zlen_nonneg (concat gs)). - destruct g; [reflexivity|]. rewrite zlen_cons in *. pose proof (zlen_nonneg g). lia. - apply IH. lia. }
    clear - HE Harg. induction HE as [|g gs -> _ IH]; constructor; [|exact IH]. cbn [innermost]. unfold P. rewrite Harg. split; [constructor|]. exists [], O. split; [reflexivity|]. split; [constructor|]. intros _ i j x y _ Hx. pose proof (nthZ_Some _ _ _ Hx). change (zlen (@nil value)) with 0 in *. lia. }
  destruct (indexed_next3 ix c' ws vs parents Ec Hd Hpl) as (fl & nc & (N1 & N2 & N3 & N4 & _) & Efl).
  assert (EN : awkward_IndexedArray_numnull ix (zlen ix) = Ok (zlen (filter (fun i => negb (0 <=? i)) ix))).
  { unfold awkward_IndexedArray_numnull. apply for_count; [reflexivity|]. intros i x k Hx. apply rd_Ok in Hx. rewrite Hx. cbn [bind]. destruct (Z.ltb_spec x 0), (Z.leb_spec 0 x); try lia; reflexivity. }
  rewrite EN in *. cbn [bind] in *. set (nn := zlen (filter (fun i => negb (0 <=? i)) ix)) in *. pose proof (zlen_nonneg (filter (fun i => negb (0 <=? i)) ix)). fold nn in H.
  replace (if 0 <? nn then zlen ix - nn else zlen ix) with (zlen ix - nn) by (destruct (Z.ltb_spec 0 nn); lia). rewrite N1. cbn [bind].
  destruct (carry_den c' ws nc _ false Ec N3) as (next & Hnext & Hdn). rewrite Hnext. cbn [bind].
  assert (Hleaf : match next with Empty | Numpy _ _ => True | _ => False end).
  { destruct (carry_same _ _ _ _ Hnext) as [S _]. pose proof (carry_without_index _ _ _ _ Hnext) as W. destruct c'; try destruct Hc; destruct next; try exact I; cbn [form_of] in S; try discriminate S; try discriminate W. }
  assert (HB : branch_depth c' = (false, 1)) by (destruct c'; try destruct Hc; reflexivity). rewrite HB. change (1 =? 1) with true. cbn [negb andb]. rewrite !andb_false_r.
  (* groups *)
  destruct (split_groups (map zlen groups) (nonneg_zlens groups) fl) as (fls & Hfl & Lfl); [rewrite N2; apply zlen_concat|].
  set (picks := map (fun fg => pick (fst fg) (snd fg)) (combine fls groups)).
  assert (EP : pick fl vs = concat picks) by (rewrite Hfl; apply pick_concat; exact Lfl).
  assert (ER : pick fl parents = runs 0 (map ntrue fls)) by (rewrite Hfl; unfold parents; rewrite <- Lfl; apply pick_runs).
  assert (LP : map zlen picks = map ntrue fls /\ Forall short picks /\ zlen fls = zlen groups).
  { clear - Lfl HF. unfold picks. clear picks. revert groups Lfl HF. induction fls as [|f fls IH]; intros [|g groups] L HF; try discriminate; [repeat constructor|]. cbn [map] in L. injection L as L1 L2. inversion HF as [|? ? F1 F2]; subst. destruct (IH groups L2 F2) as (A & B & C). cbn [combine map fst snd].
    split; [f_equal; [apply zlen_pick_true; exact L1|exact A]|]. split; [|rewrite !zlen_cons; lia]. constructor; [|exact B]. eapply short_sub; [|exact F1]. rewrite zlen_pick_true by exact L1. rewrite <- L1. apply ntrue_bounds. }
  destruct LP as (LP1 & LP2 & LP3). rewrite ER, <- LP1. rewrite EP in Hdn.
  destruct (leaf_groups fuel next picks starts n Hleaf Hdn LP2 ltac:(lia)) as (dt & ptr & outs & E & Ep & H2). rewrite E. cbn [bind].
  assert (EZ : zlen ix - nn = zlen (runs 0 (map ntrue fls))).
  { rewrite <- ER. rewrite Efl. rewrite zlen_pick_filter by lia. unfold nn. pose proof (filter_negb (fun i => 0 <=? i) ix). cbv beta in *. lia. }
  rewrite LP1, EZ. unfold parents. rewrite <- Lfl. rewrite local_preparenext_spec by lia. cbn [bind].
  change (simplify_optiontype (IndexedOption (placed_back fls 0) (Numpy dt ptr))) with (Ok (IndexedOption (placed_back fls 0) (Numpy dt ptr))). cbn [bind].
  destruct (split_numbers dt ptr outs Ep) as (segs & -> & ->).
  assert (LS : map zlen segs = map ntrue fls).
  { rewrite <- LP1. rewrite <- (groups_zlen 0 _ _ H2). rewrite map_map. apply map_ext. intros l. symmetry. apply zlen_map. }
  exists (IndexedOption (placed_back fls 0) (Numpy dt (concat segs))), (map (fun fs => map (scalar dt) (snd fs) ++ repeat VNone (Z.to_nat (zlen (fst fs) - ntrue (fst fs)))) (combine fls segs)).
  split; [reflexivity|]. split; [cbn [den]; exact (placed_back_den dt fls segs [] LS)|].
  assert (HN : Forall2 (fun f g => zlen f = zlen g /\ forall i, nthZ f i = Some false -> nthZ g i = Some VNone) fls groups).
  { clear - N4 Hfl Lfl. unfold vs in N4. clear vs. rewrite Hfl in N4. clear Hfl fl. revert groups Lfl N4. induction fls as [|f fls IH]; intros [|g groups] L N4; try discriminate; constructor; cbn [map concat] in *; injection L as L1 L2.
    - split; [exact L1|]. intros i Hi. pose proof (nthZ_Some _ _ _ Hi). specialize (N4 i). rewrite !nthZ_app in N4. rewrite <- L1 in N4. destruct (Z.ltb_spec i (zlen f)); [auto|lia].
    - apply IH; [exact L2|]. intros i Hi. pose proof (nthZ_Some _ _ _ Hi). specialize (N4 (zlen f + i)). rewrite nthZ_app_right, L1, nthZ_app_right in N4 by lia. replace (zlen g + i - zlen g) with i in N4 by lia. auto. }
  clear - H2 HN Harg. unfold picks in H2. clear picks. revert segs H2. induction HN as [|f g fls groups [A B] _ IH]; intros [|s segs] H2; cbn [combine map] in *; inversion H2; subst; constructor.
  - cbn [innermost fst snd]. unfold P in *. rewrite Harg in *. apply is_sort_option; assumption.
  - apply IH. assumption.
Qed.

Lemma P_nil d : innermost P d [] [].
Proof.
  destruct d; [|constructor]. cbn [innermost]. unfold P. destruct arg.
  - exists []. split; [reflexivity|]. split; [constructor|]. intros _ a b i j v w _ Hi. pose proof (nthZ_Some _ _ _ Hi). change (zlen (@nil Z)) with 0 in *. lia.
  - split; [constructor|]. exists [], O. split; [reflexivity|]. split; [constructor|]. intros _ i j x y _ Hx. pose proof (nthZ_Some _ _ _ Hx). change (zlen (@nil value)) with 0 in *. lia.
Qed.
Lemma empty_sorts d groups c : concat groups = [] -> den c = Some [] -> sorts d groups (Ok c).
Proof.
  intros Hz Hd. exists c, groups. split; [reflexivity|]. split; [rewrite Hz; exact Hd|].
  clear c Hd. induction groups as [|g gs IH]; [constructor|]. cbn [concat] in Hz. apply app_eq_nil in Hz as [-> Hz]. constructor; [apply P_nil|apply IH; exact Hz].
Qed.
Lemma Forall2_groups {A B} (R : A -> B -> Prop) gs : forall ws, Forall2 R (concat gs) ws -> exists os, ws = concat os /\ Forall2 (Forall2 R) gs os.
Proof.
  induction gs as [|g gs IH]; intros ws H; cbn [concat] in H; [inversion H; exists []; split; [reflexivity|constructor]|].
  apply Forall2_app_inv_l in H as (w1 & w2 & H1 & H2 & ->). destruct (IH _ H2) as (os & -> & H3). exists (w1 :: os). split; [reflexivity|]. constructor; assumption.
Qed.

Definition LO (fuel : nat) (starts parents : list Z) (n : Z) (o : list Z) (c' : content) : res content :=
  let* globalstart := rd o 0 in
  let* globalstop := rd o (zlen o - 1) in
  let* nextparents := awkward_ListOffsetArray_reduce_local_nextparents_64 (alloc (globalstop - globalstart)) o (zlen o - 1) in
  let* trimmed := getitem_range_nowrap c' globalstart globalstop in
  let* nextstarts := make_starts o in
  let* outcontent := SN fuel trimmed 1 nextstarts nextparents (zlen o - 1) false in
  mkListOffset o outcontent.
Definition Main fuel := forall c groups starts n, (bound c <= fuel)%nat -> den c = Some (concat groups) -> ready arg c -> zlen groups <= zlen starts ->
  Forall (each_innermost short (list_levels (form_of c))) groups -> sorts (list_levels (form_of c)) groups (SN fuel c 1 starts (runs 0 (map zlen groups)) n false).

Lemma LO_sorts fuel starts parents n o c' segs : Main fuel -> (bound c' <= fuel)%nat -> den (ListOffset o c') = Some (map VList segs) -> nthZ o 0 = Some 0 -> ready arg c' ->
  Forall (each_innermost short (list_levels (form_of c'))) segs ->
  exists x outs, LO fuel starts parents n o c' = Ok (ListOffset o x) /\ den (ListOffset o x) = Some (map VList outs) /\ Forall2 (innermost P (list_levels (form_of c'))) segs outs.
Proof.
  intros HM Hb Hd H0 HR HF. destruct (listoffset0_inv _ _ _ Hd H0) as (Eo & tail & Hc). pose proof (sumZ_nonneg _ (nonneg_zlens segs)) as HS. pose proof (zlen_nonneg segs). pose proof (zlen_nonneg tail).
  assert (Ho : zlen o = zlen segs + 1) by (rewrite Eo, zlen_offsets_of, zlen_map; reflexivity).
  assert (Hlast : nthZ o (zlen o - 1) = Some (sumZ (map zlen segs))).
  { rewrite Ho, Z.add_simpl_r, Eo. rewrite <- (zlen_map zlen segs). pose proof (nthZ_offsets_last 0 (map zlen segs)) as Q. rewrite Z.add_0_l in Q. exact Q. }
  unfold LO. unfold rd at 1 2. rewrite H0, Hlast. cbn [bind]. rewrite Z.sub_0_r.
  assert (Hdiff : map diff (pairs o) = map zlen segs).
  { destruct (list_inv _ _ _ _ Hd eq_refl) as (ws & _ & Hok & E). apply map_VList_inj in E. rewrite E. symmetry. apply map_zlen_seg. exact Hok. }
  rewrite <- Hdiff. rewrite nextparents_kernel; [|lia|rewrite Hdiff; apply nonneg_zlens]. cbn [bind]. rewrite Hdiff.
  assert (HC : sumZ (map zlen segs) = zlen (concat segs)) by (symmetry; apply zlen_concat). rewrite HC in *.
  destruct (range_den c' _ 0 (zlen (concat segs)) Hc) as (tr & Htr & Hdt); [lia|rewrite zlen_app; lia|]. rewrite slice_app in Hdt. rewrite Htr. cbn [bind].
  rewrite make_starts_spec by lia. cbn [bind]. destruct (range_same _ _ _ _ Htr) as [Hft Hbt].
  destruct (HM tr segs (slice 0 (zlen o - 1) o) (zlen o - 1)) as (x & outs & E & Ed & H2).
  - lia.
  - exact Hdt.
  - eapply range_ready; eassumption.
  - rewrite zlen_slice; lia.
  - rewrite Hft. exact HF.
  - rewrite E. cbn [bind]. rewrite Hft in H2. exists x, outs. unfold mkListOffset. destruct (Z.eqb_spec (zlen o) 0); [lia|]. split; [reflexivity|]. split; [|exact H2].
    rewrite Eo, <- (groups_zlen _ _ _ H2). apply listoffset_den0. exact Ed.
Qed.

(** the two outcomes of sorting a list *)
Definition LOs (fuel : nat) (starts parents : list Z) (n : Z) (kd : bool) (o : list Z) (c' : content) : res content :=
  if zlen o - 1 =? 0 then Ok (ListOffset o c') else
  let* out := LO fuel starts parents n o c' in
  if kd then mkRegular (length_ out) (zlen o - 1) out else Ok out.
Lemma listoffset_step fuel starts parents n kd o c' : is64 (ListOffset o c') = true -> ready arg c' -> SN (S fuel) (ListOffset o c') 1 starts parents n kd = LOs fuel starts parents n kd o c'.
Proof.
  intros H6 HR. destruct (ready_levels arg c' HR) as (d & A & B & C). cbn [sort_next]. rewrite H6.
  rewrite (levels_branch (ListOffset o c') (1 + d)) by (cbn [form_of levels union_free]; rewrite ?A; first [reflexivity|exact B]). destruct (Z.eqb_spec 1 (1 + d)); [lia|]. cbn [negb andb]. unfold LOs. destruct (zlen o - 1 =? 0); [reflexivity|]. unfold LO.
  destruct (rd o 0); cbn [bind]; try reflexivity.
Qed.

(** what each list class becomes *)
Lemma list_step fuel c l x vs starts parents n kd : sortable arg c -> list_view c = Some (l, x) -> den c = Some vs ->
  exists o c'', den (ListOffset o c'') = Some vs /\ nthZ o 0 = Some 0 /\ ready arg c'' /\ form_of c'' = form_of x /\ bound c'' = bound x /\
    SN (S fuel) c 1 starts parents n kd =
      match c with
      | Regular _ _ _ =>
          if length_ c =? 0 then Ok (nothing_to_sort arg c) else
          let* out := LOs fuel starts parents n kd o c'' in
          match out with
          | Regular size _ (ListOffset offsets c') => let* inner := ListOffset_toRegularArray offsets c' in mkRegular size (length_ out) inner
          | _ => Ok out
          end
      | _ => LOs fuel starts parents n kd o c''
      end.
Proof.
  intros HS Hv Hd. assert (HR : ready arg x) by (unfold ready; destruct c; try discriminate Hv; cbn [list_view] in Hv; injection Hv as _ <-; cbn [sortable] in HS; tauto).
  assert (HT : forall w, exists o c'', toListOffsetArray64 w true c = Ok (ListOffset o c'') /\ den (ListOffset o c'') = Some vs /\ nthZ o 0 = Some 0 /\ ready arg c'' /\ form_of c'' = form_of x /\ bound c'' = bound x).
  { intros w. destruct (to_listoffset w true _ _ _ _ Hd Hv) as (o & c'' & E & Ed & E0). specialize (E0 eq_refl). exists o, c''. split; [exact E|]. split; [exact Ed|]. split; [exact E0|].
    split; [eapply tolistoffset_ready; eassumption|]. destruct (tolistoffset_same _ _ _ _ E) as (o2 & c2 & E2 & [S1 S2]). injection E2 as <- <-.
    destruct c; try discriminate Hv; cbn [list_view] in Hv; injection Hv as _ <-; cbn [form_of bound] in S1, S2; injection S1 as S1; injection S2 as S2; auto. }
  assert (HB : forall o c'' , ready arg c'' -> form_of c'' = form_of x -> exists d, branch_depth (ListOffset o c'') = (false, 1 + d) /\ 1 <= d).
  { intros o c'' HR' _. destruct (ready_levels arg c'' HR') as (d & A & B & C). exists d. split; [|lia]. apply levels_branch; cbn [form_of levels union_free]; rewrite ?A; first [reflexivity|exact B]. }
  destruct c as [ |dt data|sts stp c'|offs c'|size zl c'|ix c'|ix c'|mk vw c'|mk vw lsb len c'|c'|keys len cs|utags uix cs]; try discriminate Hv; cbn [list_view] in Hv; injection Hv as Hl <-.
  - destruct (HT (is64 (ListA sts stp c'))) as (o & c'' & E & A1 & A2 & A3 & A4 & A5). exists o, c''. repeat (split; [assumption|]).
    cbn [sort_next]. rewrite E. cbn [bind]. destruct (HB o c'' A3 A4) as (d & -> & Hd1). destruct (Z.eqb_spec 1 (1 + d)); [lia|]. cbn [negb andb]. reflexivity.
  - destruct (is64 (ListOffset offs c')) eqn:H6.
    + exists offs, c'. cbn [sortable] in HS. destruct HS as [H0 _]. repeat (split; [assumption||reflexivity|]). apply listoffset_step; assumption.
    + destruct (HT false) as (o & c'' & E & A1 & A2 & A3 & A4 & A5). exists o, c''. repeat (split; [assumption|]).
      cbn [sort_next]. rewrite H6, E. cbn [bind]. destruct (HB o c'' A3 A4) as (d & -> & Hd1). destruct (Z.eqb_spec 1 (1 + d)); [lia|]. cbn [negb andb]. reflexivity.
  - destruct (HT true) as (o & c'' & E & A1 & A2 & A3 & A4 & A5). exists o, c''. repeat (split; [assumption|]).
    cbn [sort_next]. destruct (length_ (Regular size zl c') =? 0); [reflexivity|]. rewrite E. cbn [bind]. destruct (HB o c'' A3 A4) as (d & -> & Hd1). destruct (Z.eqb_spec 1 (1 + d)); [lia|]. cbn [negb andb]. reflexivity.
Qed.
Lemma each_lists d segs groups : map VList segs = concat groups -> Forall (each_innermost short (S d)) groups -> Forall (each_innermost short d) segs.
Proof.
  intros E HF. assert (HF' : Forall (fun v => match v with VList l => each_innermost short d l | _ => True end) (map VList segs)).
  { rewrite E. clear E. induction HF as [|g gs H _ IH]; [constructor|]. cbn [concat]. apply Forall_app. split; [exact H|exact IH]. }
  rewrite Forall_map in HF'. exact HF'.
Qed.
Lemma innermost_lists d segs outs : Forall2 (innermost P d) segs outs -> Forall2 (fun v w => match v, w with VList l, VList l' => innermost P d l l' | _, _ => False end) (map VList segs) (map VList outs).
Proof. induction 1; constructor; assumption. Qed.

Lemma main fuel : Main fuel.
Proof.
  induction fuel as [|fuel IH]; intros c groups starts n Hb Hd HR Hst HF; [pose proof (need_pos c); pose proof (need_bound c); lia|].
  assert (HLIST : forall l x, list_view c = Some (l, x) -> sortable arg c -> sorts (list_levels (form_of c)) groups (SN (S fuel) c 1 starts (runs 0 (map zlen groups)) n false)).
  { intros l x Hv HS. destruct (list_step fuel c l x _ starts (runs 0 (map zlen groups)) n false HS Hv Hd) as (o & c'' & A1 & A2 & A3 & A4 & A5 & ->).
    assert (Hff : form_of c = FList (form_of x) /\ bound c = S (bound x)) by (destruct c; try discriminate Hv; cbn [list_view] in Hv; injection Hv as _ <-; split; reflexivity).
    destruct Hff as [Hff Hbb]. assert (Hb3 : (bound c'' <= fuel)%nat) by lia. rewrite Hff in *. cbn [list_levels] in *. rewrite <- A4 in *.
    destruct (list_inv _ _ _ _ A1 eq_refl) as (ws & _ & _ & Evs). set (segs := map (seg ws) (pairs o)) in *. clearbody segs.
    assert (HLO : exists out outs, LOs fuel starts (runs 0 (map zlen groups)) n false o c'' = Ok (ListOffset o out) /\ den (ListOffset o out) = Some (concat outs) /\ Forall2 (innermost P (S (list_levels (form_of c'')))) groups outs).
    { unfold LOs. destruct (Z.eqb_spec (zlen o - 1) 0) as [Hz|Hz].
      - pose proof (den_length _ _ A1) as HL. cbn [length_] in HL. assert (HE : concat groups = []) by (apply zlen_0; lia).
        rewrite HE in A1. destruct (empty_sorts (S (list_levels (form_of c''))) groups (ListOffset o c'') HE A1) as (out & outs & E1 & E2 & E3). injection E1 as <-. eauto.
      - rewrite Evs in A1. destruct (LO_sorts fuel starts (runs 0 (map zlen groups)) n o c'' segs IH Hb3 A1 A2 A3) as (y & outs & E & Ed & H2).
        + eapply each_lists; [symmetry; exact Evs|exact HF].
        + rewrite E. cbn [bind]. apply innermost_lists in H2. rewrite <- Evs in H2. apply Forall2_groups in H2 as (os & Eos & H3). exists y, os. split; [reflexivity|]. split; [rewrite Ed, Eos; reflexivity|exact H3]. }
    destruct HLO as (out & outs & E & Ed & H2).
    assert (HG : forall k, (match c with Regular _ _ _ => k | _ => LOs fuel starts (runs 0 (map zlen groups)) n false o c'' end) = k \/ (match c with Regular _ _ _ => k | _ => LOs fuel starts (runs 0 (map zlen groups)) n false o c'' end) = LOs fuel starts (runs 0 (map zlen groups)) n false o c'') by (intros k; destruct c; auto).
    match goal with |- sorts _ _ (match c with Regular _ _ _ => ?k | _ => _ end) => destruct (HG k) as [->| ->] end.
    - destruct (Z.eqb_spec (length_ c) 0) as [Hz|Hz].
      + rewrite (den_length _ _ Hd) in Hz. apply zlen_0 in Hz. apply empty_sorts; [exact Hz|]. rewrite Hz in Hd. unfold nothing_to_sort. destruct arg; [reflexivity|exact Hd].
      + rewrite E. cbn [bind]. exists (ListOffset o out), outs. auto.
    - rewrite E. exists (ListOffset o out), outs. auto. }
  assert (HLEAF : match c with Empty | Numpy _ _ => True | _ => False end -> sorts (list_levels (form_of c)) groups (SN (S fuel) c 1 starts (runs 0 (map zlen groups)) n false)).
  { intros Hc. assert (E0 : list_levels (form_of c) = O) by (destruct c; try destruct Hc; reflexivity). rewrite E0 in *.
    destruct (leaf_groups (S fuel) c groups starts n Hc Hd HF ltac:(lia)) as (dt & ptr & outs & E & A & B). exists (Numpy dt ptr), outs. split; [exact E|]. split; [cbn [den]; rewrite A; reflexivity|exact B]. }
  destruct HR as [HS|[Harg [HW HO]]].
  - destruct c; try (destruct HS; fail); try (apply HLEAF; exact I); eapply HLIST; try reflexivity; exact HS.
  - assert (HX : forall c', form_of c = FOption (form_of c') -> without_index c = without_index c' -> match c' with Empty | Numpy _ _ => True | _ => False end).
    { intros c' E1 E2. rewrite E1 in HO. rewrite E2 in HW. destruct c'; try exact I; cbn in HO; try destruct HO; discriminate HW. }
    assert (HO0 : list_levels (form_of c) = O) by (destruct (form_of c); try destruct HO; reflexivity). rewrite HO0 in *.
    destruct c as [ |dt data|sts stp c'|offs c'|size zl c'|ix c'|ix c'|mk vw c'|mk vw lsb len c'|c'|keys len cs|utags uix cs]; try (cbn in HW; discriminate HW); try (destruct HO; fail); specialize (HX c' eq_refl eq_refl).
    all: assert (Hb2 : (2 <= S fuel)%nat) by (cbn [bound] in Hb; destruct c'; try destruct HX; cbn [bound] in Hb; lia).
    + apply option_groups; assumption.
    + destruct (to_indexed_option (ByteMasked mk vw c') _ Hd) as (ix & c'' & E & Ed & _); [eauto 7|]. pose proof (toindexedoption_shape _ _ E) as [i Ei]. cbn [below] in Ei. injection Ei as <- ->.
      assert (ES : SN (S fuel) (ByteMasked mk vw c') 1 starts (runs 0 (map zlen groups)) n false = SN (S fuel) (IndexedOption ix c') 1 starts (runs 0 (map zlen groups)) n false) by (cbn [sort_next]; rewrite E; reflexivity).
      rewrite ES. apply option_groups; assumption.
    + destruct (to_byte_masked (BitMasked mk vw lsb len c') _ Hd) as (m & v & c2 & E1 & Ed1 & _); [eauto 9|].
      assert (Ec : c2 = c') by (cbn [toByteMaskedArray] in E1; binv E1; mkinv E1; injection E1 as _ _ <-; reflexivity). subst c2.
      destruct (to_indexed_option (ByteMasked m v c') _ Ed1) as (ix & c'' & E & Ed & _); [eauto 7|]. pose proof (toindexedoption_shape _ _ E) as [i Ei]. cbn [below] in Ei. injection Ei as <- ->.
      assert (ES : SN (S fuel) (BitMasked mk vw lsb len c') 1 starts (runs 0 (map zlen groups)) n false = SN (S fuel) (IndexedOption ix c') 1 starts (runs 0 (map zlen groups)) n false) by (cbn [sort_next]; rewrite E1; cbn [bind]; rewrite E; reflexivity).
      rewrite ES. apply option_groups; assumption.
    + cbn [sort_next]. cbn [den] in Hd. destruct (Z.eqb_spec (length_ c') 0) as [Hz|Hz].
      * rewrite (den_length _ _ Hd) in Hz. apply zlen_0 in Hz. apply empty_sorts; [exact Hz|]. unfold nothing_to_sort. rewrite Harg. cbn [den]. rewrite Hd, Hz. reflexivity.
      * destruct (leaf_groups fuel c' groups starts n HX Hd HF ltac:(lia)) as (dt & ptr & outs & E & A & B). rewrite E. cbn [bind]. exists (Numpy dt ptr), outs. split; [reflexivity|]. split; [cbn [den]; rewrite A; reflexivity|exact B].
Qed.

(** ** the whole array *)
Lemma one_row x n ws : den x = Some ws -> zlen ws = n -> 0 < n -> exists r, mkRegular n n x = Ok r /\ den r = Some [VList ws] /\ length_ r = 1 /\ r = Regular n n x.
Proof.
  intros Hd Hz Hn. exists (Regular n n x). assert (HD : den (Regular n n x) = Some [VList ws]).
  { apply (regular_den n n x [ws]); [lia|lia| |cbn [concat]; rewrite app_nil_r; exact Hd]. intros l [<-|[]]. exact Hz. }
  pose proof (den_length _ _ HD) as HL. change (zlen [VList ws]) with 1 in HL. unfold mkRegular. rewrite HL. destruct (Z.ltb_spec n 0); [lia|]. change (1 <? 0) with false. cbv iota. auto.
Qed.
Definition finish (r : res content) : res item :=
  let* out := r in if length_ out =? 0 then let* nothing := getitem_nothing out in Ok (IArray nothing) else getitem_at_nowrap out 0.
Lemma finish_row out ws : den out = Some [VList ws] -> length_ out = 1 -> exists it, finish (Ok out) = Ok it /\ item_den it = Some (VList ws).
Proof.
  intros Hd HL. unfold finish. cbn [bind]. rewrite HL. change (1 =? 0) with false. cbv iota. apply (at_den out [VList ws] 0); [exact Hd|reflexivity].
Qed.
Lemma finish_nothing out l x ws : list_view out = Some (l, x) -> den x = Some ws -> length_ out = 0 -> exists it, finish (Ok out) = Ok it /\ item_den it = Some (VList []).
Proof.
  intros Hv Hd HL. unfold finish. cbn [bind]. rewrite HL. change (0 =? 0) with true. cbv iota.
  pose proof (zlen_nonneg ws). destruct (range_den x ws 0 0 Hd) as (y & Hy & Hdy); [lia|lia|].
  assert (E : getitem_nothing out = getitem_range_nowrap x 0 0) by (destruct out; try discriminate Hv; cbn [list_view] in Hv; injection Hv as _ <-; reflexivity).
  rewrite E, Hy. cbn [bind]. exists (IArray y). split; [reflexivity|]. cbn [item_den]. rewrite Hdy. cbn [option_map]. rewrite slice_empty by lia. reflexivity.
Qed.
Lemma finish_empty dt : exists it, finish (Ok (Numpy dt [])) = Ok it /\ item_den it = Some (VList []).
Proof. exists (IArray (Numpy dt [])). split; reflexivity. Qed.

Lemma numpy_top dt data : short (map (scalar dt) data) ->
  exists it ws, finish (numpy_sort real arg ascending stable dt data [0] (runs 0 [zlen data]) true) = Ok it /\ item_den it = Some (VList ws) /\ P (map (scalar dt) data) ws.
Proof.
  intros HQ. destruct (numpy_groups dt data [map (scalar dt) data] [0]) as (ptr & outs & E & A & B); [cbn [concat]; rewrite app_nil_r; reflexivity|constructor; [exact HQ|constructor]|].
  inversion B as [|? ws ? ? HP Hnil]; subst. inversion Hnil; subst. cbn [concat] in A. rewrite app_nil_r in A. cbn [map] in E. rewrite zlen_map in E.
  pose proof (P_zlen _ _ HP) as HL. rewrite zlen_map in HL. pose proof (zlen_nonneg data). assert (HLp : zlen ptr = zlen data) by (rewrite <- HL, <- A, zlen_map; reflexivity).
  destruct (Z.eqb_spec (zlen data) 0) as [Hz|Hz].
  - assert (data = []) as -> by (apply zlen_0; exact Hz). assert (ws = []) as -> by (apply zlen_0; rewrite HL; exact Hz).
    unfold numpy_sort in *. destruct arg.
    + rewrite andb_false_r in *. destruct (index_sort _ _ _ _ _) as [p| |]; try discriminate E. cbn [bind] in *. injection E as ->. assert (ptr = []) as -> by (apply zlen_0; lia).
      destruct (finish_nothing (Regular 0 0 (Numpy DInt [])) [] (Numpy DInt []) []) as (it & Hit & Hd); [reflexivity|reflexivity|reflexivity|]. exists it, []. split; [exact Hit|]. split; [exact Hd|exact HP].
    + destruct (finish_empty dt) as (it & Hit & Hd). exists it, []. split; [exact Hit|]. split; [exact Hd|exact HP].
  - assert (EK : numpy_sort real arg ascending stable dt data [0] (runs 0 [zlen data]) true = mkRegular (zlen data) (zlen data) (Numpy (if arg then DInt else dt) ptr)).
    { unfold numpy_sort in *. destruct (Z.eqb_spec (zlen data) 0); [lia|]. cbn [andb] in *. destruct (if arg then _ else _) as [p| |]; try discriminate E. cbn [bind] in *. injection E as ->.
      change (zlen [0] =? 0) with false. cbv iota. rewrite zlen_runs by (repeat constructor; lia). change (zlen [0]) with 1. rewrite Z.quot_1_r. unfold sumZ. cbn [fold_right map]. rewrite ?Z.add_0_r, ?Z.add_0_l. reflexivity. }
    rewrite EK. destruct (one_row (Numpy (if arg then DInt else dt) ptr) (zlen data) ws) as (r & -> & Hdr & Hlr & _); [cbn [den]; rewrite A; reflexivity|exact HL|lia|].
    destruct (finish_row r ws Hdr Hlr) as (it & Hit & Hd). exists it, ws. auto.
Qed.

Theorem top fuel c vs axis : (bound c <= fuel)%nat -> den c = Some vs -> sortable arg c -> each_innermost short (list_levels (form_of c)) vs ->
  axis = -1 \/ axis = Z.of_nat (list_levels (form_of c)) ->
  exists it ws, sort real is64 rc narrow refeq mfuel arg ascending stable fuel c axis = Ok it /\ item_den it = Some (VList ws) /\ innermost P (list_levels (form_of c)) vs ws.
Proof.
  intros Hb Hd HS HQ Hax. destruct (ready_levels arg c (or_introl HS)) as (d & Hlv & Hu & Ed). unfold sort. rewrite (levels_branch c d Hlv Hu).
  assert (HN : (let negaxis := if - axis <=? 0 then - axis + d else - axis in if negb ((0 <? negaxis) && (negaxis <=? d)) then Err "axis exceeds the depth of the nested list structure" else Ok negaxis) = Ok 1).
  { cbv zeta. destruct Hax as [->| ->].
    - change (- -1 <=? 0) with false. cbv iota. change (0 <? - -1) with true. destruct (Z.leb_spec (- -1) d); [reflexivity|lia].
    - destruct (Z.leb_spec (- Z.of_nat (list_levels (form_of c))) 0); [|lia]. replace (- Z.of_nat (list_levels (form_of c)) + d) with 1 by lia. destruct (Z.leb_spec 1 d); [reflexivity|lia]. }
  cbv zeta in HN. rewrite HN. cbn [bind]. pose proof (zlen_nonneg vs). rewrite (den_length _ _ Hd). rewrite zeros_run by lia. cbn [bind].
  fold (finish (SN fuel c 1 [0] (runs 0 [zlen vs]) 1 true)). destruct fuel as [|fuel]; [pose proof (need_pos c); pose proof (need_bound c); lia|].
  assert (HLIST : forall l x, list_view c = Some (l, x) -> exists it ws, finish (SN (S fuel) c 1 [0] (runs 0 [zlen vs]) 1 true) = Ok it /\ item_den it = Some (VList ws) /\ innermost P (list_levels (form_of c)) vs ws).
  { intros l x Hv. destruct (list_step fuel c l x vs [0] (runs 0 [zlen vs]) 1 true HS Hv Hd) as (o & c'' & A1 & A2 & A3 & A4 & A5 & ->).
    assert (Hff : form_of c = FList (form_of x) /\ bound c = S (bound x)) by (destruct c; try discriminate Hv; cbn [list_view] in Hv; injection Hv as _ <-; split; reflexivity).
    destruct Hff as [Hff Hbb]. assert (Hb3 : (bound c'' <= fuel)%nat) by lia. rewrite Hff in *. cbn [list_levels] in *. rewrite <- A4 in *.
    destruct (list_inv _ _ _ _ A1 eq_refl) as (ws & Hws & _ & Evs). set (segs := map (seg ws) (pairs o)) in *. clearbody segs.
    assert (HZ : zlen o - 1 = zlen vs) by (pose proof (den_length _ _ A1) as HL; cbn [length_] in HL; lia).
    destruct (list_inv _ _ _ _ Hd Hv) as (wx & Hwx & _ & _).
    destruct (Z.eqb_spec (zlen vs) 0) as [Hz|Hz].
    - assert (vs = []) as Hvn by (apply zlen_0; exact Hz).
      assert (HF : exists it, finish match c with
        | Regular _ _ _ => if length_ c =? 0 then Ok (nothing_to_sort arg c) else let* out := LOs fuel [0] (runs 0 [zlen vs]) 1 true o c'' in match out with Regular size _ (ListOffset offsets c') => let* inner := ListOffset_toRegularArray offsets c' in mkRegular size (length_ out) inner | _ => Ok out end
        | _ => LOs fuel [0] (runs 0 [zlen vs]) 1 true o c'' end = Ok it /\ item_den it = Some (VList [])).
      { assert (HLs : LOs fuel [0] (runs 0 [zlen vs]) 1 true o c'' = Ok (ListOffset o c'')) by (unfold LOs; rewrite HZ, Hz; reflexivity).
        assert (HF1 : exists it, finish (Ok (ListOffset o c'')) = Ok it /\ item_den it = Some (VList [])) by (eapply finish_nothing; [reflexivity|exact Hws|cbn [length_]; lia]).
        rewrite HLs. destruct c; try exact HF1. rewrite (den_length _ _ Hd), Hz. change (0 =? 0) with true. cbv iota. unfold nothing_to_sort. destruct arg; [apply finish_empty|].
        eapply finish_nothing; [reflexivity| |rewrite (den_length _ _ Hd); exact Hz]. cbn [list_view] in Hv. injection Hv as _ ->. exact Hwx. }
      destruct HF as (it & Hit & Hdi). exists it, []. split; [exact Hit|]. split; [exact Hdi|]. rewrite Hvn. apply P_nil.
    - assert (A1' : den (ListOffset o c'') = Some (map VList segs)) by (rewrite A1, Evs; reflexivity).
      destruct (LO_sorts fuel [0] (runs 0 [zlen vs]) 1 o c'' segs (main fuel) Hb3 A1' A2 A3) as (y & outs & E & Edy & H2).
      { eapply (each_lists _ segs [vs]); [cbn [concat]; rewrite app_nil_r; symmetry; exact Evs|]. constructor; [exact HQ|constructor]. }
      pose proof (innermost_lists _ _ _ H2) as H3. rewrite <- Evs in H3.
      assert (HLy : zlen (map VList outs) = zlen vs) by (symmetry; clear - H3; induction H3; [reflexivity|]; rewrite !zlen_cons; lia).
      destruct (one_row (ListOffset o y) (zlen vs) (map VList outs) Edy HLy) as (r & Er & Hdr & Hlr & Hr); [lia|].
      assert (HLs : LOs fuel [0] (runs 0 [zlen vs]) 1 true o c'' = Ok r).
      { unfold LOs. rewrite HZ. destruct (Z.eqb_spec (zlen vs) 0); [lia|]. rewrite E. cbn [bind length_]. rewrite HZ. exact Er. }
      rewrite HLs. destruct (finish_row r _ Hdr Hlr) as (it & Hit & Hdi).
      destruct c as [ |dt data|sts stp c'|offs c'|size zl c'|ix c'|ix c'|mk vw c'|mk vw lsb len c'|c'|keys len cs|utags uix cs]; try discriminate Hv; try (exists it, (map VList outs); split; [exact Hit|]; split; [exact Hdi|exact H3]).
      rewrite (den_length _ _ Hd). destruct (Z.eqb_spec (zlen vs) 0); [lia|]. cbn [bind]. rewrite Hlr. rewrite Hr. cbv iota.
      destruct (listoffset_toregular o y outs Edy) as [HT _].
      destruct HT as (sz & inner & Ei & Hdin).
      { intros s t Hs Ht. assert (HE : forall u, In u outs -> zlen u = size).
        { intros u Hu'. assert (HI : exists g, In g segs /\ zlen u = zlen g).
          { pose proof (groups_zlen _ _ _ H2) as Q. assert (Hm : In (zlen u) (map zlen outs)) by (apply in_map; exact Hu'). rewrite Q in Hm. apply in_map_iff in Hm as (g & Hg & Hin). eauto. }
          destruct HI as (g & Hg & ->). destruct (regular_inv _ _ _ _ Hd) as (ws' & segs' & _ & _ & Ev' & Hsz & _). rewrite Evs in Ev'. apply map_VList_inj in Ev'. apply Hsz. rewrite <- Ev'. exact Hg. }
        rewrite (HE s Hs), (HE t Ht). reflexivity. }
      { right. pose proof (offsets_inside _ _ _ Edy A2) as HO. rewrite Forall_forall in HO. destruct (nthZ_lt o (zlen o - 1)) as [b Hb']; [lia|]. exists 0, b. split; [exact A2|]. split; [exact Hb'|]. split; [lia|]. apply HO. eapply nthZ_In. exact Hb'. }
      rewrite Ei. cbn [bind]. unfold mkRegular at 1. 
      destruct (one_row (Regular sz (zlen outs) inner) (zlen vs) (map VList outs) Hdin HLy) as (r2 & Er2 & Hdr2 & Hlr2 & Hr2); [lia|].
      assert (EM : (if zlen vs <? 0 then Err "RegularArray size must be non-negative" else if length_ (Regular (zlen vs) 1 (Regular sz (zlen outs) inner)) <? 0 then Err "RegularArray zeros_length must be non-negative" else Ok (Regular (zlen vs) 1 (Regular sz (zlen outs) inner))) = Ok (Regular (zlen vs) 1 (Regular sz (zlen outs) inner))).
      { rewrite Hr2 in Hlr2. assert (HL1 : length_ (Regular (zlen vs) 1 (Regular sz (zlen outs) inner)) = 1) by (cbn [length_] in Hlr2 |- *; destruct (Z.eqb_spec (zlen vs) 0); [lia|exact Hlr2]). rewrite HL1. destruct (Z.ltb_spec (zlen vs) 0); [lia|reflexivity]. }
      rewrite EM. destruct (finish_row (Regular (zlen vs) 1 (Regular sz (zlen outs) inner)) (map VList outs)) as (it2 & Hit2 & Hdi2).
      + apply (regular_den _ _ _ [map VList outs]); [lia|lia| |cbn [concat]; rewrite app_nil_r; exact Hdin]. intros l' [<-|[]]. exact HLy.
      + rewrite Hr2 in Hlr2. cbn [length_] in Hlr2 |- *. destruct (Z.eqb_spec (zlen vs) 0); [lia|exact Hlr2].
      + exists it2, (map VList outs). auto. }
  destruct c as [ |dt data|sts stp c'|offs c'|size zl c'|ix c'|ix c'|mk vw c'|mk vw lsb len c'|c'|keys len cs|utags uix cs]; try (destruct HS; fail); try (eapply HLIST; reflexivity).
  - cbn [den] in Hd. injection Hd as <-. cbn [sort_next]. apply (numpy_top (if arg then DInt else DReal) []). exact HQ.
  - cbn [den] in Hd. injection Hd as <-. cbn [sort_next]. rewrite zlen_map. apply numpy_top. exact HQ.
Qed.
End Main.
