(** Proofs about num. *)
From Verif Require Import Base BaseLemmas OmapLemmas LoopLemmas Content KCore Core KConvert Convert KOption Option KAxis Axis KMerge Merge Num SpecArray SpecForm SpecAxis SpecMerge SpecNum
  PCore PCarry PList PConvert POption PForm PAxis PNat PPadK.

Lemma zb_all k cs : fold_right and True (map (zero_based k) cs) <-> Forall (zero_based k) cs.
Proof. induction cs as [|c cs IH]; simpl; [split; auto|]. rewrite IH. split; [intros []; constructor; assumption|intros H; inversion H; auto]. Qed.
Lemma mapres_P (P : content -> Prop) (f : content -> res content) cs cs' : Forall (fun c => P c -> forall c', f c = Ok c' -> P c') cs -> Forall P cs -> mapres f cs = Ok cs' -> Forall P cs'.
Proof.
  intros HF; revert cs'; induction HF as [|c cs Hc _ IH]; intros cs' HP H; simpl in H; [injection H as <-; constructor|].
  inversion HP; subst. binv H. injection H as <-. constructor; eauto.
Qed.
Lemma iview_head (o : list Z) n (o' : list Z) : iview 0 (n + 1) o = Ok o' -> zlen o' <> 0 -> nthZ o' 0 = nthZ o 0.
Proof.
  unfold iview. intros H Hn. destruct (_ && _); [discriminate|]. destruct (Z.eqb_spec 0 (n + 1)) as [E|E]; [injection H as <-; destruct (Hn eq_refl)|].
  destruct (Z.ltb_spec (n + 1) 0); [discriminate|]. injection H as <-. rewrite nthZ_slice by lia. reflexivity.
Qed.
Lemma range_zb c : forall k n c', zero_based k c -> getitem_range_nowrap c 0 n = Ok c' -> zero_based k c'.
Proof.
  induction c using content_ind'; intros k n' c' HZ H0; simpl in H0; binv H0; try (mkinv H0; subst; exact HZ).
  - unfold mkListOffset in H0. destruct (Z.eqb_spec (zlen a) 0) as [|Hne]; [discriminate|]. injection H0 as <-. cbn [zero_based] in *. destruct (k =? 1); [exact I|]. destruct HZ as [A B]. split; [|exact B].
    rewrite (iview_head _ _ _ E Hne). exact A.
  - mkinv H0; subst. cbn [zero_based] in *. destruct (k =? 1); [exact I|]. eapply IHc; [exact HZ|exact E].
  - mkinv H0; subst. cbn [zero_based] in *. eapply IHc; [exact HZ|exact E0].
  - mkinv H0; subst. cbn [zero_based] in *. eapply IHc; [exact HZ|exact E2].
  - injection H0 as <-. cbn [zero_based] in *. eapply IHc; [exact HZ|exact E].
  - destruct cs as [|c0 cs]; [mkinv H0; subst; exact HZ|]. binv H0; [injection H0 as <-; exact HZ|].
    mkinv H0; subst. cbn [zero_based] in *. rewrite zb_all in *. eapply (mapres_P (zero_based k)); [|exact HZ|exact E].
    eapply Forall_impl; [|exact H]. intros x Hx Hz x' Hx'. eapply Hx; [exact Hz|exact Hx'].
Qed.
Lemma contiguous_zb k c cry kk c' : zero_based k c -> carry_contiguous c cry kk = Ok c' -> (kk tt = Ok c' -> zero_based k c') -> zero_based k c'.
Proof.
  unfold carry_contiguous; intros HZ H Hk. binv H.
  - injection H as <-. exact HZ.
  - eapply range_zb; [exact HZ|exact H].
  - auto.
Qed.
Lemma carry_zb c : forall k cry lz c', zero_based k c -> carry c cry lz = Ok c' -> zero_based k c'.
Proof.
  induction c using content_ind'; intros k cry lz c' HZ H0; cbn [carry] in H0;
    try (eapply contiguous_zb; [exact HZ|exact H0|clear H0; intros H0; cbv beta in H0]); binv H0; try (mkinv H0; subst; exact HZ).
  - mkinv H0; subst. cbn [zero_based] in *. destruct (k =? 1); [exact I|]. apply HZ.
  - mkinv H0; subst. cbn [zero_based] in *. destruct (k =? 1); [exact I|]. eapply IHc; [exact HZ|exact E0].
  - mkinv H0; subst. cbn [zero_based] in *. eapply IHc; [exact HZ|exact E0].
  - eapply (contiguous_zb k (ByteMasked a vw c)); [exact HZ|exact H0|clear H0; intros H0; cbv beta in H0]. binv H0. mkinv H0; subst. cbn [zero_based] in *. eapply IHc; [exact HZ|exact E2].
  - injection H0 as <-. cbn [zero_based] in *. eapply IHc; [exact HZ|exact E].
  - eapply contiguous_zb; [exact HZ|exact H0|clear H0; intros H0; cbv beta in H0]. binv H0. mkinv H0; subst. cbn [zero_based] in *. rewrite zb_all in *. eapply (mapres_P (zero_based k)); [|exact HZ|exact E].
    eapply Forall_impl; [|exact H]. intros x Hx Hz x' Hx'. eapply Hx; [exact Hz|exact Hx'].
Qed.
Lemma tolistoffset_zb w k starts stops c o c'' : zero_based k c -> toListOffsetArray64 w true (ListA starts stops c) = Ok (ListOffset o c'') -> zero_based k c''.
Proof.
  intros HZ H. unfold toListOffsetArray64 in H. binv H. cbn [broadcast_tooffsets64] in H. unfold starts_at_0 in H. binv H. mkinv H. injection H as <- <-. eapply carry_zb; [exact HZ|eassumption].
Qed.

Lemma regular_num_kernel size n : 0 <= n -> awkward_RegularArray_num (alloc n) size n = Ok (map (fun _ => size) (zseq 0 n)).
Proof. intros Hn. unfold awkward_RegularArray_num. apply for_fill_all; [rewrite zlen_alloc; lia|reflexivity]. Qed.
Lemma list_num_kernel starts stops n : n = zlen starts -> n <= zlen stops -> awkward_ListArray_num (alloc n) starts stops n = Ok (map diff (combine starts stops)).
Proof.
  intros -> Hs. unfold awkward_ListArray_num. pose proof (zlen_nonneg starts).
  rewrite (for_fill_all _ (fun i => match nthZ (combine starts stops) i with Some ab => diff ab | None => 0 end)).
  - f_equal. apply list_eqZ; rewrite !zlen_map, zlen_zseq by lia; [rewrite zlen_combine_le by lia; lia|]. intros i Hi. rewrite !nthZ_map, nthZ_zseq by lia. cbn [option_map]. replace (0 + i) with i by lia.
    destruct (nthZ_lt (combine starts stops) i) as [ab E]; [rewrite zlen_combine_le by lia; lia|]. rewrite E. reflexivity.
  - rewrite zlen_alloc; lia.
  - intros i out Hi _. destruct (nthZ_lt starts i) as [a Ea]; [lia|]. destruct (nthZ_lt stops i) as [b Eb]; [lia|]. rewrite nthZ_combine, Ea, Eb. unfold rd. rewrite Ea, Eb. reflexivity.
Qed.
Lemma count_lists c l c' vs : den c = Some vs -> list_view c = Some (l, c') -> map VInt (map diff l) = map (lift count 1) vs.
Proof.
  intros Hd Hv. destruct (list_inv _ _ _ _ Hd Hv) as (ws & Hc & Hok & ->). rewrite (view_counts _ _ _ _ Hd Hv). rewrite !map_map. apply map_ext. reflexivity.
Qed.

Section Num.
Variable is64 : content -> bool.
Variable rc : Z -> Z.
Variable narrow : content -> bool.
Variable refeq : content -> content -> bool.
Variable mfuel : nat.

Lemma num_good fuel : forall c axis depth vs, (need c <= fuel)%nat -> den c = Some vs -> 0 <= depth < axis -> union_free (form_of c) = true -> zero_based (axis - depth) c ->
  good (num_next is64 rc narrow refeq mfuel fuel c axis depth)
       (if has_axis (axis - depth) (form_of c) then Some (map (lift count (axis - depth)) vs) else None).
Proof.
  induction fuel as [|fuel IH]; intros c axis depth vs Hf Hd Ha Hu HZ.
  { pose proof (need_pos c). lia. }
  assert (Hw : axis_wrap_if_negative c axis = Ok axis) by (apply wrap_nonneg; lia).
  assert (LO : forall w o x, den (ListOffset o x) = Some vs -> (bound x <= fuel)%nat -> union_free (form_of x) = true ->
     (axis = depth + 1 \/ nthZ o 0 = Some 0 /\ zero_based (axis - depth - 1) x) ->
     good (if axis =? depth + 1 then
             let* starts := make_starts o in let* stops := make_stops o in
             let* tonum := awkward_ListArray_num (alloc (zlen o - 1)) starts stops (zlen o - 1) in Ok (Numpy DInt tonum)
           else let* next := num_next is64 rc narrow refeq mfuel fuel x axis (depth + 1) in
                let* offsets := compact_offsets64 w true (ListOffset o x) in mkListOffset offsets next)
          (if (if axis - depth =? 1 then true else has_axis (axis - depth - 1) (form_of x)) then Some (map (lift count (axis - depth)) vs) else None)).
  { intros w o x Dx Bx Ux Zx. assert (Ho : 1 <= zlen o) by (cbn [den] in Dx; destruct (den x); [|discriminate]; destruct (Z.leb_spec 1 (zlen o)); [assumption|discriminate]).
    destruct (Z.eqb_spec axis (depth + 1)) as [->|Hne].
    - replace (depth + 1 - depth) with 1 by lia. rewrite Z.eqb_refl. rewrite make_starts_spec, make_stops_spec by assumption. cbn [bind]. rewrite list_num_kernel by (rewrite zlen_slice; lia). cbn [bind].
      eexists. split; [reflexivity|]. cbn [den]. f_equal. rewrite combine_starts_stops by assumption. exact (count_lists _ _ _ _ Dx eq_refl).
    - destruct (Z.eqb_spec (axis - depth) 1); [lia|]. destruct Zx as [Zx|[Z0 Zx]]; [lia|]. destruct (content_inv1 _ _ Dx) as [ws Hws]. cbn [below] in Hws. pose proof (need_bound x).
      assert (G : good (num_next is64 rc narrow refeq mfuel fuel x axis (depth + 1)) (if has_axis (axis - (depth + 1)) (form_of x) then Some (map (lift count (axis - (depth + 1))) ws) else None)).
      { apply IH; try assumption; try lia. replace (axis - (depth + 1)) with (axis - depth - 1) by lia. exact Zx. }
      replace (axis - (depth + 1)) with (axis - depth - 1) in G by lia. destruct (has_axis (axis - depth - 1) (form_of x)).
      + destruct G as (c' & -> & Hc'). cbn [bind].
        pose proof (nat_listoffset (lift count (axis - depth - 1)) (lift count (axis - depth)) _ _ _ _ _ (fun l => lift_list count (axis - depth) l ltac:(lia)) Hws Hc' Dx) as D.
        destruct (list_inv _ _ _ _ Dx eq_refl) as (ws' & _ & _ & Evs). rewrite Evs in Dx. rewrite (compact_den w _ _ _ _ Dx eq_refl), <- (view_counts _ _ _ _ Dx eq_refl). cbn [bind].
        destruct (offsets_diffs o Ho) as (a & Ea & Eo). rewrite Z0 in Ea. injection Ea as <-. unfold offsets_of. rewrite <- Eo. rewrite (mkListOffset_den _ _ _ D). eexists. split; [reflexivity|exact D].
      + destruct G as (m & ->). exists m. reflexivity. }
  destruct c; cbn [num_next]; rewrite Hw; cbn [bind]; (destruct (Z.eqb_spec axis depth); [lia|]); cbn [form_of has_axis]; cbn [need bound] in Hf.
  - cbn [den] in Hd. injection Hd as <-. exists (Numpy DInt []). split; reflexivity.
  - eexists. reflexivity.
  - (* ListA *) destruct (Z.eqb_spec axis (depth + 1)) as [->|Hne].
    + replace (depth + 1 - depth) with 1 by lia. rewrite Z.eqb_refl.
      assert (Hl : zlen starts <= zlen stops) by (cbn [den] in Hd; destruct (den c); [|discriminate]; destruct (Z.leb_spec (zlen starts) (zlen stops)); [assumption|discriminate]).
      rewrite list_num_kernel by lia. cbn [bind]. eexists. split; [reflexivity|]. cbn [den]. f_equal. exact (count_lists _ _ _ _ Hd eq_refl).
    + cbn [zero_based] in HZ. destruct (Z.eqb_spec (axis - depth) 1); [lia|].
      destruct (to_listoffset (is64 (ListA starts stops c)) true _ _ _ _ Hd eq_refl) as (o & c'' & E & D & O0). rewrite E. cbn [bind].
      destruct (tolistoffset_same _ _ _ _ E) as (o' & x & Eq & S1 & S2). injection Eq as <- <-. cbn [form_of bound] in S1, S2. injection S1 as S1. injection S2 as S2.
      pose proof (LO true o c'' D ltac:(lia) ltac:(rewrite S1; exact Hu)) as G. rewrite S1 in G. destruct (Z.eqb_spec axis (depth + 1)); [lia|]. destruct (Z.eqb_spec (axis - depth) 1); [lia|].
      apply G. right. split; [apply O0; reflexivity|]. eapply tolistoffset_zb; [exact HZ|exact E].
  - (* ListOffset *) apply LO; [exact Hd|lia|exact Hu|]. cbn [zero_based] in HZ. destruct (Z.eqb_spec (axis - depth) 1); [left; lia|right; exact HZ].
  - (* Regular *) rewrite (den_length _ _ Hd). destruct (Z.eqb_spec axis (depth + 1)) as [->|Hne].
    + replace (depth + 1 - depth) with 1 by lia. rewrite Z.eqb_refl. rewrite regular_num_kernel by apply zlen_nonneg. cbn [bind]. eexists. split; [reflexivity|]. cbn [den]. f_equal.
      rewrite <- (count_lists _ _ _ _ Hd eq_refl), (den_length _ _ Hd), !map_map. apply map_ext. intros i. unfold diff. cbn [fst snd scalar]. f_equal. lia.
    + cbn [zero_based] in HZ. destruct (Z.eqb_spec (axis - depth) 1); [lia|]. destruct (regular_inv _ _ _ _ Hd) as (ws & segs & Hws & Hs & -> & Hl & Hi & Hz & Hn). rewrite zlen_map. pose proof (need_bound c).
      pose proof (IH c axis (depth + 1) ws ltac:(lia) Hws ltac:(lia) Hu) as G. replace (axis - (depth + 1)) with (axis - depth - 1) in G by lia. specialize (G HZ). destruct (has_axis (axis - depth - 1) (form_of c)).
      * destruct G as (c' & -> & Hc'). cbn [bind].
        pose proof (nat_regular (lift count (axis - depth - 1)) (lift count (axis - depth)) size zeros_length (zlen segs) _ _ _ _ (fun l => lift_list count (axis - depth) l ltac:(lia)) (fun E => eq_sym (Hz E)) Hws Hc' Hd) as D.
        rewrite (mkRegular_den _ _ _ _ D). eexists. split; [reflexivity|exact D].
      * destruct G as (m & ->). exists m. reflexivity.
  - (* Indexed *) destruct (project_indexed _ _ _ Hd) as (p & E & Hp & F & B). rewrite E. cbn [bind]. rewrite <- F. cbn [zero_based] in HZ. cbn [form_of] in Hu, F. apply IH; [|exact Hp|exact Ha|rewrite F; exact Hu|].
    + pose proof (project_need _ _ _ E) as PN. cbn [need bound] in PN. lia.
    + cbn [project] in E. binv E. eapply carry_zb; [exact HZ|exact E].
  - cbn [zero_based] in HZ. apply option_path_of_good'; [exact Hd|reflexivity|reflexivity|]. cbn [below]. intros nc next ws E Hn. destruct (carry_same _ _ _ _ E) as [F B]. rewrite <- F. apply IH; [|exact Hn|exact Ha|rewrite F; exact Hu|exact (carry_zb _ _ _ _ _ HZ E)].
    pose proof (need_bound next). lia.
  - cbn [zero_based] in HZ. apply option_path_of_good'; [exact Hd|reflexivity|reflexivity|]. cbn [below]. intros nc next ws E Hn. destruct (carry_same _ _ _ _ E) as [F B]. rewrite <- F. apply IH; [|exact Hn|exact Ha|rewrite F; exact Hu|exact (carry_zb _ _ _ _ _ HZ E)].
    pose proof (need_bound next). lia.
  - cbn [zero_based] in HZ. apply option_path_of_good'; [exact Hd|reflexivity|reflexivity|]. cbn [below]. intros nc next ws E Hn. destruct (carry_same _ _ _ _ E) as [F B]. rewrite <- F. apply IH; [|exact Hn|exact Ha|rewrite F; exact Hu|exact (carry_zb _ _ _ _ _ HZ E)].
    pose proof (need_bound next). lia.
  - (* Unmasked *) cbn [den] in Hd. cbn [zero_based] in HZ. pose proof (need_bound c). pose proof (IH c axis depth vs ltac:(lia) Hd Ha Hu HZ) as G. destruct (has_axis (axis - depth) (form_of c)).
    + destruct G as (c' & -> & Hc'). cbn [bind]. eexists. split; [reflexivity|exact Hc'].
    + destruct G as (m & ->). exists m. reflexivity.
  - (* Record *) destruct (record_inv _ _ _ _ Hd) as [vss Hvss]. rewrite forallb_map. eapply record_good; [apply lift_row|exact Hvss|exact Hd|].
    cbn [form_of union_free] in Hu. rewrite forallb_map, forallb_forall in Hu. cbn [zero_based] in HZ. rewrite zb_all, Forall_forall in HZ.
    apply (mapres_good (fun x => num_next is64 rc narrow refeq mfuel fuel x axis depth) (lift count (axis - depth)) (fun x => has_axis (axis - depth) (form_of x)) contents vss Hvss).
    intros x us Hin Hx. apply IH; [|exact Hx|exact Ha|apply Hu; exact Hin|apply HZ; exact Hin]. pose proof (need_bound x). pose proof (maxl_In _ _ (in_map bound _ _ Hin)). lia.
  - discriminate.
Qed.
End Num.
