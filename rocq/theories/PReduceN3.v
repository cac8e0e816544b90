(** Proofs about the reducers along the outer axis of two: every layout. *)
From Verif Require Import Base BaseLemmas OmapLemmas LoopLemmas Content KCore Core KConvert Convert KOption Option KAxis Axis KMerge Merge KReduce Reduce SpecArray SpecForm SpecMerge SpecReduce
  PCore PCarry PList PConvert PForm PAxis PNat PPadK PNum PFlatten PAt PLocalIndex POption PReduceK PReduceF PReduceO PReduceL PReduceV PReduce PReduceTop PReduceN PReduceN2 PValid.

Lemma tolistoffset_unindexed w c l x o c'' : list_view c = Some (l, x) -> unindexed x = true -> toListOffsetArray64 w true c = Ok (ListOffset o c'') -> unindexed c'' = true.
Proof.
  intros Hv HZ H. unfold toListOffsetArray64 in H. destruct c; try discriminate Hv; cbn [list_view] in Hv; injection Hv as <- <-; binv H; try (injection H as <- <-; exact HZ);
    cbn [broadcast_tooffsets64] in H; unfold starts_at_0 in H; binv H; mkinv H; injection H as <- <-; first [exact HZ|match goal with K : carry _ _ _ = Ok _ |- _ => destruct (carry_kind _ _ _ _ K) as [_ K2]; apply K2; exact HZ end].
Qed.
Lemma pick_zeros fl : forall (vs : list value), zlen fl = zlen vs -> pick fl (repeat 0 (length vs)) = repeat 0 (length (pick fl vs)).
Proof.
  induction fl as [|b fl IH]; intros [|v vs] Hz; rewrite ?zlen_cons in Hz; try (change (zlen (@nil value)) with 0 in Hz); try (change (zlen (@nil bool)) with 0 in Hz);
    try (pose proof (zlen_nonneg fl)); try (pose proof (zlen_nonneg vs)); try lia; try reflexivity. simpl. rewrite IH by lia. destruct b; reflexivity.
Qed.

Section Outer.
Variable F : floats.
Variable is64 : content -> bool.
Variable rr : content -> bool.
Variable rc : Z -> Z.
Variable narrow : content -> bool.
Variable refeq : content -> content -> bool.
Variable mfuel : nat.
Variable r : reducer.
Variable mask : bool.
Notation pos := (returns_positions r).
Notation RN := (reduce_next F is64 rr rc narrow refeq mfuel r mask).
Notation redu := (red F r mask).
Notation LN := (LN F is64 rr rc narrow refeq mfuel r mask).

Definition Main2 (fuel : nat) : Prop := forall c vs starts shifts kd tags,
  (need c <= fuel)%nat -> den c = Some vs -> union_free (form_of c) = true -> levels (form_of c) = Some 2 -> zlen tags = zlen vs ->
  (pos = true -> plain_lists c = true /\ starts = [0] /\ tags = zseq 0 (zlen vs)) ->
  exists out, RN fuel c 2 starts shifts (repeat 0 (length vs)) 1 kd = Ok out /\ den out = Some [redu kd 2 (form_of c) (combine tags vs)].

(** ** lists *)
Lemma red_keep f ms l : has_levels (FList f) 2 = true -> VList l = redu false 2 (FList f) ms -> forall kd, redu kd 2 (FList f) ms = if kd then VList [VList l] else VList l.
Proof. intros Hl E kd. cbn [red] in *. rewrite Hl in *. cbv iota in E. rewrite <- E. reflexivity. Qed.
Lemma one_list_den x v : den x = Some [v] -> den (ListOffset [0; 1] x) = Some [VList [v]].
Proof. intros H. cbn [den]. rewrite H. reflexivity. Qed.

Lemma lists_two fuel o c' vs starts tags kd :
  den (ListOffset o c') = Some vs -> union_free (form_of c') = true -> levels (form_of c') = Some 1 -> (bound c' <= fuel)%nat -> zlen tags = zlen vs ->
  (pos = true -> unindexed c' = true /\ starts = [0] /\ tags = zseq 0 (zlen vs)) ->
  exists out, LN fuel starts (repeat 0 (length vs)) kd o c' = Ok out /\ den out = Some [redu kd 2 (FList (form_of c')) (combine tags vs)].
Proof.
  intros Hd Hu Hlv Hb Ht Hp. destruct (LN_good F is64 rr rc narrow refeq mfuel r mask fuel o c' vs starts tags kd Hd Hu Hlv Hb Ht Hp) as (s & t & x & l & E & Ed & El).
  assert (HL2 : has_levels (FList (form_of c')) 2 = true) by (apply has_levels_eq; cbn [levels]; rewrite Hlv; reflexivity).
  eexists. split; [exact E|]. rewrite (red_keep _ _ _ HL2 El kd). destruct kd; [apply one_list_den; exact Ed|exact Ed].
Qed.
Lemma regular_two fuel o c' c0 vs starts tags kd :
  den (ListOffset o c') = Some vs -> union_free (form_of c') = true -> levels (form_of c') = Some 1 -> (bound c' <= fuel)%nat -> zlen tags = zlen vs ->
  (pos = true -> unindexed c' = true /\ starts = [0] /\ tags = zseq 0 (zlen vs)) ->
  exists out, (let* out := LN fuel starts (repeat 0 (length vs)) kd o c' in if dimension_optiontype c0 then Ok out else regular_convert 2 2 kd out) = Ok out /\
    den out = Some [redu kd 2 (FList (form_of c')) (combine tags vs)].
Proof.
  intros Hd Hu Hlv Hb Ht Hp. destruct (LN_good F is64 rr rc narrow refeq mfuel r mask fuel o c' vs starts tags kd Hd Hu Hlv Hb Ht Hp) as (s & t & x & l & E & Ed & El).
  assert (HL2 : has_levels (FList (form_of c')) 2 = true) by (apply has_levels_eq; cbn [levels]; rewrite Hlv; reflexivity).
  rewrite E, (red_keep _ _ _ HL2 El kd). cbn [bind]. destruct (dimension_optiontype c0).
  { eexists. split; [reflexivity|]. destruct kd; [apply one_list_den; exact Ed|exact Ed]. }
  destruct (lista_toregular true [s] [t] x [l] Ed) as [R _]. destruct R as (size & c2 & ER & EdR). { intros a b [<-|[]] [<-|[]]. reflexivity. }
  unfold regular_convert. cbn [Z.eqb Pos.eqb Z.add Pos.add]. destruct kd; cbn [negb andb orb].
  - cbn [bind inner_toregular]. rewrite ER. cbn [bind]. eexists. split; [reflexivity|]. apply one_list_den. exact EdR.
  - change (2 + 2 =? 2) with false. cbn [bind inner_toregular]. rewrite ER. eexists. split; [reflexivity|]. exact EdR.
Qed.

(** ** option types *)
Lemma red_present2 kd f ms : has_levels f 2 = true -> (is_option f = false -> forall m, In m ms -> snd m <> VNone) ->
  redu kd 2 f (filter SpecReduce.present ms) = redu kd 2 f ms.
Proof.
  intros Hl H. destruct (is_option f) eqn:E.
  - destruct f; try discriminate. cbn [red]. change (has_levels (FOption f) 2) with (has_levels f 2) in Hl. rewrite Hl. rewrite filter_idem. reflexivity.
  - rewrite (filter_ext_in SpecReduce.present (fun _ => true)); [|intros m Hm; specialize (H eq_refl m Hm); unfold SpecReduce.present; destruct (snd m); congruence]. f_equal. clear H. induction ms as [|x ms IH]; [reflexivity|]. change (x :: filter (fun _ : member => true) ms = x :: ms). f_equal. exact IH.
Qed.
Lemma filter_pick {A} (q : A -> bool) fl : forall (T : list A), zlen fl = zlen T -> (forall i m, nthZ fl i = Some false -> nthZ T i = Some m -> q m = false) -> filter q (pick fl T) = filter q T.
Proof.
  induction fl as [|b fl IH]; intros [|m T] Hz H; rewrite ?zlen_cons in Hz; try (change (zlen (@nil A)) with 0 in Hz); try (change (zlen (@nil bool)) with 0 in Hz);
    try (pose proof (zlen_nonneg fl)); try (pose proof (zlen_nonneg T)); try lia; try reflexivity.
  assert (H' : forall i m0, nthZ fl i = Some false -> nthZ T i = Some m0 -> q m0 = false).
  { intros i m0 A1 A2. pose proof (nthZ_Some _ _ _ A1). apply (H (i + 1) m0); rewrite nthZ_cons; destruct (Z.eqb_spec (i + 1) 0); try lia; replace (i + 1 - 1) with i by lia; assumption. }
  specialize (IH T ltac:(lia) H'). destruct b; simpl; [rewrite IH; reflexivity|]. rewrite (H 0 m eq_refl eq_refl). exact IH.
Qed.
Lemma option_value2 kd c' ws vs tags fl nc : den c' = Some ws -> union_free (form_of c') = true -> has_levels (form_of c') 2 = true ->
  omap (nthZ ws) nc = Some (pick fl vs) -> zlen fl = zlen vs -> zlen tags = zlen vs -> (forall i, nthZ fl i = Some false -> nthZ vs i = Some VNone) ->
  redu kd 2 (FOption (form_of c')) (combine tags vs) = redu kd 2 (form_of c') (combine (pick fl tags) (pick fl vs)).
Proof.
  intros Hd Hu Hl N3 N2 Ht N4. cbn [red]. rewrite Hl. rewrite <- (red_present2 kd (form_of c') (combine (pick fl tags) (pick fl vs)) Hl).
  - f_equal. symmetry. rewrite pick_combine. apply filter_pick; [assert (QQ : zlen (combine tags vs) = zlen tags) by (apply zlen_combine; exact Ht); change (zlen fl = zlen (combine tags vs)); lia|]. intros i m Hi Hm. apply nthZ_combine_inv in Hm. rewrite (N4 i Hi) in Hm. unfold SpecReduce.present. injection Hm as <-. reflexivity.
  - intros Ho m Hm Hno. destruct m as [a v]. apply in_combine_r in Hm. cbn [snd] in Hno. subst v.
    destruct (PReduceV.omap_In _ _ _ _ N3 Hm) as (i & _ & Hi). apply nthZ_In in Hi. exact (not_none _ _ Hd Hu Ho Hi).
Qed.
Lemma unregular_two next vs : den next = Some vs -> exists next', unregular true next = Ok next' /\ den next' = Some vs /\ same next next'.
Proof.
  intros Hd. unfold unregular. destruct next as [ | | | |size zl c| | | | | | | ]; try (eexists; split; [reflexivity|]; split; [exact Hd|apply same_refl]).
  destruct (to_listoffset true true _ _ _ _ Hd eq_refl) as (o & c'' & E & Ed & E0). rewrite E. exists (ListOffset o c''). split; [reflexivity|]. split; [exact Ed|].
  destruct (tolistoffset_same _ _ _ _ E) as (o2 & c2 & E2 & S2). exact S2.
Qed.
Lemma option_two fuel c' f vs ws starts shifts kd tags next3 valid fl nc (make_shifts fromregular : bool) len :
  Main2 fuel -> pos = false -> den c' = Some ws -> next3_ok vs ws (repeat 0 (length vs)) next3 valid fl nc -> levels (form_of c') = Some 2 -> union_free (form_of c') = true ->
  (forall x, carry c' nc false = Ok x -> (need x <= fuel)%nat) -> (fromregular = true -> (bound c' <= fuel)%nat) -> zlen tags = zlen vs ->
  redu kd 2 f (combine tags vs) = redu kd 2 (form_of c') (combine (pick fl tags) (pick fl vs)) ->
  exists out, option_reduce r (fun nextshifts nextparents next => RN fuel next 2 starts nextshifts nextparents 1 kd) c' 2 starts next3 make_shifts
       (fun m => nextshifts_loop valid (fun i => if zlen shifts =? 0 then Ok 0 else rd shifts i) (alloc m) len) fromregular = Ok out /\ den out = Some [redu kd 2 f (combine tags vs)].
Proof.
  intros HM Hpos Hc (N1 & N2 & N3 & N4 & N5) Hl Hu Hneed Hbound Ht HV.
  unfold option_reduce. rewrite N1. cbn [bind]. rewrite (levels_branch _ _ Hl Hu). cbn [negb andb Z.eqb Pos.eqb]. rewrite andb_true_r, Hpos, andb_false_r. cbn [bind].
  destruct (carry_den c' ws nc _ false Hc N3) as (next & Hnext & Hdn). rewrite Hnext. cbn [bind]. destruct (carry_same _ _ _ _ Hnext) as [Hf Hb].
  assert (HR : exists next', (if fromregular then unregular true next else Ok next) = Ok next' /\ den next' = Some (pick fl vs) /\ form_of next' = form_of c' /\ (need next' <= fuel)%nat).
  { destruct fromregular.
    - destruct (unregular_two next _ Hdn) as (next' & E & Ed & S1 & S2). exists next'. split; [exact E|]. split; [exact Ed|]. split; [congruence|]. pose proof (need_bound next'). specialize (Hbound eq_refl). lia.
    - exists next. split; [reflexivity|]. split; [exact Hdn|]. split; [exact Hf|]. apply Hneed. exact Hnext. }
  destruct HR as (next' & -> & Hdn' & Hf' & Hn'). cbn [bind]. rewrite pick_zeros by exact N2.
  destruct (HM next' (pick fl vs) starts [] kd (pick fl tags) Hn' Hdn') as (out & E & Ed); try (rewrite Hf'; assumption).
  - apply zlen_pick. exact Ht.
  - congruence.
  - rewrite E. cbn [bind]. exists out. split; [reflexivity|]. rewrite Ed, HV, Hf'. reflexivity.
Qed.

(** ** records *)
Fixpoint flds2 (kd : bool) (ms : list member) (i : Z) (fs : list form) : list value :=
  match fs with
  | [] => []
  | f :: fs => redu kd 2 f (map (fun m => (fst m, field i (snd m))) ms) :: flds2 kd ms (i + 1) fs
  end.
Lemma red_record2 kd keys fs ms : redu kd 2 (FRecord keys fs) ms = mkrow keys (flds2 kd ms 0 fs).
Proof. cbn [red]. f_equal. generalize 0. induction fs as [|f fs IH]; intros i; [reflexivity|]. cbn [flds2]. f_equal. apply IH. Qed.
Lemma record_loop2 (f : content -> res content) kd (ms : list member) : forall cs i,
  (forall j c, nthZ cs j = Some c -> exists out, f c = Ok out /\ den out = Some [redu kd 2 (form_of c) (map (fun m => (fst m, field (i + j) (snd m))) ms)]) ->
  exists outs, mapres f cs = Ok outs /\ zlen outs = zlen cs /\ omap den outs = Some (map (fun v => [v]) (flds2 kd ms i (map form_of cs))).
Proof.
  induction cs as [|c cs IH]; intros i H.
  - exists []. repeat split.
  - destruct (H 0 c eq_refl) as (out & E & Ed). rewrite Z.add_0_r in Ed. destruct (IH (i + 1)) as (outs & E1 & E2 & E3).
    { intros j c1 Hj. pose proof (nthZ_Some _ _ _ Hj). destruct (H (j + 1) c1) as (o1 & A & B); [rewrite nthZ_cons; destruct (Z.eqb_spec (j + 1) 0); [lia|]; rewrite Z.add_simpl_r; exact Hj|].
      exists o1. split; [exact A|]. replace (i + 1 + j) with (i + (j + 1)) by lia. exact B. }
    exists (out :: outs). split; [simpl; rewrite E; cbn [bind]; rewrite E1; reflexivity|]. split; [rewrite !zlen_cons; lia|]. simpl. rewrite Ed, E3. reflexivity.
Qed.
Lemma record_two fuel keys len cs vs starts shifts kd tags :
  Main2 fuel -> pos = false -> (S (maxl (map bound cs)) <= S fuel)%nat -> den (Record keys len cs) = Some vs -> union_free (FRecord keys (map form_of cs)) = true -> levels (FRecord keys (map form_of cs)) = Some 2 -> zlen tags = zlen vs ->
  exists out, (let* contents := mapres (fun x => let* trimmed := getitem_range_nowrap x 0 len in RN fuel trimmed 2 starts shifts (repeat 0 (length vs)) 1 kd) cs in mkRecord keys 1 contents) = Ok out /\
    den out = Some [redu kd 2 (FRecord keys (map form_of cs)) (combine tags vs)].
Proof.
  intros HM Hpos Hb Hd Hu Hlv Ht. pose proof Hd as Hd0. cbn [den] in Hd. destruct (omap den cs) as [vss|] eqn:Ec; [|discriminate].
  destruct (0 <=? len) eqn:E0; [|discriminate]. destruct (keys_ok keys (zlen cs)) eqn:Ek; [|discriminate]. cbn [andb] in Hd. apply Z.leb_le in E0.
  pose proof (omap_zlen _ _ _ Hd) as Hvl. rewrite zlen_zseq in Hvl by lia.
  destruct (record_loop2 (fun x => let* trimmed := getitem_range_nowrap x 0 len in RN fuel trimmed 2 starts shifts (repeat 0 (length vs)) 1 kd) kd (combine tags vs) cs 0) as (outs & E1 & E2 & E3).
  { intros j c Hj. destruct (omap_nth _ _ _ _ _ Ec Hj) as [Eus [us Hus]]. rewrite Hus in Eus. symmetry in Eus.
    pose proof (record_fields _ _ _ _ _ _ _ Ec Hd0 Eus) as Hf. assert (Hlen : len <= zlen us).
    { assert (Hz : zlen (slice 0 len us) = zlen vs) by (rewrite <- Hf; apply zlen_map). destruct (Z.le_gt_cases len (zlen us)) as [|Hlt]; [assumption|]. exfalso.
      assert (zlen us < zlen vs) by lia. destruct (nthZ_lt (slice 0 len us) (zlen us)) as [v Hv]; [pose proof (zlen_nonneg us); lia|]. unfold slice in Hv. rewrite Z.sub_0_r in Hv. change (Z.to_nat 0) with 0%nat in Hv. cbn [skipn] in Hv.
      rewrite firstn_all2 in Hv by (unfold zlen in *; lia). apply nthZ_Some in Hv. lia. }
    destruct (range_den c us 0 len Hus) as (tr & Htrm & Hdt); [lia|lia|]. rewrite Htrm. cbn [bind]. destruct (range_same _ _ _ _ Htrm) as [Hft Hbt].
    pose proof (nthZ_In _ _ _ Hj) as Hinc. assert (Hinf : In (form_of c) (map form_of cs)) by (apply in_map; exact Hinc).
    pose proof (levels_record_all _ _ _ _ Hlv Hinf) as Hlc.
    assert (Huc : union_free (form_of c) = true). { change (forallb union_free (map form_of cs) = true) in Hu. rewrite forallb_forall in Hu. apply Hu. exact Hinf. }
    assert (Hlz : length vs = length (slice 0 len us)) by (rewrite <- Hf, map_length; reflexivity). rewrite Hlz.
    destruct (HM tr (slice 0 len us) starts shifts kd tags) as (out & E & Ed); try assumption; try (rewrite Hft; assumption).
    - pose proof (need_bound tr). pose proof (maxl_In (bound c) (map bound cs) ltac:(apply in_map; exact Hinc)). lia.
    - rewrite <- Hf, zlen_map. exact Ht.
    - congruence.
    - exists out. split; [exact E|]. rewrite Ed, Hft, <- Hf, combine_map_r, Z.add_0_l. reflexivity. }
  rewrite E1. cbn [bind].
  assert (EM : mkRecord keys 1 outs = Ok (Record keys 1 outs)).
  { unfold mkRecord. destruct keys as [ks|]; [|reflexivity]. cbn [keys_ok] in Ek. rewrite E2. unfold keys_ok in Ek. rewrite Ek. reflexivity. }
  exists (Record keys 1 outs). split; [exact EM|]. cbn [den]. rewrite E3, E2, Ek. cbn [Z.leb Z.compare andb]. rewrite zseq_cons by lia. rewrite zseq_nil by lia. cbn [omap]. rewrite omap_map.
  rewrite (omap_ext _ (fun v => Some v)) by reflexivity. rewrite omap_Some_map, map_id. cbn [option_map]. rewrite red_record2. reflexivity.
Qed.

(** ** every class *)
Theorem main2 fuel : Main2 fuel.
Proof.
  induction fuel as [|fuel IH]; intros c vs starts shifts kd tags Hneed Hd Hu Hlv Ht HP; [pose proof (need_pos c); lia|].
  destruct c as [ |dt data|sts stp c'|offs c'|size zl c'|ix c'|ix c'|mk vw c'|mk vw lsb len c'|c'|keys len cs|utags uix cs]; try discriminate Hlv.
  - (* ListA *)
    cbn [form_of levels] in Hlv. destruct (levels (form_of c')) as [d'|] eqn:Hlv'; [|discriminate]. cbn [option_map] in Hlv. assert (d' = 1) by (injection Hlv; lia). subst d'.
    destruct (to_listoffset (is64 (ListA sts stp c')) true _ _ _ _ Hd eq_refl) as (o & c'' & E & Ed & E0).
    destruct (tolistoffset_same _ _ _ _ E) as (o2 & c2 & E2 & [S1 S2]). injection E2 as <- <-. cbn [form_of] in S1. injection S1 as S1. cbn [bound] in S2. injection S2 as S2.
    cbn [reduce_next]. rewrite E. cbn [bind]. rewrite (levels_branch (ListOffset o c'') 2) by (cbn [form_of levels]; rewrite S1, ?Hlv'; first [reflexivity|exact Hu]).
    cbn [negb andb Z.eqb Pos.eqb form_of]. rewrite <- S1.
    apply (lists_two fuel o c'' vs starts tags kd); try assumption; try (rewrite S1; assumption).
    + cbn [need bound] in Hneed. lia.
    + intros Hpp. destruct (HP Hpp) as [A B]. split; [|exact B]. eapply tolistoffset_unindexed; [| |exact E]; [reflexivity|exact A].
  - (* ListOffset *)
    cbn [form_of levels] in Hlv. destruct (levels (form_of c')) as [d'|] eqn:Hlv'; [|discriminate]. cbn [option_map] in Hlv. assert (d' = 1) by (injection Hlv; lia). subst d'.
    cbn [reduce_next]. destruct (is64 (ListOffset offs c')).
    + rewrite (levels_branch (ListOffset offs c') 2) by (cbn [form_of levels]; rewrite ?Hlv'; first [reflexivity|exact Hu]). cbn [negb andb Z.eqb Pos.eqb form_of].
      apply (lists_two fuel offs c' vs starts tags kd); try assumption. cbn [need bound] in Hneed. lia.
    + destruct (to_listoffset false true _ _ _ _ Hd eq_refl) as (o & c'' & E & Ed & E0).
      destruct (tolistoffset_same _ _ _ _ E) as (o2 & c2 & E2 & [S1 S2]). injection E2 as <- <-. cbn [form_of] in S1. injection S1 as S1. cbn [bound] in S2. injection S2 as S2.
      rewrite E. cbn [bind]. rewrite (levels_branch (ListOffset o c'') 2) by (cbn [form_of levels]; rewrite S1, ?Hlv'; first [reflexivity|exact Hu]).
      cbn [negb andb Z.eqb Pos.eqb form_of]. rewrite <- S1.
      apply (lists_two fuel o c'' vs starts tags kd); try assumption; try (rewrite S1; assumption).
      * cbn [need bound] in Hneed. lia.
      * intros Hpp. destruct (HP Hpp) as [A B]. split; [|exact B]. eapply tolistoffset_unindexed; [| |exact E]; [reflexivity|exact A].
  - (* Regular *)
    cbn [form_of levels] in Hlv. destruct (levels (form_of c')) as [d'|] eqn:Hlv'; [|discriminate]. cbn [option_map] in Hlv. assert (d' = 1) by (injection Hlv; lia). subst d'.
    destruct (to_listoffset true true _ _ _ _ Hd eq_refl) as (o & c'' & E & Ed & E0).
    destruct (tolistoffset_same _ _ _ _ E) as (o2 & c2 & E2 & [S1 S2]). injection E2 as <- <-. cbn [form_of] in S1. injection S1 as S1. cbn [bound] in S2. injection S2 as S2.
    cbn [reduce_next]. rewrite E. cbn [bind]. rewrite (levels_branch (ListOffset o c'') 2) by (cbn [form_of levels]; rewrite S1, ?Hlv'; first [reflexivity|exact Hu]).
    rewrite (levels_branch (Regular size zl c') 2) by (cbn [form_of levels]; rewrite ?Hlv'; first [reflexivity|exact Hu]). cbn [snd].
    cbn [negb andb Z.eqb Pos.eqb form_of]. rewrite <- S1.
    apply (regular_two fuel o c'' c' vs starts tags kd); try assumption; try (rewrite S1; assumption).
    + cbn [need bound] in Hneed. lia.
    + intros Hpp. destruct (HP Hpp) as [A B]. split; [|exact B]. eapply tolistoffset_unindexed; [| |exact E]; [reflexivity|exact A].
  - (* Indexed *)
    assert (Hpos : pos = false) by (destruct pos; [destruct (HP eq_refl) as [A _]; discriminate A|reflexivity]).
    cbn [den] in Hd. destruct (den c') as [ws|] eqn:Ec; [|discriminate]. cbn [form_of] in *.
    assert (HI : Forall (fun i => 0 <= i) ix). { apply Forall_forall. intros i Hi. destruct (In_nthZ _ _ Hi) as [j Hj]. destruct (omap_nth _ _ _ _ _ Hd Hj) as [_ [y Hy]]. apply nthZ_Some in Hy. lia. }
    assert (Hd2 : den (IndexedOption ix c') = Some vs). { cbn [den]. rewrite Ec, <- Hd. apply omap_ext. intros i Hi. rewrite Forall_forall in HI. specialize (HI i Hi). destruct (Z.ltb_spec i 0); [lia|reflexivity]. }
    destruct (indexed_next3 ix c' ws vs (repeat 0 (length vs)) Ec Hd2 ltac:(rewrite zlen_repeat; reflexivity)) as (fl & nc & N & Efl).
    assert (Hall : forall A (l : list A), zlen l = zlen vs -> pick fl l = l).
    { intros A l Hl. assert (Hfl : fl = map (fun _ => true) ix) by (rewrite Efl; apply map_ext_in; intros i Hi; rewrite Forall_forall in HI; specialize (HI i Hi); apply Z.leb_le; exact HI).
      pose proof (omap_zlen _ _ _ Hd) as Hz. rewrite Hfl. rewrite Hz in Hl. clear - Hl. revert l Hl. induction ix as [|i ix IH]; intros [|x l] Hl; rewrite ?zlen_cons in Hl; simpl; try reflexivity.
      - pose proof (zlen_nonneg l). change (zlen (@nil Z)) with 0 in Hl. lia.
      - rewrite IH by lia. reflexivity. }
    cbn [reduce_next]. unfold indexed_reduce.
    apply (option_two fuel c' (form_of c') vs ws starts shifts kd tags _ (fun i => let* j := rd ix i in Ok (0 <=? j)) fl nc false false); try assumption.
    + intros x Hx. pose proof (carry_need ix _ _ _ Hx). lia.
    + discriminate.
    + rewrite (Hall _ tags), (Hall _ vs) by (assumption || reflexivity). reflexivity.
  - (* IndexedOption *)
    assert (Hpos : pos = false) by (destruct pos; [destruct (HP eq_refl) as [A _]; discriminate A|reflexivity]).
    pose proof Hd as Hd2. cbn [den] in Hd. destruct (den c') as [ws|] eqn:Ec; [|discriminate]. cbn [form_of levels union_free] in *.
    destruct (indexed_next3 ix c' ws vs (repeat 0 (length vs)) Ec Hd2 ltac:(rewrite zlen_repeat; reflexivity)) as (fl & nc & N & _). pose proof N as (N1 & N2 & N3 & N4 & N5).
    cbn [reduce_next]. unfold indexed_reduce.
    apply (option_two fuel c' (FOption (form_of c')) vs ws starts shifts kd tags _ (fun i => let* j := rd ix i in Ok (0 <=? j)) fl nc true true); try assumption.
    + intros x Hx. pose proof (need_bound x). destruct (carry_same _ _ _ _ Hx) as [_ B]. cbn [need bound] in Hneed. lia.
    + intros _. cbn [need bound] in Hneed. lia.
    + eapply option_value2; try eassumption. apply has_levels_eq. exact Hlv.
  - (* ByteMasked *)
    assert (Hpos : pos = false) by (destruct pos; [destruct (HP eq_refl) as [A _]; discriminate A|reflexivity]).
    pose proof Hd as Hd2. cbn [den] in Hd. destruct (den c') as [ws|] eqn:Ec; [|discriminate]. cbn [form_of levels union_free] in *.
    destruct (bytemasked_next3 mk vw c' ws vs (repeat 0 (length vs)) Ec Hd2 ltac:(rewrite zlen_repeat; reflexivity)) as (fl & nc & N). pose proof N as (N1 & N2 & N3 & N4 & N5).
    cbn [reduce_next]. unfold bytemasked_reduce.
    apply (option_two fuel c' (FOption (form_of c')) vs ws starts shifts kd tags _ (fun i => let* m := rd mk i in Ok (Bool.eqb (negb (m =? 0)) vw)) fl nc true true); try assumption.
    + intros x Hx. pose proof (need_bound x). destruct (carry_same _ _ _ _ Hx) as [_ B]. cbn [need bound] in Hneed. lia.
    + intros _. cbn [need bound] in Hneed. lia.
    + eapply option_value2; try eassumption. apply has_levels_eq. exact Hlv.
  - (* BitMasked *)
    assert (Hpos : pos = false) by (destruct pos; [destruct (HP eq_refl) as [A _]; discriminate A|reflexivity]).
    destruct (bitmasked_den _ _ _ _ _ _ Hd) as [HL Hd2]. set (bm := map (fun i => b2z (maskval mk lsb i)) (zseq 0 len)) in *.
    pose proof Hd as Hd3. cbn [den] in Hd3. destruct (den c') as [ws|] eqn:Ec; [|discriminate]. clear Hd3. cbn [form_of levels union_free] in *.
    destruct (bytemasked_next3 bm vw c' ws vs (repeat 0 (length vs)) Ec Hd2 ltac:(rewrite zlen_repeat; reflexivity)) as (fl & nc & N). pose proof N as (N1 & N2 & N3 & N4 & N5).
    cbn [reduce_next toByteMaskedArray]. rewrite bytemask0_spec by exact HL. fold bm. cbn [bind].
    assert (EM : mkByteMasked bm vw c' = Ok (ByteMasked bm vw c')).
    { unfold mkByteMasked. rewrite (den_length _ _ Ec). cbn [den] in Hd2. rewrite Ec in Hd2. destruct (Z.leb_spec (zlen bm) (zlen ws)); [|discriminate]. destruct (Z.ltb_spec (zlen ws) (zlen bm)); [lia|reflexivity]. }
    rewrite EM. cbn [bind]. unfold bytemasked_reduce.
    apply (option_two fuel c' (FOption (form_of c')) vs ws starts shifts kd tags _ (fun i => let* m := rd bm i in Ok (Bool.eqb (negb (m =? 0)) vw)) fl nc true true); try assumption.
    + intros x Hx. pose proof (need_bound x). destruct (carry_same _ _ _ _ Hx) as [_ B]. cbn [need bound] in Hneed. lia.
    + intros _. cbn [need bound] in Hneed. lia.
    + eapply option_value2; try eassumption. apply has_levels_eq. exact Hlv.
  - (* Unmasked *)
    assert (Hpos : pos = false) by (destruct pos; [destruct (HP eq_refl) as [A _]; discriminate A|reflexivity]).
    cbn [den] in Hd. cbn [need bound] in Hneed. cbn [form_of levels union_free] in *. cbn [reduce_next].
    destruct (unregular_two c' vs Hd) as (next & EU & Hdn & [S1 S2]). rewrite EU. cbn [bind].
    destruct (IH next vs starts shifts kd tags) as (out & E & Ed); try assumption; try (rewrite S1; assumption).
    + pose proof (need_bound next). lia.
    + congruence.
    + exists out. split; [exact E|]. rewrite Ed, S1. f_equal. f_equal. assert (Hl2 : has_levels (form_of c') 2 = true) by (apply has_levels_eq; exact Hlv). cbn [red]. rewrite Hl2. symmetry. apply red_present2; [exact Hl2|].
      intros Ho m Hm Hno. destruct m as [a v]. apply in_combine_r in Hm. cbn [snd] in Hno. subst v. exact (not_none _ _ Hd Hu Ho Hm).
  - (* Record *)
    assert (Hpos : pos = false) by (destruct pos; [destruct (HP eq_refl) as [A _]; discriminate A|reflexivity]).
    cbn [form_of] in *. cbn [reduce_next]. apply record_two; try assumption.
  - (* Union *)
    discriminate.
Qed.
End Outer.

Lemma reduce_outer F is64 rr rc narrow refeq mfuel r mask c vs axis kd :
  den c = Some vs -> union_free (form_of c) = true -> levels (form_of c) = Some 2 -> (returns_positions r = true -> plain_lists c = true) -> axis = 0 \/ axis = -2 ->
  forall fuel, (need c <= fuel)%nat ->
  exists it, reduce F is64 rr rc narrow refeq mfuel r mask fuel c axis kd = Ok it /\ item_den it = Some (red F r mask kd 2 (form_of c) (enumerate vs)).
Proof.
  intros Hd Hu Hlv HP Hax fuel Hfuel. unfold reduce. rewrite (levels_branch _ _ Hlv Hu).
  assert (EN : (if - axis <=? 0 then - axis + 2 else - axis) = 2) by (destruct (Z.leb_spec (- axis) 0); lia). rewrite EN.
  change (0 <? 2) with true. change (2 <=? 2) with true. cbn [andb negb bind].
  pose proof (zlen_nonneg vs). rewrite (den_length _ _ Hd). rewrite zeros_run by lia. cbn [bind].
  assert (Er : runs 0 [zlen vs] = repeat 0 (length vs)) by (cbn [runs]; rewrite app_nil_r; unfold zlen; rewrite Nat2Z.id; reflexivity). rewrite Er.
  destruct (main2 F is64 rr rc narrow refeq mfuel r mask fuel c vs [0] [] kd (zseq 0 (zlen vs)) Hfuel Hd Hu Hlv) as (out & E & Ed).
  - rewrite zlen_zseq; lia.
  - intros Hpp. split; [exact (HP Hpp)|]. split; reflexivity.
  - rewrite E. cbn [bind]. exact (at_den out _ 0 _ Ed eq_refl).
Qed.
