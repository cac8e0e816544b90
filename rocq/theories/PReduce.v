(** Proofs about the reducers along the innermost axis. *)
From Verif Require Import Base BaseLemmas OmapLemmas LoopLemmas Content KCore Core KConvert Convert KOption Option KAxis Axis KMerge Merge KReduce Reduce SpecArray SpecForm SpecMerge SpecReduce
  PCore PCarry PList PConvert PForm PAxis PNat PPadK PNum PFlatten PAt PLocalIndex POption PReduceK PReduceF PReduceO PReduceL PReduceV.

Definition zero_list (out : content) : Prop := match out with ListOffset o _ => nthZ o 0 = Some 0 | ListA _ _ _ => False | _ => True end.
Definition is_record (c : content) : bool := match c with Record _ _ _ => true | _ => false end.

Lemma members_pick {A} (q : A -> bool) fl : forall parents (T : list A) g, zlen fl = zlen T -> (forall i m, nthZ fl i = Some false -> nthZ T i = Some m -> q m = false) ->
  filter q (members (pick fl parents) (pick fl T) g) = filter q (members parents T g).
Proof.
  unfold members. induction fl as [|b fl IH]; intros [|p parents] [|m T] g Hz H; rewrite ?zlen_cons in Hz; try (change (zlen (@nil A)) with 0 in Hz); try (change (zlen (@nil bool)) with 0 in Hz);
    try (pose proof (zlen_nonneg fl)); try (pose proof (zlen_nonneg T)); try lia; try (simpl; rewrite ?pick_nil; reflexivity).
  - assert (H' : forall i m0, nthZ fl i = Some false -> nthZ T i = Some m0 -> q m0 = false).
    { intros i m0 A1 A2. pose proof (nthZ_Some _ _ _ A1). apply (H (i + 1) m0); rewrite nthZ_cons; destruct (Z.eqb_spec (i + 1) 0); try lia; replace (i + 1 - 1) with i by lia; assumption. }
    specialize (IH parents T g ltac:(lia) H'). destruct b; simpl.
    + destruct (p =? g); simpl; [destruct (q m); rewrite IH; reflexivity|exact IH].
    + rewrite IH. destruct (p =? g); simpl; [|reflexivity]. rewrite (H 0 m eq_refl eq_refl). reflexivity.
Qed.
Lemma ranks_pick H fl : forall vs pre tail, zlen fl = zlen vs -> (forall i, nthZ fl i = Some false -> nthZ vs i = Some VNone) -> H VNone = VNone ->
  omap (fun i => if i <? 0 then Some VNone else nthZ (pre ++ map H (pick fl vs) ++ tail) i) (ranks (fun b : bool => b) (zlen pre) fl) = Some (map H vs).
Proof.
  induction fl as [|b fl IH]; intros [|v vs] pre tail Hz HF HN; rewrite ?zlen_cons in Hz; try (change (zlen (@nil value)) with 0 in Hz); try (change (zlen (@nil bool)) with 0 in Hz);
    try (pose proof (zlen_nonneg fl)); try (pose proof (zlen_nonneg vs)); try lia; [reflexivity|].
  assert (HF' : forall i, nthZ fl i = Some false -> nthZ vs i = Some VNone).
  { intros i A1. pose proof (nthZ_Some _ _ _ A1). specialize (HF (i + 1)). rewrite !nthZ_cons in HF. destruct (Z.eqb_spec (i + 1) 0); [lia|]. replace (i + 1 - 1) with i in HF by lia. apply HF. exact A1. }
  destruct b; simpl.
  - specialize (IH vs (pre ++ [H v]) tail ltac:(lia) HF' HN). rewrite zlen_app in IH. change (zlen [H v]) with 1 in IH.
    pose proof (zlen_nonneg pre). destruct (Z.ltb_spec (zlen pre) 0); [lia|]. rewrite nthZ_mid. rewrite <- app_assoc in IH. cbn [app] in IH. rewrite IH. reflexivity.
  - specialize (IH vs pre tail ltac:(lia) HF' HN). rewrite IH. specialize (HF 0 eq_refl). injection HF as ->. rewrite HN. reflexivity.
Qed.
Lemma nthZ_combine_inv {A B} (a : list A) (b : list B) i m : nthZ (combine a b) i = Some m -> nthZ b i = Some (snd m).
Proof. rewrite nthZ_combine. destruct (nthZ a i); [|discriminate]. destruct (nthZ b i); [|discriminate]. intros H. injection H as <-. reflexivity. Qed.

Section Main.
Variable F : floats.
Variable is64 : content -> bool.
Variable rr : content -> bool.
Variable rc : Z -> Z.
Variable narrow : content -> bool.
Variable refeq : content -> content -> bool.
Variable mfuel : nat.
Variable r : reducer.
Variable mask : bool.
Variable zb : bool.
Notation pos := (returns_positions r).
Hypothesis Hpos : pos = true -> zb = true.
Notation RN := (reduce_next F is64 rr rc narrow refeq mfuel r mask).
Notation redu := (red F r mask).
Notation prep := (prepared zb pos).
Notation H_ := (inner_red F r mask).

Definition deep_ok (c : content) (starts shifts parents : list Z) (n : Z) : Prop :=
  shifts = [] /\ exists counts, nonneg_counts counts /\ parents = runs 0 counts /\ zlen counts = n /\ (zb = true -> is_list c = false -> starts = slice 0 n (offsets_of counts)).
Definition outcome (c : content) (kd : bool) (f : form) (vs : list value) (parents tags : list Z) (n : Z) (o : res content) : Prop :=
  exists out, o = Ok out /\ den out = Some (map (fun g => redu kd 1 f (members parents (combine tags vs) g)) (zseq 0 n)) /\ zero_list out /\
    (has_levels f 1 = false -> is_record c = false -> exists of x, out = ListOffset of x).
Definition Main (fuel : nat) : Prop := forall c vs starts shifts parents n kd tags d,
  (need c <= fuel)%nat -> den c = Some vs -> union_free (form_of c) = true -> levels (form_of c) = Some d -> top_records (form_of c) = true -> prep c ->
  0 <= n -> zlen parents = zlen vs -> inside n parents -> zlen tags = zlen vs ->
  (has_levels (form_of c) 1 = true -> pos = true -> placed starts shifts parents tags /\ (shifts = [] \/ unindexed c = true)) ->
  (has_levels (form_of c) 1 = false -> deep_ok c starts shifts parents n) ->
  outcome c kd (form_of c) vs parents tags n (RN fuel c 1 starts shifts parents n kd).

(** ** option types *)
Lemma option_flat fuel c c' f vs ws starts shifts parents n kd tags d next3 valid fl nc (make_shifts fromregular : bool) len :
  Main fuel -> den c' = Some ws -> next3_ok vs ws parents next3 valid fl nc -> has_levels (form_of c') 1 = true -> levels (form_of c') = Some d -> union_free (form_of c') = true -> prep c' ->
  (forall x, carry c' nc false = Ok x -> (need x <= fuel)%nat) -> 0 <= n -> zlen parents = zlen vs -> inside n parents -> zlen tags = zlen vs -> len = zlen vs -> has_levels f 1 = true ->
  (pos = true -> if make_shifts then placed starts shifts parents tags /\ unindexed c' = true else placed starts [] (pick fl parents) (pick fl tags)) ->
  (forall g, redu kd 1 f (members parents (combine tags vs) g) = redu kd 1 (form_of c') (members (pick fl parents) (combine (pick fl tags) (pick fl vs)) g)) ->
  outcome c kd f vs parents tags n
    (option_reduce r (fun nextshifts nextparents next => RN fuel next 1 starts nextshifts nextparents n kd) c' 1 starts next3 make_shifts
       (fun m => nextshifts_loop valid (fun i => if zlen shifts =? 0 then Ok 0 else rd shifts i) (alloc m) len) fromregular).
Proof.
  intros HM Hc (N1 & N2 & N3 & N4 & N5) Hl Hd Hu HP Hneed Hn Hp Hin Ht -> Hlf HPL HV. pose proof Hl as Hl1. apply has_levels_eq in Hl1. rewrite Hl1 in Hd. injection Hd as <-.
  unfold option_reduce. rewrite N1. cbn [bind]. rewrite (levels_branch _ _ Hl1 Hu). cbn [negb andb Z.eqb Pos.eqb]. rewrite andb_true_r.
  assert (HS : exists sh', (if make_shifts && pos then nextshifts_loop valid (fun i => if zlen shifts =? 0 then Ok 0 else rd shifts i) (alloc (zlen nc)) (zlen vs) else Ok []) = Ok sh' /\
     (pos = true -> placed starts sh' (pick fl parents) (pick fl tags) /\ (sh' = [] \/ unindexed c' = true))).
  { destruct (pos) eqn:Epos; [|exists []; rewrite andb_false_r; split; [reflexivity|discriminate]]. specialize (HPL eq_refl). rewrite andb_true_r. destruct make_shifts.
    - destruct HPL as [HPL HI]. set (sh := if zlen shifts =? 0 then map (fun _ => 0) vs else slice 0 (zlen vs) shifts).
      assert (Hgt : zlen shifts <> 0 -> 0 < zlen vs -> zlen vs <= zlen shifts).
      { intros H0 Hv. destruct (nthZ_lt parents (zlen vs - 1)) as [p Hp']; [lia|]. destruct (nthZ_lt tags (zlen vs - 1)) as [t Ht']; [lia|]. destruct (HPL _ _ _ Hp' Ht') as (s & h & _ & Hs & _).
        destruct (Z.eqb_spec (zlen shifts) 0); [lia|]. apply nthZ_Some in Hs. lia. }
      pose proof (zlen_nonneg vs). pose proof (zlen_nonneg shifts).
      assert (Hsh : zlen sh = zlen vs). { unfold sh. destruct (Z.eqb_spec (zlen shifts) 0); [apply zlen_map|]. destruct (Z.eq_dec (zlen vs) 0) as [E0|]; [rewrite E0, slice_empty by lia; reflexivity|]. rewrite zlen_slice by lia. lia. }
      exists (shifted fl sh 0). split.
      + rewrite <- N2. apply nextshifts_ok.
        * lia.
        * rewrite zlen_alloc by apply zlen_nonneg. rewrite <- (omap_zlen _ _ _ N3). apply zlen_pick. lia.
        * exact N5.
        * intros i s Hs. unfold sh in Hs. destruct (Z.eqb_spec (zlen shifts) 0); [rewrite nthZ_map in Hs; destruct (nthZ vs i); [injection Hs as <-; reflexivity|discriminate]|].
          pose proof (nthZ_Some _ _ _ Hs) as Hb. fold sh in Hb. assert (Hb2 : zlen (slice 0 (zlen vs) shifts) = zlen vs) by (unfold sh in Hsh; destruct (Z.eqb_spec (zlen shifts) 0); [lia|exact Hsh]).
          rewrite nthZ_slice in Hs by lia. rewrite Z.add_0_l in Hs. apply rd_Ok. exact Hs.
      + intros _. split; [|right; exact HI]. intros i p tag Hi Htg.
        destruct (placed_pick starts fl sh parents tags 0 0 ltac:(lia) ltac:(lia)) with (i := i) (p := p) (tag := tag) as (s & h & A & B & C); try assumption.
        { intros j q tg Hj Hjt. destruct (HPL j q tg Hj Hjt) as (s & h & A & B & C). exists s, h. split; [exact A|]. split; [|lia]. pose proof (nthZ_Some _ _ _ Hj) as Hb.
          unfold sh. destruct (Z.eqb_spec (zlen shifts) 0); [rewrite nthZ_map; destruct (nthZ_lt vs j) as [v ->]; [lia|]; cbn [option_map]; congruence|]. rewrite nthZ_slice by lia. rewrite Z.add_0_l. exact B. }
        exists s, h. split; [exact A|]. split; [|lia]. pose proof (nthZ_Some _ _ _ B). destruct (Z.eqb_spec (zlen (shifted fl sh 0)) 0); [lia|exact B].
    - exists []. split; [reflexivity|]. intros _. split; [exact HPL|left; reflexivity]. }
  destruct HS as (sh' & -> & HS). cbn [bind].
  destruct (carry_den c' ws nc _ false Hc N3) as (next & Hnext & Hdn). rewrite Hnext. cbn [bind].
  destruct (carry_same _ _ _ _ Hnext) as [Hf Hb]. pose proof (carry_kind _ _ _ _ Hnext) as [K1 K2].
  assert (HR : (if fromregular then unregular true next else Ok next) = Ok next).
  { destruct fromregular; [|reflexivity]. unfold unregular. destruct next; try reflexivity. exfalso. cbn [form_of] in Hf. rewrite <- Hf in Hl. rewrite list_deep in Hl. discriminate. }
  rewrite HR. cbn [bind]. rewrite <- Hf in Hl, Hl1, Hu.
  pose proof (levels1 _ Hl Hu) as [_ Htop].
  destruct (HM next (pick fl vs) starts sh' (pick fl parents) n kd (pick fl tags) 1) as (out & E & Ed & Ez & _); try assumption.
  - apply Hneed. exact Hnext.
  - eapply carry_prep; [|exact HP|exact Hnext]. discriminate.
  - apply zlen_pick. exact Hp.
  - apply Forall_forall. intros x Hx. apply pick_In in Hx. unfold inside in Hin. rewrite Forall_forall in Hin. apply Hin. exact Hx.
  - apply zlen_pick. exact Ht.
  - intros _ HP1. destruct (HS HP1) as [A B]. split; [exact A|]. destruct B as [B|B]; [left; exact B|right; apply K2; exact B].
  - intros Hx. congruence.
  - rewrite E. cbn [bind]. exists out. split; [reflexivity|]. split; [rewrite Ed; f_equal; apply map_ext; intros g; rewrite HV, Hf; reflexivity|]. split; [exact Ez|]. intros Hx. congruence.
Qed.

Lemma unregular_list next vs : den next = Some vs -> is_list next = true -> flat_records (form_of next) = true -> prep next ->
  exists next', unregular true next = Ok next' /\ den next' = Some vs /\ same next next' /\ is_list next' = true /\ prep next'.
Proof.
  intros Hd Hl Hf HP. destruct next as [ | | | |size zl c| | | | | | | ]; try discriminate; unfold unregular.
  - eexists. split; [reflexivity|]. split; [exact Hd|]. split; [apply same_refl|]. split; [reflexivity|exact HP].
  - eexists. split; [reflexivity|]. split; [exact Hd|]. split; [apply same_refl|]. split; [reflexivity|exact HP].
  - destruct (to_listoffset true true _ _ _ _ Hd eq_refl) as (o & c'' & E & Ed & E0). rewrite E. exists (ListOffset o c''). split; [reflexivity|]. split; [exact Ed|].
    destruct (tolistoffset_same _ _ _ _ E) as (o2 & c2 & E2 & S2). split; [exact S2|]. split; [reflexivity|].
    assert (HC : prep c''). { apply (tolistoffset_prep zb pos true (Regular size zl c) _ c o c'' eq_refl); [exact Hf|exact HP|exact E]. }
    cbn [prepared]. split; [|exact HC]. destruct zb; [apply E0; reflexivity|]. apply (offsets_inside o c'' vs Ed). apply E0. reflexivity.
Qed.

Lemma option_deep fuel c c' f vs ws starts parents n kd tags d next3 valid fl nc (make_shifts : bool) mkshifts (fromregular : bool) counts :
  Main fuel -> zb = true -> den c' = Some ws -> next3_ok vs ws parents next3 valid fl nc -> has_levels (form_of c') 1 = false -> is_list c' = true ->
  levels (form_of c') = Some d -> union_free (form_of c') = true -> flat_records (form_of c') = true -> prep c' ->
  (bound c' <= fuel)%nat -> 0 <= n -> zlen parents = zlen vs -> zlen tags = zlen vs ->
  nonneg_counts counts -> parents = runs 0 counts -> zlen counts = n -> starts = slice 0 n (offsets_of counts) ->
  (forall ms, redu kd 1 f ms = redu kd 1 (form_of c') ms) ->
  outcome c kd f vs parents tags n
    (option_reduce r (fun nextshifts nextparents next => RN fuel next 1 starts nextshifts nextparents n kd) c' 1 starts next3 make_shifts mkshifts fromregular).
Proof.
  intros HM Hzb Hc (N1 & N2 & N3 & N4 & N5) Hl Hlist Hd Hu Hfr HP Hneed Hn Hp Ht Hnn HPar Hcn Hst HV.
  assert (Hd1 : d <> 1) by (intros ->; unfold has_levels in Hl; rewrite Hd in Hl; discriminate).
  unfold option_reduce. rewrite N1. cbn [bind]. rewrite (levels_branch _ _ Hd Hu). cbn [negb andb]. destruct (Z.eqb_spec 1 d); [congruence|]. rewrite !andb_false_r. cbn [bind].
  destruct (carry_den c' ws nc _ false Hc N3) as (next & Hnext & Hdn). rewrite Hnext. cbn [bind].
  destruct (carry_same _ _ _ _ Hnext) as [Hf Hb]. pose proof (carry_kind _ _ _ _ Hnext) as [K1 _]. specialize (K1 Hlist).
  assert (HPn : prep next) by (eapply carry_prep; [|exact HP|exact Hnext]; discriminate).
  assert (HR : exists next', (if fromregular then unregular true next else Ok next) = Ok next' /\ den next' = Some (pick fl vs) /\ same next next' /\ is_list next' = true /\ prep next').
  { destruct fromregular; [|exists next; repeat split; assumption]. apply unregular_list; try assumption. rewrite Hf. exact Hfr. }
  destruct HR as (next' & -> & Hdn' & [Hf' Hb'] & Hli' & HPn'). cbn [bind]. rewrite Hf in Hf'. rewrite Hb in Hb'.
  (* groups *)
  destruct (split_groups counts Hnn fl) as (fls & Efl & Lfl); [rewrite N2, <- Hp, HPar, zlen_runs by exact Hnn; reflexivity|].
  destruct (split_groups counts Hnn vs) as (groups & Evs & Lgr); [rewrite <- Hp, HPar, zlen_runs by exact Hnn; reflexivity|].
  set (counts' := map (fun fl => zlen (filter (fun b : bool => b) fl)) fls).
  assert (Hcn' : zlen counts' = n) by (unfold counts'; rewrite zlen_map, <- Hcn, <- Lfl, zlen_map; reflexivity).
  assert (Hnn' : nonneg_counts counts') by (unfold counts', nonneg_counts; apply Forall_forall; intros x Hx; apply in_map_iff in Hx as (y & <- & _); apply zlen_nonneg).
  assert (HPick : pick fl parents = runs 0 counts') by (rewrite Efl, HPar, <- Lfl; apply pick_runs).
  set (groups' := map (fun fg : list bool * list value => pick (fst fg) (snd fg)) (combine fls groups)).
  assert (HVP : pick fl vs = concat groups') by (rewrite Efl, Evs; apply pick_concat; congruence).
  assert (HGL : map zlen groups' = counts').
  { unfold groups', counts'. assert (Q : map zlen fls = map zlen groups) by congruence. clear - Q. revert groups Q. induction fls as [|a fls IH]; intros [|b gs] Q; simpl in *; try discriminate; [reflexivity|].
    injection Q as Q1 Q2. rewrite zlen_pick_true by exact Q1. f_equal. apply IH. exact Q2. }
  assert (HFf : exists f2, form_of c' = FList f2) by (destruct c'; try discriminate Hlist; eexists; reflexivity).
  destruct HFf as [f2 Hf2].
  destruct (HM next' (pick fl vs) starts [] (pick fl parents) n kd (pick fl tags) d) as (out & E & Ed & Ez & Eo); try assumption; try (rewrite Hf'; assumption).
  - pose proof (need_bound next'). lia.
  - rewrite Hf'. apply flat_top; assumption.
  - apply zlen_pick. exact Hp.
  - rewrite HPick. apply runs_inside; assumption.
  - apply zlen_pick. exact Ht.
  - rewrite Hf'. intros Hx. congruence.
  - intros _. split; [reflexivity|]. exists counts'. repeat split; try assumption. intros _ Hx. congruence.
  - rewrite E. cbn [bind]. destruct Eo as (o & x & ->); [rewrite Hf'; exact Hl|destruct next'; try discriminate; reflexivity|]. cbn [zero_list] in Ez.
    assert (EV : map (fun g => redu kd 1 (form_of next') (members (pick fl parents) (combine (pick fl tags) (pick fl vs)) g)) (zseq 0 n) = map VList (map (map (H_ kd f2)) groups')).
    { rewrite Hf', Hf2, HPick, map_map. rewrite <- HGL, HVP. rewrite <- (map_members (fun l => VList (map (H_ kd f2) l)) groups' n) by (rewrite <- (zlen_map zlen groups'), HGL; exact Hcn').
      apply map_ext. intros g. rewrite red_list by apply list_deep. rewrite members_tags; [reflexivity|]. rewrite <- HVP. apply zlen_pick. exact Ht. }
    rewrite EV in Ed. destruct (listoffset0_inv _ _ _ Ed Ez) as (Eof & tail & Ex).
    unfold put_missing_back, unregular. cbn [bind].
    assert (ES : (if 0 <? zlen starts then let* s0 := rd starts 0 in if negb (s0 =? 0) then Err "reduce_next with unbranching depth > negaxis expects a ListOffsetArray64 whose offsets start at zero" else Ok tt else Ok tt) = Ok tt).
    { destruct (Z.ltb_spec 0 (zlen starts)); [|reflexivity]. unfold rd. rewrite Hst. rewrite Hst in H. pose proof (zlen_nonneg counts). rewrite zlen_slice in H by (rewrite ?zlen_offsets_of; lia).
      rewrite nthZ_slice by lia. rewrite Z.add_0_l, nthZ_offsets_before by lia. rewrite before_0. reflexivity. }
    rewrite ES. cbn [bind]. rewrite fix_offsets_kernel. cbn [bind].
    assert (EO : starts ++ [zlen (ranks (fun b : bool => b) 0 fl)] = offsets_of counts).
    { rewrite zlen_ranks, N2, <- Hp, HPar, zlen_runs by exact Hnn. rewrite Hst, <- Hcn. apply starts_of_offsets. }
    rewrite EO.
    assert (EI : den (IndexedOption (ranks (fun b : bool => b) 0 fl) x) = Some (concat (map (map (H_ kd f2)) groups))).
    { cbn [den]. rewrite Ex. rewrite <- concat_map, <- HVP. rewrite <- concat_map, <- Evs. apply (ranks_pick (H_ kd f2) fl vs [] tail); [exact N2|exact N4|reflexivity]. }
    pose proof (listoffset_den0 _ _ EI) as EL. assert (ECC : map zlen (map (map (H_ kd f2)) groups) = counts) by (rewrite map_map, <- Lgr; apply map_ext; intros l; apply zlen_map). rewrite ECC in EL.
    rewrite (mkListOffset_den _ _ _ EL). eexists. split; [reflexivity|]. split; [|split; [cbn [zero_list]; rewrite nthZ_offsets_before, before_0 by (pose proof (zlen_nonneg counts); lia); reflexivity|intros _ _; eauto]].
    rewrite EL, map_map. f_equal. rewrite HPar, <- Lgr. rewrite <- (map_members (fun l => VList (map (H_ kd f2) l)) groups n) by (rewrite <- (zlen_map zlen groups), Lgr; exact Hcn).
    apply map_ext. intros g. rewrite HV, Hf2, red_list by apply list_deep. rewrite members_tags by exact Ht. rewrite Evs. reflexivity.
Qed.

(** ** lists *)
Definition LO (fuel : nat) (shifts parents : list Z) (outlength : Z) (keepdims : bool) (offsets : list Z) (c' : content) : res content :=
  let* globalstart := rd offsets 0 in
  let* globalstop := rd offsets (zlen offsets - 1) in
  let* nextparents := awkward_ListOffsetArray_reduce_local_nextparents_64 (alloc (globalstop - globalstart)) offsets (zlen offsets - 1) in
  let* trimmed := getitem_range_nowrap c' globalstart globalstop in
  let* nextstarts := make_starts offsets in
  let* outcontent := RN fuel trimmed 1 nextstarts shifts nextparents (zlen offsets - 1) keepdims in
  let* outoffsets := awkward_ListOffsetArray_reduce_local_outoffsets_64 (alloc (outlength + 1)) parents (zlen parents) outlength in
  let* outcontent := if keepdims && (negb (rr (ListOffset offsets c')) || dimension_optiontype c') then unregular false outcontent else Ok outcontent in
  mkListOffset outoffsets outcontent.

Lemma zlen_enumerate (s : list value) : zlen (enumerate s) = zlen s.
Proof. change (zlen (combine (zseq 0 (zlen s)) s) = zlen s). rewrite zlen_combine; rewrite zlen_zseq by apply zlen_nonneg; lia. Qed.
Lemma members_enumerate (segs : list (list value)) g l : nthZ segs g = Some l ->
  members (runs 0 (map zlen segs)) (combine (concat (map (fun s => zseq 0 (zlen s)) segs)) (concat segs)) g = enumerate l.
Proof.
  intros Hg. assert (E : combine (concat (map (fun s : list value => zseq 0 (zlen s)) segs)) (concat segs) = concat (map enumerate segs)).
  { clear Hg. induction segs as [|s segs IH]; [reflexivity|]. simpl. rewrite combine_app_eq by (rewrite zlen_zseq by apply zlen_nonneg; lia). rewrite IH. reflexivity. }
  rewrite E. assert (E2 : map zlen segs = map zlen (map enumerate segs)).
  { rewrite map_map. apply map_ext. intros s. symmetry. apply zlen_enumerate. }
  rewrite E2, members_runs, Z.sub_0_r, nthZ_map, Hg. reflexivity.
Qed.
Lemma placed_tags (segs : list (list value)) starts : (forall g, 0 <= g < zlen segs -> nthZ starts g = Some (before (map zlen segs) g)) ->
  placed starts [] (runs 0 (map zlen segs)) (concat (map (fun s => zseq 0 (zlen s)) segs)).
Proof.
  intros HS i p tag Hi Ht. pose proof (nthZ_runs (map zlen segs) (nonneg_zlens segs) 0 i p Hi) as [[A1 A2] B]. rewrite Z.sub_0_r in A1, A2. rewrite zlen_map in B.
  rewrite HS by lia. exists (before (map zlen segs) p), 0. split; [reflexivity|]. split; [reflexivity|].
  assert (G : forall (segs : list (list value)) i p, 0 <= p < zlen segs -> before (map zlen segs) p <= i < before (map zlen segs) (p + 1) -> nthZ (concat (map (fun s => zseq 0 (zlen s)) segs)) i = Some (i - before (map zlen segs) p)).
  { clear. induction segs as [|s segs IH]; intros i p Hp Hi; [change (zlen (@nil (list value))) with 0 in Hp; lia|]. rewrite zlen_cons in Hp. cbn [map concat] in *. rewrite nthZ_app, zlen_zseq by apply zlen_nonneg. pose proof (zlen_nonneg s).
    assert (S1 : forall j, 0 <= j -> before (zlen s :: map zlen segs) (j + 1) = zlen s + before (map zlen segs) j).
    { intros j Hj. unfold before, slice. rewrite !Z.sub_0_r. replace (Z.to_nat (j + 1)) with (S (Z.to_nat j)) by lia. reflexivity. }
    destruct (Z.eq_dec p 0) as [->|Hp0].
    - rewrite before_0 in *. rewrite (S1 0), before_0 in Hi by lia. destruct (Z.ltb_spec i (zlen s - 0)); [|lia]. rewrite nthZ_zseq by lia. f_equal. lia.
    - pose proof (S1 (p - 1) ltac:(lia)) as E1. replace (p - 1 + 1) with p in E1 by lia. pose proof (S1 p ltac:(lia)) as E2. rewrite E1 in Hi |- *. rewrite E2 in Hi.
      pose proof (before_le (map zlen segs) 0 (p - 1) (nonneg_zlens segs) ltac:(lia)) as Q. rewrite before_0 in Q.
      destruct (Z.ltb_spec i (zlen s - 0)); [lia|]. rewrite (IH (i - (zlen s - 0)) (p - 1)); [f_equal; lia|lia|]. replace (p - 1 + 1) with p by lia. lia. }
  rewrite (G segs i p) in Ht by lia. injection Ht as <-. lia.
Qed.

Lemma toLO_regular w saz size zl c : toListOffsetArray64 w saz (Regular size zl c) = toListOffsetArray64 w true (Regular size zl c).
Proof. reflexivity. Qed.

Lemma LO_good fuel o c' vs parents n kd d counts :
  Main fuel -> den (ListOffset o c') = Some vs -> union_free (form_of c') = true -> levels (form_of c') = Some d -> flat_records (form_of c') = true -> prep c' ->
  Forall (fun i => 0 <= i <= length_ c') o -> (zb = true -> nthZ o 0 = Some 0) -> (bound c' <= fuel)%nat ->
  0 <= n -> zlen parents = zlen vs -> nonneg_counts counts -> parents = runs 0 counts -> zlen counts = n ->
  exists x, LO fuel [] parents n kd o c' = Ok (ListOffset (offsets_of counts) x) /\ den x = Some (map (H_ kd (form_of c')) vs) /\ zero_list x.
Proof.
  intros HM Hd Hu Hlv Hfr HP Hob Hz Hb Hn Hp Hnn HPar Hcn.
  pose proof (list_inv _ _ _ _ Hd eq_refl) as (ws & Hws & Hsub & Evs). set (segs := map (seg ws) (pairs o)) in *.
  assert (Ho : 1 <= zlen o). { cbn [den] in Hd. rewrite Hws in Hd. destruct (Z.leb_spec 1 (zlen o)); [assumption|discriminate]. }
  assert (Hlens : map zlen segs = map diff (pairs o)) by (apply map_zlen_seg; exact Hsub).
  destruct (offsets_diffs o Ho) as (a & Ha & Eo). rewrite <- Hlens in Eo.
  assert (Hzs : zlen segs = zlen o - 1) by (unfold segs; rewrite zlen_map; apply zlen_pairs; exact Ho).
  assert (Hlast : nthZ o (zlen o - 1) = Some (a + sumZ (map zlen segs))). { rewrite <- Hzs. rewrite <- (zlen_map zlen segs). rewrite Eo at 1. apply nthZ_offsets_last. }
  pose proof (sumZ_nonneg _ (nonneg_zlens segs)) as HS. rewrite (den_length _ _ Hws) in Hob.
  assert (Hbound : 0 <= a /\ a + sumZ (map zlen segs) <= zlen ws).
  { rewrite Forall_forall in Hob. pose proof (Hob _ (nthZ_In _ _ _ Ha)). pose proof (Hob _ (nthZ_In _ _ _ Hlast)). lia. }
  unfold LO. unfold rd at 1 2. rewrite Ha, Hlast. cbn [bind]. replace (a + sumZ (map zlen segs) - a) with (sumZ (map diff (pairs o))) by (rewrite <- Hlens; lia).
  rewrite nextparents_kernel; [|exact Ho|rewrite <- Hlens; apply nonneg_zlens]. cbn [bind]. rewrite <- Hlens.
  destruct (range_den c' ws a (a + sumZ (map zlen segs)) Hws) as (tr & Htr & Hdt); [lia|lia|]. rewrite Htr. cbn [bind].
  rewrite make_starts_spec by exact Ho. cbn [bind].
  destruct (range_same _ _ _ _ Htr) as [Hft Hbt].
  assert (Edt : slice a (a + sumZ (map zlen segs)) ws = concat segs).
  { rewrite <- (concat_segs_offsets ws a (map zlen segs)); [|lia|apply nonneg_zlens|lia]. rewrite <- Eo. reflexivity. }
  rewrite Edt in Hdt.
  set (tags := concat (map (fun s : list value => zseq 0 (zlen s)) segs)).
  assert (Htags : zlen tags = zlen (concat segs)). { unfold tags. rewrite !zlen_concat, map_map. f_equal. apply map_ext. intros s. rewrite zlen_zseq by apply zlen_nonneg. lia. }
  assert (Hzr : zlen (runs 0 (map zlen segs)) = zlen (concat segs)) by (rewrite zlen_runs by apply nonneg_zlens; rewrite zlen_concat; reflexivity).
  assert (HSt : zb = true -> slice 0 (zlen o - 1) o = slice 0 (zlen segs) (offsets_of (map zlen segs))).
  { intros Hzb. specialize (Hz Hzb). assert (a = 0) as -> by congruence. rewrite Hzs. f_equal. exact Eo. }
  destruct (HM tr (concat segs) (slice 0 (zlen o - 1) o) [] (runs 0 (map zlen segs)) (zlen o - 1) kd tags d) as (out & E & Ed & Ez & _); try assumption; try (rewrite Hft; assumption).
  - pose proof (need_bound tr). lia.
  - rewrite Hft. apply flat_top; assumption.
  - eapply range_prep; [|exact HP|exact Htr]. intros Hzb. specialize (Hz Hzb). congruence.
  - lia.
  - apply runs_inside; [apply nonneg_zlens|rewrite zlen_map; exact Hzs].
  - intros _ Hp1. split; [|left; reflexivity]. apply placed_tags. intros g Hg. rewrite (HSt (Hpos Hp1)). rewrite nthZ_slice by lia. rewrite Z.add_0_l. apply nthZ_offsets_before. rewrite zlen_map. lia.
  - intros _. split; [reflexivity|]. exists (map zlen segs). split; [apply nonneg_zlens|]. split; [reflexivity|]. split; [rewrite zlen_map; exact Hzs|]. intros Hzb _. rewrite (HSt Hzb), Hzs. reflexivity.
  - rewrite E. cbn [bind]. rewrite HPar, outoffsets_kernel by assumption. cbn [bind].
    assert (Ed' : den out = Some (map (H_ kd (form_of c')) vs)).
    { rewrite Ed, Hft, Evs, map_map. f_equal. transitivity (map (fun l => redu kd 1 (form_of c') (enumerate l)) segs); [|reflexivity].
      apply list_eqZ; [rewrite !zlen_map, zlen_zseq by lia; lia|]. intros i Hi. rewrite zlen_map, zlen_zseq in Hi by lia. rewrite !nthZ_map, nthZ_zseq by lia. cbn [option_map]. rewrite Z.add_0_l.
      destruct (nthZ_lt segs i) as [l Hl]; [lia|]. rewrite Hl. cbn [option_map]. f_equal. f_equal. apply members_enumerate. exact Hl. }
    assert (EX : exists x, (if kd && (negb (rr (ListOffset o c')) || dimension_optiontype c') then unregular false out else Ok out) = Ok x /\ den x = Some (map (H_ kd (form_of c')) vs) /\ zero_list x).
    { destruct (kd && _); [|exists out; repeat split; assumption]. unfold unregular. destruct out as [ | | | |size zl y| | | | | | | ]; try (eexists; repeat split; eassumption).
      rewrite toLO_regular. destruct (to_listoffset true true _ _ _ _ Ed' eq_refl) as (o' & y' & E1 & E2 & E3). rewrite E1. eexists. split; [reflexivity|]. split; [exact E2|]. cbn [zero_list]. apply E3. reflexivity. }
    destruct EX as (x & -> & Edx & Ezx). cbn [bind].
    exists x. split; [|split; assumption]. unfold mkListOffset. rewrite zlen_offsets_of. pose proof (zlen_nonneg counts). destruct (Z.eqb_spec (zlen counts + 1) 0); [lia|]. reflexivity.
Qed.
(** the result as a list of groups *)
Lemma LO_den x kd f vs parents n counts tags : den x = Some (map (H_ kd f) vs) -> zlen parents = zlen vs -> nonneg_counts counts -> parents = runs 0 counts -> zlen counts = n -> zlen tags = zlen vs ->
  den (ListOffset (offsets_of counts) x) = Some (map (fun g => redu kd 1 (FList f) (members parents (combine tags vs) g)) (zseq 0 n)).
Proof.
  intros Hd Hp Hnn -> Hcn Ht. destruct (split_groups counts Hnn vs) as (groups & Evs & Lgr); [rewrite <- Hp; apply zlen_runs; exact Hnn|].
  assert (E : den x = Some (concat (map (map (H_ kd f)) groups))) by (rewrite Hd, Evs, concat_map; reflexivity).
  pose proof (listoffset_den0 _ _ E) as EL. assert (ECC : map zlen (map (map (H_ kd f)) groups) = counts) by (rewrite map_map, <- Lgr; apply map_ext; intros l; apply zlen_map). rewrite ECC in EL.
  rewrite EL, map_map. f_equal. rewrite <- Lgr. rewrite <- (map_members (fun l => VList (map (H_ kd f) l)) groups n) by (rewrite <- (zlen_map zlen groups), Lgr; exact Hcn).
  apply map_ext. intros g. rewrite red_list by apply list_deep. rewrite members_tags by exact Ht. rewrite Evs. reflexivity.
Qed.

(** ** the conversions of RegularArray *)
Lemma leaf_list kd f ms : kd = true -> has_levels f 1 = true -> forall l, redu kd 1 f ms = VList l -> zlen l = 1.
Proof.
  intros ->. revert ms. induction f using form_ind'; intros ms Hl l E; cbn [red] in E.
  - unfold leaf in E. injection E as <-. reflexivity.
  - unfold leaf in E. injection E as <-. reflexivity.
  - rewrite list_deep in Hl. discriminate.
  - change (has_levels (FOption f) 1) with (has_levels f 1) in Hl. rewrite Hl in E. eapply IHf; eassumption.
  - destruct keys; discriminate.
  - discriminate.
Qed.
Lemma convert_good kd c0 x vs size counts depth :
  den x = Some (map (H_ kd (form_of c0)) vs) -> zero_list x -> (forall v, In v vs -> exists l, v = VList l /\ zlen l = size) ->
  (has_levels (form_of c0) 1 = true \/ exists f2, form_of c0 = FList f2) -> (has_levels (form_of c0) 1 = true -> depth = 2) -> 1 < depth ->
  exists x', regular_convert 1 depth kd (ListOffset (offsets_of counts) x) = Ok (ListOffset (offsets_of counts) x') /\ den x' = Some (map (H_ kd (form_of c0)) vs).
Proof.
  intros Hd Hz Hvs Hf Hdep Hd1. unfold regular_convert. destruct (Z.eqb_spec 1 depth); [lia|]. rewrite andb_false_r.
  destruct (kd || (1 + 2 =? depth)) eqn:Ek; [|exists x; split; [reflexivity|exact Hd]].
  assert (HI : exists x', inner_toregular x = Ok x' /\ den x' = Some (map (H_ kd (form_of c0)) vs)).
  { destruct x as [ | |s t y|o y| | | | | | | | ]; try (eexists; split; [reflexivity|exact Hd]); [destruct Hz|]. cbn [zero_list] in Hz.
    destruct (list_inv _ _ _ _ Hd eq_refl) as (ws & Hws & Hsub & Ex). set (segs := map (seg ws) (pairs o)) in *.
    cbn [inner_toregular toRegularArray]. rewrite Ex in Hd. destruct (listoffset_toregular o y segs Hd) as [G _].
    assert (Hsame : forall l, In l segs -> zlen l = (if has_levels (form_of c0) 1 then 1 else size)).
    { intros l Hl. apply (in_map VList) in Hl. rewrite <- Ex in Hl. apply in_map_iff in Hl as (v & Ev & Hv). destruct (Hvs v Hv) as (lv & -> & Hlen). cbn [inner_red] in Ev.
      destruct (has_levels (form_of c0) 1) eqn:El.
      - rewrite (Hdep eq_refl) in Ek. apply orb_true_iff in Ek as [Ek|Ek]; [|discriminate]. eapply leaf_list; [exact Ek|exact El|exact Ev].
      - destruct Hf as [Hf|[f2 Hf]]; [congruence|]. rewrite Hf, red_list in Ev by apply list_deep. injection Ev as <-. rewrite !zlen_map, zlen_enumerate. exact Hlen. }
    destruct G as (sz & c'' & E1 & E2).
    - intros s t Hs Ht. rewrite (Hsame s Hs), (Hsame t Ht). reflexivity.
    - right. pose proof (offsets_inside o y _ Hd Hz) as Hin. assert (Ho : 1 <= zlen o) by (pose proof (nthZ_Some _ _ _ Hz); lia). destruct (nthZ_lt o (zlen o - 1)) as [b Hb]; [lia|].
      exists 0, b. rewrite Forall_forall in Hin. pose proof (Hin _ (nthZ_In _ _ _ Hb)). repeat split; try assumption; lia.
    - rewrite E1. eexists. split; [reflexivity|]. rewrite E2, Ex. reflexivity. }
  destruct HI as (x' & -> & Hdx). cbn [bind]. exists x'. split; [|exact Hdx]. unfold mkListOffset. rewrite zlen_offsets_of. pose proof (zlen_nonneg counts). destruct (Z.eqb_spec (zlen counts + 1) 0); [lia|]. reflexivity.
Qed.

(** ** records *)
Fixpoint flds (kd : bool) (ms : list member) (i : Z) (fs : list form) : list value :=
  match fs with
  | [] => []
  | f :: fs => redu kd 1 f (map (fun m => (fst m, field i (snd m))) ms) :: flds kd ms (i + 1) fs
  end.
Lemma red_record kd keys fs ms : redu kd 1 (FRecord keys fs) ms = mkrow keys (flds kd ms 0 fs).
Proof. cbn [red]. f_equal. generalize 0. induction fs as [|f fs IH]; intros i; [reflexivity|]. cbn [flds]. f_equal. apply IH. Qed.
Lemma members_map {A B} (h : A -> B) parents : forall (T : list A) g, members parents (map h T) g = map h (members parents T g).
Proof. unfold members. induction parents as [|p parents IH]; intros [|m T] g; try reflexivity. simpl. rewrite IH. destruct (p =? g); reflexivity. Qed.
Lemma combine_map_r {A B C} (h : B -> C) : forall (a : list A) (b : list B), combine a (map h b) = map (fun m => (fst m, h (snd m))) (combine a b).
Proof. induction a as [|x a IH]; intros [|y b]; try reflexivity. simpl. f_equal. apply IH. Qed.
Lemma record_loop (f : content -> res content) kd n (ms : Z -> list member) : forall cs i,
  (forall j c, nthZ cs j = Some c -> exists out, f c = Ok out /\ den out = Some (map (fun g => redu kd 1 (form_of c) (map (fun m => (fst m, field (i + j) (snd m))) (ms g))) (zseq 0 n))) ->
  exists outs cols, mapres f cs = Ok outs /\ zlen outs = zlen cs /\ omap den outs = Some cols /\
    forall g, 0 <= g < n -> omap (fun vs => nthZ vs g) cols = Some (flds kd (ms g) i (map form_of cs)).
Proof.
  induction cs as [|c cs IH]; intros i H.
  - exists [], []. repeat split.
  - destruct (H 0 c eq_refl) as (out & E & Ed). rewrite Z.add_0_r in Ed. destruct (IH (i + 1)) as (outs & cols & E1 & E2 & E3 & E4).
    { intros j c1 Hj. pose proof (nthZ_Some _ _ _ Hj). destruct (H (j + 1) c1) as (o1 & A & B); [rewrite nthZ_cons; destruct (Z.eqb_spec (j + 1) 0); [lia|]; rewrite Z.add_simpl_r; exact Hj|].
      exists o1. split; [exact A|]. replace (i + 1 + j) with (i + (j + 1)) by lia. exact B. }
    exists (out :: outs), (map (fun g => redu kd 1 (form_of c) (map (fun m => (fst m, field i (snd m))) (ms g))) (zseq 0 n) :: cols).
    split; [simpl; rewrite E; cbn [bind]; rewrite E1; reflexivity|]. split; [rewrite !zlen_cons; lia|]. split; [simpl; rewrite Ed, E3; reflexivity|].
    intros g Hg. simpl. rewrite nthZ_map, nthZ_zseq by lia. cbn [option_map]. rewrite (E4 g Hg). rewrite Z.add_0_l. reflexivity.
Qed.
Lemma omap_zseq_map {B} (f : Z -> option B) (h : Z -> B) n : (forall g, 0 <= g < n -> f g = Some (h g)) -> omap f (zseq 0 n) = Some (map h (zseq 0 n)).
Proof. intros H. rewrite (omap_ext _ (fun g => Some (h g))); [apply omap_Some_map|]. intros g Hg. apply H. apply In_zseq in Hg. lia. Qed.

Lemma record_good fuel keys len cs vs starts shifts parents n kd tags d :
  Main fuel -> (S (maxl (map bound cs)) <= S fuel)%nat -> den (Record keys len cs) = Some vs -> union_free (FRecord keys (map form_of cs)) = true -> levels (FRecord keys (map form_of cs)) = Some d ->
  forallb top_records (map form_of cs) = true -> Forall prep cs -> 0 <= n -> zlen parents = zlen vs -> inside n parents -> zlen tags = zlen vs ->
  (d = 1 -> pos = true -> placed starts [] parents tags /\ shifts = []) -> (d <> 1 -> deep_ok (Record keys len cs) starts shifts parents n) ->
  exists out, (let* contents := mapres (fun x => let* trimmed := getitem_range_nowrap x 0 len in RN fuel trimmed 1 starts shifts parents n kd) cs in mkRecord keys n contents) = Ok out /\
    is_record out = true /\ den out = Some (map (fun g => redu kd 1 (FRecord keys (map form_of cs)) (members parents (combine tags vs) g)) (zseq 0 n)).
Proof.
  intros HM Hb Hd Hu Hlv Htr HP Hn Hp Hin Ht Hpl Hdp. pose proof Hd as Hd0. cbn [den] in Hd. destruct (omap den cs) as [vss|] eqn:Ec; [|discriminate].
  destruct (0 <=? len) eqn:E0; [|discriminate]. destruct (keys_ok keys (zlen cs)) eqn:Ek; [|discriminate]. cbn [andb] in Hd. apply Z.leb_le in E0.
  pose proof (omap_zlen _ _ _ Hd) as Hvl. rewrite zlen_zseq in Hvl by lia.
  destruct (record_loop (fun x => let* trimmed := getitem_range_nowrap x 0 len in RN fuel trimmed 1 starts shifts parents n kd) kd n (fun g => members parents (combine tags vs) g) cs 0) as (outs & cols & E1 & E2 & E3 & E4).
  { intros j c Hj. destruct (omap_nth _ _ _ _ _ Ec Hj) as [Eus [us Hus]]. rewrite Hus in Eus. symmetry in Eus.
    pose proof (record_fields _ _ _ _ _ _ _ Ec Hd0 Eus) as Hf. assert (Hlen : len <= zlen us).
    { assert (Hz : zlen (slice 0 len us) = zlen vs) by (rewrite <- Hf; apply zlen_map). destruct (Z.le_gt_cases len (zlen us)) as [|Hlt]; [assumption|]. exfalso.
      assert (zlen us < zlen vs) by lia. destruct (nthZ_lt (slice 0 len us) (zlen us)) as [v Hv]; [pose proof (zlen_nonneg us); lia|]. unfold slice in Hv. rewrite Z.sub_0_r in Hv. change (Z.to_nat 0) with 0%nat in Hv. cbn [skipn] in Hv.
      rewrite firstn_all2 in Hv by (unfold zlen in *; lia). apply nthZ_Some in Hv. lia. }
    destruct (range_den c us 0 len Hus) as (tr & Htrm & Hdt); [lia|lia|]. rewrite Htrm. cbn [bind]. destruct (range_same _ _ _ _ Htrm) as [Hft Hbt].
    pose proof (nthZ_In _ _ _ Hj) as Hinc. assert (Hinf : In (form_of c) (map form_of cs)) by (apply in_map; exact Hinc).
    pose proof (levels_record_all _ _ _ _ Hlv Hinf) as Hlc.
    assert (Huc : union_free (form_of c) = true). { change (forallb union_free (map form_of cs) = true) in Hu. rewrite forallb_forall in Hu. apply Hu. exact Hinf. }
    rewrite forallb_forall in Htr. specialize (Htr _ Hinf). rewrite Forall_forall in HP. specialize (HP _ Hinc).
    destruct (HM tr (slice 0 len us) starts shifts parents n kd tags d) as (out & E & Ed & _); try assumption; try (rewrite Hft; assumption).
    - pose proof (need_bound tr). pose proof (maxl_In (bound c) (map bound cs) ltac:(apply in_map; exact Hinc)). lia.
    - eapply range_prep; [|exact HP|exact Htrm]. reflexivity.
    - rewrite <- Hf, zlen_map. exact Hp.
    - rewrite <- Hf, zlen_map. exact Ht.
    - rewrite Hft. unfold has_levels. rewrite Hlc. intros H1 Hpp. apply Z.eqb_eq in H1. destruct (Hpl H1 Hpp) as [A ->]. split; [exact A|left; reflexivity].
    - rewrite Hft. unfold has_levels. rewrite Hlc. intros H1. apply Z.eqb_neq in H1. destruct (Hdp H1) as (A & counts & B1 & B2 & B3 & B4). split; [exact A|]. exists counts. repeat split; try assumption. intros Hz _. apply B4; [exact Hz|reflexivity].
    - exists out. split; [exact E|]. rewrite Ed, Hft. f_equal. apply map_ext. intros g. f_equal. rewrite <- Hf, combine_map_r, Z.add_0_l. apply (members_map (fun m : Z * value => (fst m, field j (snd m)))). }
  rewrite E1. cbn [bind].
  assert (EM : mkRecord keys n outs = Ok (Record keys n outs)).
  { unfold mkRecord. destruct keys as [ks|]; [|reflexivity]. cbn [keys_ok] in Ek. rewrite E2. unfold keys_ok in Ek. rewrite Ek. reflexivity. }
  exists (Record keys n outs). split; [exact EM|]. split; [reflexivity|]. cbn [den]. rewrite E3, E2, Ek. destruct (Z.leb_spec 0 n); [|lia]. cbn [andb].
  apply omap_zseq_map. intros g Hg. rewrite (E4 g Hg). cbn [option_map]. rewrite red_record. reflexivity.
Qed.

(** ** values of option types *)
Lemma pick_combine {A B} fl : forall (a : list A) (b : list B), combine (pick fl a) (pick fl b) = pick fl (combine a b).
Proof.
  induction fl as [|x fl IH]; intros [|y a] [|z b]; simpl; rewrite ?pick_nil, ?IH; try reflexivity; destruct x; simpl; rewrite ?combine_nil, ?IH; reflexivity.
Qed.
Lemma members_In {A} parents (T : list A) g m : In m (members parents T g) -> In m T.
Proof.
  unfold members. apply pick_In.
Qed.
Lemma numpy_zero dt data starts shifts parents n kd out : numpy_reduce F r mask dt data starts shifts parents n kd = Ok out -> zero_list out.
Proof.
  unfold numpy_reduce. intros H. apply bind_Ok in H as (p & _ & H). apply bind_Ok in H as (p' & _ & H). apply bind_Ok in H as (o & Ho & H).
  assert (Hz : zero_list o). { destruct mask; [|injection Ho as <-; exact I]. apply bind_Ok in Ho as (om & _ & Ho). apply mkByteMasked_inv in Ho as ->. exact I. }
  destruct kd; [apply mkRegular_inv in H as ->; exact I|injection H as <-; exact Hz].
Qed.
Lemma option_value kd c' ws vs parents tags fl nc g : den c' = Some ws -> union_free (form_of c') = true -> has_levels (form_of c') 1 = true ->
  omap (nthZ ws) nc = Some (pick fl vs) -> zlen fl = zlen vs -> zlen tags = zlen vs -> (forall i, nthZ fl i = Some false -> nthZ vs i = Some VNone) ->
  redu kd 1 (FOption (form_of c')) (members parents (combine tags vs) g) = redu kd 1 (form_of c') (members (pick fl parents) (combine (pick fl tags) (pick fl vs)) g).
Proof.
  intros Hd Hu Hl N3 N2 Ht N4. cbn [red]. rewrite Hl. rewrite pick_combine. rewrite <- (red_present F r mask kd (form_of c') (members (pick fl parents) _ g) Hl).
  - f_equal. symmetry. apply members_pick; [assert (QQ : zlen (combine tags vs) = zlen tags) by (apply zlen_combine; exact Ht); change (zlen fl = zlen (combine tags vs)); lia|]. intros i m Hi Hm. apply nthZ_combine_inv in Hm. rewrite (N4 i Hi) in Hm. unfold SpecReduce.present. injection Hm as <-. reflexivity.
  - intros Ho m Hm Hno. rewrite <- pick_combine in Hm. apply (in_map snd) in Hm. rewrite members_tags in Hm by (apply zlen_pick; exact Ht). rewrite Hno in Hm. apply members_In in Hm.
    destruct (omap_In _ _ _ _ N3 Hm) as (i & _ & Hi). apply nthZ_In in Hi. exact (not_none _ _ Hd Hu Ho Hi).
Qed.

Lemma regular_sizes size zl c vs v : den (Regular size zl c) = Some vs -> In v vs -> exists l, v = VList l /\ zlen l = size.
Proof.
  cbn [den]. destruct (den c) as [ws|]; [|discriminate]. destruct (Z.ltb_spec 0 size).
  - intros H1 H2. destruct (omap_In _ _ _ _ H1 H2) as (i & _ & Hi). apply sublist_inv in Hi as [[Hi _]|(_ & A & B & ->)]; [nia|]. eexists. split; [reflexivity|]. rewrite zlen_slice by lia. lia.
  - destruct (Z.eqb_spec size 0); [|discriminate]. destruct (0 <=? zl); [|discriminate]. cbn [andb]. intros H1 H2. injection H1 as <-. apply repeat_spec in H2. exists []. split; [exact H2|subst; reflexivity].
Qed.


(** the list nodes *)
Lemma offsets0 counts : nthZ (offsets_of counts) 0 = Some 0.
Proof. rewrite nthZ_offsets_before, before_0 by (pose proof (zlen_nonneg counts); lia). reflexivity. Qed.
Lemma list_outcome c fuel o c' vs parents n kd tags d starts shifts :
  Main fuel -> den (ListOffset o c') = Some vs -> union_free (form_of c') = true -> levels (form_of c') = Some d -> flat_records (form_of c') = true -> prep c' ->
  Forall (fun i => 0 <= i <= length_ c') o -> (zb = true -> nthZ o 0 = Some 0) -> (bound c' <= fuel)%nat ->
  0 <= n -> zlen parents = zlen vs -> zlen tags = zlen vs -> deep_ok c starts shifts parents n ->
  outcome c kd (FList (form_of c')) vs parents tags n (LO fuel shifts parents n kd o c').
Proof.
  intros HM Hd Hu Hlv Hfr HP Hob Hz Hb Hn Hp Ht (-> & counts & C1 & C2 & C3 & _).
  destruct (LO_good fuel o c' vs parents n kd d counts) as (x & E & Ed & Ez); try assumption.
  exists (ListOffset (offsets_of counts) x). split; [exact E|]. split; [eapply LO_den; eassumption|]. split; [apply offsets0|]. intros _ _. eauto.
Qed.
Lemma regular_outcome c0 fuel o c' vs parents n kd tags d starts shifts size zl :
  Main fuel -> den (ListOffset o c') = Some vs -> union_free (form_of c') = true -> levels (form_of c') = Some d -> flat_records (form_of c') = true -> prep c' ->
  Forall (fun i => 0 <= i <= length_ c') o -> (zb = true -> nthZ o 0 = Some 0) -> (bound c' <= fuel)%nat ->
  0 <= n -> zlen parents = zlen vs -> zlen tags = zlen vs -> deep_ok (Regular size zl c0) starts shifts parents n ->
  den (Regular size zl c0) = Some vs -> form_of c0 = form_of c' -> prep c0 ->
  outcome (Regular size zl c0) kd (FList (form_of c')) vs parents tags n
    (let* out := LO fuel shifts parents n kd o c' in if dimension_optiontype c0 then Ok out else regular_convert 1 (1 + d) kd out).
Proof.
  intros HM Hd Hu Hlv Hfr HP Hob Hz Hb Hn Hp Ht (-> & counts & C1 & C2 & C3 & _) Hdr Hf0 HP0.
  destruct (LO_good fuel o c' vs parents n kd d counts) as (x & E & Ed & Ez); try assumption. rewrite E. cbn [bind].
  assert (HC : exists x', (if dimension_optiontype c0 then Ok (ListOffset (offsets_of counts) x) else regular_convert 1 (1 + d) kd (ListOffset (offsets_of counts) x)) = Ok (ListOffset (offsets_of counts) x') /\ den x' = Some (map (H_ kd (form_of c')) vs)).
  { destruct (dimension_optiontype c0) eqn:Edo; [exists x; split; [reflexivity|exact Ed]|]. rewrite <- Hf0 in Ed, Hlv |- *. apply (convert_good kd c0 x vs size counts (1 + d)); try assumption.
    - intros v Hv. eapply regular_sizes; eassumption.
    - rewrite <- Hf0 in Hfr, Hu. clear - Edo HP0 Hfr Hu Hlv. destruct c0; try discriminate; cbn [form_of] in *; try (right; eexists; reflexivity); try (left; reflexivity).
      + cbn [prepared] in HP0. destruct HP0 as [[H|[_ H]] _]; [left; exact H|]. destruct c0; try discriminate; right; eexists; reflexivity.
      + left. apply has_levels_eq. apply flat_record_levels. exact Hfr.
    - intros H1. apply has_levels_eq in H1. rewrite H1 in Hlv. injection Hlv as <-. reflexivity.
    - pose proof (levels_pos _ _ Hlv). lia. }
  destruct HC as (x' & -> & Ed'). exists (ListOffset (offsets_of counts) x'). split; [reflexivity|]. split; [eapply LO_den; eassumption|]. split; [apply offsets0|]. intros _ _. eauto.
Qed.

(** ** every class *)
Theorem main fuel : Main fuel.
Proof.
  induction fuel as [|fuel IH]; intros c vs starts shifts parents n kd tags d Hneed Hd Hu Hlv Htop HP Hn Hp Hin Ht Hflat Hdeep; [pose proof (need_pos c); lia|].
  destruct c as [ |dt data|sts stp c'|offs c'|size zl c'|ix c'|ix c'|mk vw c'|mk vw lsb len c'|c'|keys len cs|utags uix cs].
  - (* Empty *)
    cbn [den] in Hd. injection Hd as <-. destruct (numpy_ok F r mask (preferred_dtype r) [] starts shifts parents n kd tags Hn Hp Hin Ht) as (out & E & Ed). { intros HPp. apply Hflat; [reflexivity|exact HPp]. }
    exists out. cbn [reduce_next]. split; [exact E|]. split; [exact Ed|]. split; [|discriminate]. eapply numpy_zero. exact E.
  - (* Numpy *)
    cbn [den] in Hd. injection Hd as <-. rewrite zlen_map in Hp, Ht. destruct (numpy_ok F r mask dt data starts shifts parents n kd tags Hn Hp Hin Ht) as (out & E & Ed). { intros HPp. apply Hflat; [reflexivity|exact HPp]. }
    exists out. cbn [reduce_next]. split; [exact E|]. split; [exact Ed|]. split; [|discriminate]. eapply numpy_zero. exact E.
  - (* ListA *)
    cbn [form_of levels] in Hlv. destruct (levels (form_of c')) as [d'|] eqn:Hlv'; [|discriminate]. cbn [option_map] in Hlv. injection Hlv as <-. pose proof (levels_pos _ _ Hlv') as Hd'.
    specialize (Hdeep (list_deep _)). destruct (to_listoffset (is64 (ListA sts stp c')) true _ _ _ _ Hd eq_refl) as (o & c'' & E & Ed & E0). specialize (E0 eq_refl).
    destruct (tolistoffset_same _ _ _ _ E) as (o2 & c2 & E2 & [S1 S2]). injection E2 as <- <-. cbn [form_of] in S1. injection S1 as S1. cbn [bound] in S2. injection S2 as S2.
    assert (HPc : prep c'') by (eapply tolistoffset_prep; [|exact Htop|exact HP|exact E]; reflexivity).
    cbn [reduce_next]. rewrite E. cbn [bind]. rewrite (levels_branch (ListOffset o c'') (1 + d')) by (cbn [form_of levels]; rewrite S1, ?Hlv'; first [reflexivity|exact Hu]).
    destruct (Z.eqb_spec 1 (1 + d')); [lia|]. cbn [negb andb]. cbn [form_of]. rewrite <- S1.
    apply (list_outcome (ListA sts stp c') fuel o c'' vs parents n kd tags d' starts shifts); try assumption; try (rewrite S1; assumption); try (intros; exact E0).
    + exact (offsets_inside _ _ _ Ed E0).
    + cbn [need bound] in Hneed. lia.
  - (* ListOffset *)
    cbn [form_of levels] in Hlv. destruct (levels (form_of c')) as [d'|] eqn:Hlv'; [|discriminate]. cbn [option_map] in Hlv. injection Hlv as <-. pose proof (levels_pos _ _ Hlv') as Hd'.
    specialize (Hdeep (list_deep _)). cbn [reduce_next]. destruct (is64 (ListOffset offs c')).
    + rewrite (levels_branch (ListOffset offs c') (1 + d')) by (cbn [form_of levels]; rewrite ?Hlv'; first [reflexivity|exact Hu]).
      destruct (Z.eqb_spec 1 (1 + d')); [lia|]. cbn [negb andb]. cbn [form_of]. destruct HP as [HP1 HP2].
      apply (list_outcome (ListOffset offs c') fuel offs c' vs parents n kd tags d' starts shifts); try assumption.
      * clear Hflat Hdeep IH. destruct zb; [exact (offsets_inside _ _ _ Hd HP1)|exact HP1].
      * intros Hz. rewrite Hz in HP1. exact HP1.
      * cbn [need bound] in Hneed. lia.
    + destruct (to_listoffset false true _ _ _ _ Hd eq_refl) as (o & c'' & E & Ed & E0). specialize (E0 eq_refl).
      destruct (tolistoffset_same _ _ _ _ E) as (o2 & c2 & E2 & [S1 S2]). injection E2 as <- <-. cbn [form_of] in S1. injection S1 as S1. cbn [bound] in S2. injection S2 as S2.
      assert (HPc : prep c'') by (eapply tolistoffset_prep; [|exact Htop|apply HP|exact E]; reflexivity).
      rewrite E. cbn [bind]. rewrite (levels_branch (ListOffset o c'') (1 + d')) by (cbn [form_of levels]; rewrite S1, ?Hlv'; first [reflexivity|exact Hu]).
      destruct (Z.eqb_spec 1 (1 + d')); [lia|]. cbn [negb andb]. cbn [form_of]. rewrite <- S1.
      apply (list_outcome (ListOffset offs c') fuel o c'' vs parents n kd tags d' starts shifts); try assumption; try (rewrite S1; assumption); try (intros; exact E0).
      * exact (offsets_inside _ _ _ Ed E0).
      * cbn [need bound] in Hneed. lia.
  - (* Regular *)
    cbn [form_of levels] in Hlv. destruct (levels (form_of c')) as [d'|] eqn:Hlv'; [|discriminate]. cbn [option_map] in Hlv. injection Hlv as <-. pose proof (levels_pos _ _ Hlv') as Hd'.
    specialize (Hdeep (list_deep _)). destruct (to_listoffset true true _ _ _ _ Hd eq_refl) as (o & c'' & E & Ed & E0). specialize (E0 eq_refl).
    destruct (tolistoffset_same _ _ _ _ E) as (o2 & c2 & E2 & [S1 S2]). injection E2 as <- <-. cbn [form_of] in S1. injection S1 as S1. cbn [bound] in S2. injection S2 as S2.
    assert (HPc : prep c'') by (eapply tolistoffset_prep; [|exact Htop|exact HP|exact E]; reflexivity).
    cbn [reduce_next]. rewrite E. cbn [bind]. rewrite (levels_branch (ListOffset o c'') (1 + d')) by (cbn [form_of levels]; rewrite S1, ?Hlv'; first [reflexivity|exact Hu]).
    rewrite (levels_branch (Regular size zl c') (1 + d')) by (cbn [form_of levels]; rewrite ?Hlv'; first [reflexivity|exact Hu]). cbn [snd].
    destruct (Z.eqb_spec 1 (1 + d')); [lia|]. cbn [negb andb]. cbn [form_of]. rewrite <- S1.
    apply (regular_outcome c' fuel o c'' vs parents n kd tags d' starts shifts size zl); try assumption; try (rewrite S1; assumption); try (intros; exact E0).
    + exact (offsets_inside _ _ _ Ed E0).
    + cbn [need bound] in Hneed. lia.
    + symmetry. exact S1.
  - (* Indexed *)
    cbn [den] in Hd. destruct (den c') as [ws|] eqn:Ec; [|discriminate]. cbn [form_of] in *. destruct HP as [HPi HP].
    assert (HI : Forall (fun i => 0 <= i) ix). { apply Forall_forall. intros i Hi. destruct (In_nthZ _ _ Hi) as [j Hj]. destruct (omap_nth _ _ _ _ _ Hd Hj) as [_ [y Hy]]. apply nthZ_Some in Hy. lia. }
    assert (Hd2 : den (IndexedOption ix c') = Some vs). { cbn [den]. rewrite Ec, <- Hd. apply omap_ext. intros i Hi. rewrite Forall_forall in HI. specialize (HI i Hi). destruct (Z.ltb_spec i 0); [lia|reflexivity]. }
    destruct (indexed_next3 ix c' ws vs parents Ec Hd2 Hp) as (fl & nc & N & Efl).
    assert (Hall : forall A (l : list A), zlen l = zlen vs -> pick fl l = l).
    { intros A l Hl. assert (Hfl : fl = map (fun _ => true) ix) by (rewrite Efl; apply map_ext_in; intros i Hi; rewrite Forall_forall in HI; specialize (HI i Hi); apply Z.leb_le; exact HI).
      pose proof (omap_zlen _ _ _ Hd) as Hz. rewrite Hfl. rewrite Hz in Hl. clear - Hl. revert l Hl. induction ix as [|i ix IH]; intros [|x l] Hl; rewrite ?zlen_cons in Hl; simpl; try reflexivity.
      - pose proof (zlen_nonneg l). change (zlen (@nil Z)) with 0 in Hl. lia.
      - rewrite IH by lia. reflexivity. }
    cbn [reduce_next]. unfold indexed_reduce. destruct (has_levels (form_of c') 1) eqn:Hl1.
    + apply (option_flat fuel (Indexed ix c') c' (form_of c') vs ws starts shifts parents n kd tags d _ (fun i => let* j := rd ix i in Ok (0 <=? j)) fl nc false false); try assumption.
      * intros x Hx. pose proof (carry_need ix _ _ _ Hx). lia.
      * symmetry. apply (omap_zlen _ _ _ Hd).
      * intros Hpp. destruct (Hflat eq_refl Hpp) as [A [->|B]]; [|discriminate]. rewrite (Hall _ parents), (Hall _ tags) by assumption. exact A.
      * intros g. rewrite (Hall _ parents), (Hall _ tags), (Hall _ vs) by (assumption || reflexivity). reflexivity.
    + destruct HPi as [HPi|[Hz Hli]]; [congruence|]. destruct (Hdeep eq_refl) as (-> & counts & C1 & C2 & C3 & C4).
      apply (option_deep fuel (Indexed ix c') c' (form_of c') vs ws starts parents n kd tags d _ (fun i => let* j := rd ix i in Ok (0 <=? j)) fl nc false _ false counts); try assumption.
      * destruct (form_of c') eqn:Ef; try exact Htop. destruct c'; discriminate.
      * destruct c'; try discriminate; cbn [need bound] in *; lia.
      * apply C4; [exact Hz|reflexivity].
      * reflexivity.
  - (* IndexedOption *)
    pose proof Hd as Hd2. cbn [den] in Hd. destruct (den c') as [ws|] eqn:Ec; [|discriminate]. destruct HP as (HPi & HPp & HP).
    destruct (indexed_next3 ix c' ws vs parents Ec Hd2 Hp) as (fl & nc & N & _). pose proof N as (N1 & N2 & N3 & N4 & N5).
    cbn [reduce_next]. unfold indexed_reduce. change (has_levels (form_of (IndexedOption ix c')) 1) with (has_levels (form_of c') 1) in *. destruct (has_levels (form_of c') 1) eqn:Hl1.
    + apply (option_flat fuel (IndexedOption ix c') c' (FOption (form_of c')) vs ws starts shifts parents n kd tags d _ (fun i => let* j := rd ix i in Ok (0 <=? j)) fl nc true true); try assumption.
      * intros x Hx. pose proof (need_bound x). destruct (carry_same _ _ _ _ Hx) as [_ B]. cbn [need bound] in Hneed. lia.
      * symmetry. apply (omap_zlen _ _ _ Hd).
      * intros Hpp. destruct (Hflat eq_refl Hpp) as [A _]. split; [exact A|]. destruct (HPp Hpp) as [Hx|Hx]; [|exact Hx]. exfalso. destruct c'; try discriminate Hx; cbn [form_of] in Hl1; rewrite list_deep in Hl1; discriminate Hl1.
      * intros g. eapply option_value; eassumption.
    + destruct HPi as [HPi|[Hz Hli]]; [congruence|]. destruct (Hdeep eq_refl) as (-> & counts & C1 & C2 & C3 & C4).
      apply (option_deep fuel (IndexedOption ix c') c' (FOption (form_of c')) vs ws starts parents n kd tags d _ (fun i => let* j := rd ix i in Ok (0 <=? j)) fl nc true _ true counts); try assumption.
      * cbn [need bound] in Hneed. lia.
      * apply C4; [exact Hz|reflexivity].
      * intros ms. cbn [red]. rewrite Hl1. reflexivity.
  - (* ByteMasked *)
    pose proof Hd as Hd2. cbn [den] in Hd. destruct (den c') as [ws|] eqn:Ec; [|discriminate]. destruct HP as (HPi & HPp & HP).
    destruct (bytemasked_next3 mk vw c' ws vs parents Ec Hd2 Hp) as (fl & nc & N). pose proof N as (N1 & N2 & N3 & N4 & N5).
    cbn [reduce_next]. unfold bytemasked_reduce. change (has_levels (form_of (ByteMasked mk vw c')) 1) with (has_levels (form_of c') 1) in *. destruct (has_levels (form_of c') 1) eqn:Hl1.
    + apply (option_flat fuel (ByteMasked mk vw c') c' (FOption (form_of c')) vs ws starts shifts parents n kd tags d _ (fun i => let* m := rd mk i in Ok (Bool.eqb (negb (m =? 0)) vw)) fl nc true true); try assumption.
      * intros x Hx. pose proof (need_bound x). destruct (carry_same _ _ _ _ Hx) as [_ B]. cbn [need bound] in Hneed. lia.
      * pose proof (den_length _ _ Hd2) as HL. cbn [length_] in HL. exact HL.
      * intros Hpp. destruct (Hflat eq_refl Hpp) as [A _]. split; [exact A|]. destruct (HPp Hpp) as [Hx|Hx]; [|exact Hx]. exfalso. destruct c'; try discriminate Hx; cbn [form_of] in Hl1; rewrite list_deep in Hl1; discriminate Hl1.
      * intros g. eapply option_value; eassumption.
    + destruct HPi as [HPi|[Hz Hli]]; [congruence|]. destruct (Hdeep eq_refl) as (-> & counts & C1 & C2 & C3 & C4).
      apply (option_deep fuel (ByteMasked mk vw c') c' (FOption (form_of c')) vs ws starts parents n kd tags d _ (fun i => let* m := rd mk i in Ok (Bool.eqb (negb (m =? 0)) vw)) fl nc true _ true counts); try assumption.
      * cbn [need bound] in Hneed. lia.
      * apply C4; [exact Hz|reflexivity].
      * intros ms. cbn [red]. rewrite Hl1. reflexivity.
  - (* BitMasked *)
    destruct (bitmasked_den _ _ _ _ _ _ Hd) as [HL Hd2]. set (bm := map (fun i => b2z (maskval mk lsb i)) (zseq 0 len)) in *.
    pose proof Hd as Hd3. cbn [den] in Hd3. destruct (den c') as [ws|] eqn:Ec; [|discriminate]. clear Hd3. destruct HP as (HPi & HPp & HP).
    destruct (bytemasked_next3 bm vw c' ws vs parents Ec Hd2 Hp) as (fl & nc & N). pose proof N as (N1 & N2 & N3 & N4 & N5).
    cbn [reduce_next toByteMaskedArray]. rewrite bytemask0_spec by exact HL. fold bm. cbn [bind].
    assert (EM : mkByteMasked bm vw c' = Ok (ByteMasked bm vw c')).
    { unfold mkByteMasked. rewrite (den_length _ _ Ec). cbn [den] in Hd2. rewrite Ec in Hd2. destruct (Z.leb_spec (zlen bm) (zlen ws)); [|discriminate]. destruct (Z.ltb_spec (zlen ws) (zlen bm)); [lia|reflexivity]. }
    rewrite EM. cbn [bind]. unfold bytemasked_reduce. change (has_levels (form_of (BitMasked mk vw lsb len c')) 1) with (has_levels (form_of c') 1) in *. destruct (has_levels (form_of c') 1) eqn:Hl1.
    + apply (option_flat fuel (BitMasked mk vw lsb len c') c' (FOption (form_of c')) vs ws starts shifts parents n kd tags d _ (fun i => let* m := rd bm i in Ok (Bool.eqb (negb (m =? 0)) vw)) fl nc true true); try assumption.
      * intros x Hx. pose proof (need_bound x). destruct (carry_same _ _ _ _ Hx) as [_ B]. cbn [need bound] in Hneed. lia.
      * pose proof (den_length _ _ Hd2) as HL2. cbn [length_] in HL2. exact HL2.
      * intros Hpp. destruct (Hflat eq_refl Hpp) as [A _]. split; [exact A|]. destruct (HPp Hpp) as [Hx|Hx]; [|exact Hx]. exfalso. destruct c'; try discriminate Hx; cbn [form_of] in Hl1; rewrite list_deep in Hl1; discriminate Hl1.
      * intros g. eapply option_value; eassumption.
    + destruct HPi as [HPi|[Hz Hli]]; [congruence|]. destruct (Hdeep eq_refl) as (-> & counts & C1 & C2 & C3 & C4).
      apply (option_deep fuel (BitMasked mk vw lsb len c') c' (FOption (form_of c')) vs ws starts parents n kd tags d _ (fun i => let* m := rd bm i in Ok (Bool.eqb (negb (m =? 0)) vw)) fl nc true _ true counts); try assumption.
      * cbn [need bound] in Hneed. lia.
      * apply C4; [exact Hz|reflexivity].
      * intros ms. cbn [red]. rewrite Hl1. reflexivity.
  - (* Unmasked *)
    cbn [den] in Hd. destruct HP as (HPi & HPp & HP). change (has_levels (form_of (Unmasked c')) 1) with (has_levels (form_of c') 1) in *. cbn [need bound] in Hneed.
    cbn [reduce_next]. destruct (has_levels (form_of c') 1) eqn:Hl1.
    + assert (EU : unregular true c' = Ok c') by (unfold unregular; destruct c'; try reflexivity; cbn [form_of] in Hl1; rewrite list_deep in Hl1; discriminate). rewrite EU. cbn [bind].
      destruct (IH c' vs starts shifts parents n kd tags d) as (out & E & Ed & Ez & _); try assumption.
      * pose proof (need_bound c'). lia.
      * apply (levels1 _ Hl1). exact Hu.
      * intros _ Hpp. destruct (Hflat eq_refl Hpp) as [A [B|B]]; (split; [exact A|]); [left; exact B|right; exact B].
      * congruence.
      * exists out. split; [exact E|]. split; [|split; [exact Ez|intros Hx; change (has_levels (form_of c') 1 = false) in Hx; congruence]]. rewrite Ed. f_equal. apply map_ext. intros g. cbn [form_of red]. rewrite Hl1. symmetry. apply red_present; [exact Hl1|].
        intros Ho m Hm Hno. apply (in_map snd) in Hm. rewrite members_tags in Hm by exact Ht. rewrite Hno in Hm. apply members_In in Hm. exact (not_none _ _ Hd Hu Ho Hm).
    + destruct HPi as [HPi|[Hz Hli]]; [congruence|]. destruct (Hdeep eq_refl) as (-> & counts & C1 & C2 & C3 & C4).
      destruct (unregular_list c' vs Hd Hli Htop HP) as (next & EU & Hdn & [S1 S2] & Hln & HPn). rewrite EU. cbn [bind].
      destruct (IH next vs starts [] parents n kd tags d) as (out & E & Ed & Ez & Eo); try assumption; try (rewrite S1; assumption).
      * pose proof (need_bound next). lia.
      * rewrite S1. apply flat_top; assumption.
      * rewrite S1. congruence.
      * intros _. split; [reflexivity|]. exists counts. repeat split; try assumption. intros _ Hx. congruence.
      * exists out. split; [exact E|]. split; [rewrite Ed, S1; f_equal; apply map_ext; intros g; cbn [form_of red]; rewrite Hl1; reflexivity|]. split; [exact Ez|]. intros _ _. apply Eo; [rewrite S1; exact Hl1|destruct next; try discriminate; reflexivity].
  - (* Record *)
    cbn [form_of] in *. cbn [prepared] in HP. apply prep_all in HP. cbn [reduce_next].
    destruct (record_good fuel keys len cs vs starts shifts parents n kd tags d) as (out & E & Er & Ed); try assumption.
    + intros -> Hpp. destruct (Hflat) as [A [->|B]]; [unfold has_levels; rewrite Hlv; reflexivity|exact Hpp| |discriminate B]. split; [exact A|reflexivity].
    + intros Hn1. apply Hdeep. unfold has_levels. rewrite Hlv. apply Z.eqb_neq. exact Hn1.
    + exists out. split; [exact E|]. split; [exact Ed|]. split; [destruct out; try discriminate; exact I|]. discriminate.
  - (* Union *)
    discriminate.
Qed.
End Main.
