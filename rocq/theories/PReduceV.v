(** Proofs about the reducers: facts about values and types. *)
From Verif Require Import Base BaseLemmas OmapLemmas LoopLemmas Content KCore Core KConvert Convert KReduce Reduce SpecArray SpecForm SpecMerge SpecReduce
  PCore PCarry PList PConvert PForm PAxis PNat PPadK PNum PFlatten PLocalIndex POption PReduceK PReduceF PReduceO PReduceL.

(** ** missing values only come from option types *)
Definition is_option (f : form) : bool := match f with FOption _ => true | _ => false end.
Lemma omap_In {A B} (f : A -> option B) l ys y : omap f l = Some ys -> In y ys -> exists x, In x l /\ f x = Some y.
Proof.
  revert ys; induction l as [|x l IH]; intros ys H Hy; simpl in H; [injection H as <-; destruct Hy|].
  destruct (f x) as [z|] eqn:E; [|discriminate]. destruct (omap f l) as [zs|]; [|discriminate]. injection H as <-. destruct Hy as [<-|Hy]; [exists x; split; [left; reflexivity|exact E]|].
  destruct (IH zs eq_refl Hy) as (x' & A1 & A2). exists x'. split; [right; exact A1|exact A2].
Qed.
Lemma not_none c : forall vs, den c = Some vs -> union_free (form_of c) = true -> is_option (form_of c) = false -> ~ In VNone vs.
Proof.
  induction c using content_ind'; intros vs Hd Hu Ho; cbn [form_of union_free is_option] in *; try discriminate; intros Hin.
  - cbn [den] in Hd. injection Hd as <-. destruct Hin.
  - cbn [den] in Hd. injection Hd as <-. apply in_map_iff in Hin as (x & E & _). destruct dt; discriminate.
  - destruct (list_inv _ _ _ _ Hd eq_refl) as (ws & _ & _ & ->). apply in_map_iff in Hin as (x & E & _). discriminate.
  - destruct (list_inv _ _ _ _ Hd eq_refl) as (ws & _ & _ & ->). apply in_map_iff in Hin as (x & E & _). discriminate.
  - destruct (list_inv _ _ _ _ Hd eq_refl) as (ws & _ & _ & ->). apply in_map_iff in Hin as (x & E & _). discriminate.
  - cbn [den] in Hd. destruct (den c) as [ws|]; [|discriminate]. destruct (omap_In _ _ _ _ Hd Hin) as (i & _ & E). apply nthZ_In in E. exact (IHc ws eq_refl Hu Ho E).
  - cbn [den] in Hd. destruct (omap den cs) as [vss|]; [|discriminate]. destruct ((0 <=? len) && keys_ok keys (zlen cs)); [|discriminate].
    destruct (omap_In _ _ _ _ Hd Hin) as (i & _ & E). destruct (omap _ vss); [|discriminate]. injection E as E. destruct keys; discriminate.
Qed.

(** ** types with one level *)
Lemma levels1 f : has_levels f 1 = true -> union_free f = true -> flat_records f = true /\ top_records f = true.
Proof.
  induction f using form_ind'; intros Hl Hu; apply has_levels_eq in Hl; cbn [union_free] in Hu; try (split; reflexivity).
  - cbn [levels] in Hl. destruct (levels f) as [d|] eqn:E; [|discriminate]. apply levels_pos in E. cbn [option_map] in Hl. injection Hl as Hl. lia.
  - cbn [levels] in Hl. destruct IHf as [A _]; [apply has_levels_eq; exact Hl|exact Hu|]. cbn [flat_records top_records]. split; exact A.
  - apply levels_record in Hl. cbn [flat_records top_records]. split; [exact Hl|]. apply forallb_forall. intros f Hf. rewrite forallb_forall in Hl, Hu. rewrite Forall_forall in H.
    apply H; [exact Hf|apply Hl; exact Hf|apply Hu; exact Hf].
  - discriminate.
Qed.
Lemma flat_top f : flat_records f = true -> union_free f = true -> top_records f = true.
Proof.
  destruct f as [| | | |keys fs|fs]; intros H Hu; try exact H. apply (levels1 (FRecord keys fs)); [|exact Hu]. apply has_levels_eq. apply flat_record_levels. exact H.
Qed.
Lemma levels_record_all keys fs d f : levels (FRecord keys fs) = Some d -> In f fs -> levels f = Some d.
Proof.
  cbn [levels]. intros H Hf. apply (in_map levels) in Hf. destruct (map levels fs) as [|x l]; [destruct Hf|]. destruct x as [d0|]; [|discriminate].
  destruct (forallb _ l) eqn:E; [|discriminate]. injection H as <-. destruct Hf as [<-|Hf]; [reflexivity|]. rewrite forallb_forall in E. specialize (E _ Hf). destruct (levels f); [|discriminate]. f_equal. lia.
Qed.

Section Values.
Variable F : floats.
Variable r : reducer.
Variable mask : bool.
Notation redu := (red F r mask).

Lemma filter_idem {A} (p : A -> bool) l : filter p (filter p l) = filter p l.
Proof. induction l as [|x l IH]; simpl; [reflexivity|]. destruct (p x) eqn:E; simpl; rewrite ?E, IH; reflexivity. Qed.
Lemma red_present kd f ms : has_levels f 1 = true -> (is_option f = false -> forall m, In m ms -> snd m <> VNone) ->
  redu kd 1 f (filter SpecReduce.present ms) = redu kd 1 f ms.
Proof.
  intros Hl H. destruct (is_option f) eqn:E.
  - destruct f; try discriminate. cbn [red]. change (has_levels (FOption f) 1) with (has_levels f 1) in Hl. rewrite Hl. rewrite filter_idem. reflexivity.
  - rewrite (filter_ext_in SpecReduce.present (fun _ => true)); [|intros m Hm; specialize (H eq_refl m Hm); unfold SpecReduce.present; destruct (snd m); congruence]. f_equal. clear H. induction ms as [|x ms IH]; [reflexivity|]. change (x :: filter (fun _ : member => true) ms = x :: ms). f_equal. exact IH.
Qed.

(** what is done to every list of a deeper type *)
Definition inner_red (kd : bool) (f : form) (v : value) : value := match v with VList l => redu kd 1 f (enumerate l) | v => v end.
Lemma red_list kd f ms : has_levels (FList f) 1 = false -> redu kd 1 (FList f) ms = VList (map (inner_red kd f) (map snd ms)).
Proof. intros H. cbn [red]. rewrite H, map_map. f_equal. apply map_ext. intros [t v]. destruct v; reflexivity. Qed.
Lemma list_deep f : has_levels (FList f) 1 = false.
Proof. unfold has_levels. cbn [levels]. destruct (levels f) as [d|] eqn:E; [|reflexivity]. apply levels_pos in E. cbn [option_map]. apply Z.eqb_neq. lia. Qed.

(** ** records *)
Lemma field_row keys row i v : keys_ok keys (zlen row) = true -> nthZ row i = Some v -> field i (mkrow keys row) = v.
Proof.
  intros Hk Hv. unfold field, mkrow. destruct keys as [ks|]; [|rewrite Hv; reflexivity].
  cbn [keys_ok] in Hk. assert (E : map snd (combine ks row) = row).
  { clear Hv. assert (Hl : zlen ks = zlen row) by lia. clear Hk. revert row Hl. induction ks as [|k ks IH]; intros [|x row] Hl; simpl; try reflexivity; rewrite ?zlen_cons in Hl; try (change (zlen (@nil string)) with 0 in Hl); try (change (zlen (@nil value)) with 0 in Hl);
      try (pose proof (zlen_nonneg ks)); try (pose proof (zlen_nonneg row)); try lia. rewrite IH by lia. reflexivity. }
  rewrite E, Hv. reflexivity.
Qed.
Lemma record_fields keys len cs vss vs i us : omap den cs = Some vss -> den (Record keys len cs) = Some vs -> nthZ vss i = Some us -> map (field i) vs = slice 0 len us.
Proof.
  intros Hc Hd Hi. pose proof (record_lengths keys len cs vss vs us Hc Hd (nthZ_In _ _ _ Hi)) as Hl. cbn [den] in Hd. rewrite Hc in Hd. destruct (0 <=? len); [|discriminate]. cbn [andb] in Hd.
  destruct (keys_ok keys (zlen cs)) eqn:Ek; [|discriminate]. pose proof (omap_zlen _ _ _ Hd) as Hz. rewrite zlen_zseq in Hz by lia.
  apply list_eqZ; [rewrite zlen_map, zlen_slice by lia; lia|]. intros j Hj. rewrite zlen_map in Hj. rewrite nthZ_map, nthZ_slice by lia.
  assert (Hn : nthZ (zseq 0 len) j = Some j) by (rewrite nthZ_zseq by lia; f_equal; lia).
  destruct (omap_nth _ _ _ _ _ Hd Hn) as (E & v & Hv). rewrite Z.add_0_l. rewrite Hv in E. rewrite <- E. cbn [option_map].
  destruct (omap (fun vs => nthZ vs j) vss) as [row|] eqn:Er; [|discriminate]. cbn [option_map] in Hv. injection Hv as <-.
  destruct (omap_nth _ _ _ _ _ Er Hi) as (E2 & w & Hw). rewrite Hw. f_equal. apply field_row; [|rewrite <- E2; exact Hw]. rewrite (omap_zlen _ _ _ Er), (omap_zlen _ _ _ Hc). exact Ek.
Qed.
End Values.
