(** Proofs about types: equal types have the same values, simplifying keeps the type, empty arrays of a type, depths. *)
From Coq Require Import String Permutation.
From Verif Require Import Base BaseLemmas OmapLemmas Content KCore Core KOption Option KAxis Axis SpecArray Getitem Types SpecTypes PCore PForm PTypes PTypes2.
Local Open Scope string_scope.
Local Open Scope list_scope.
Local Open Scope Z_scope.

Lemma has_option t v : has_type (YOption t) v <-> v = VNone \/ has_type (option_type t) v.
Proof. induction t; cbn [option_type]; try reflexivity. cbn [has_type] in *. rewrite <- IHt. tauto. Qed.

Lemma choose {A B} (R : A -> B -> Prop) l : (forall x, In x l -> exists y, R x y) -> exists ys, Forall2 R l ys.
Proof.
  induction l as [|x l IH]; intros H; [exists []; constructor|]. destruct (H x (or_introl eq_refl)) as [y Hy]. destruct IH as [ys Hys]; [intros; apply H; right; assumption|].
  exists (y :: ys). now constructor.
Qed.
Lemma Forall2_nthZ {A B} (R : A -> B -> Prop) l l' : Forall2 R l l' -> zlen l = zlen l' /\ forall i x y, nthZ l i = Some x -> nthZ l' i = Some y -> R x y.
Proof.
  induction 1 as [|x y l l' Hxy HF [IL IH]]; [split; [reflexivity|intros i x y E; rewrite nthZ_nil in E; discriminate]|].
  rewrite !zlen_cons. split; [lia|]. intros i a b Ea Eb. rewrite nthZ_cons in Ea. rewrite nthZ_cons in Eb. destruct (i =? 0); [congruence|]. eapply IH; eassumption.
Qed.
Lemma Forall2_map_r {A B C} (R : A -> C -> Prop) (f : B -> C) l l' : Forall2 (fun x y => R x (f y)) l l' -> Forall2 R l (map f l').
Proof. induction 1; cbn; constructor; auto. Qed.

(** fields by key *)
Fixpoint value_at (k : string) (fs : list (string * value)) : value :=
  match fs with [] => VNone | f :: fs => if String.eqb (fst f) k then snd f else value_at k fs end.
Lemma value_at_nth ks vs i k v : NoDup ks -> nthZ ks i = Some k -> nthZ vs i = Some v -> value_at k (combine ks vs) = v.
Proof.
  revert vs i; induction ks as [|a ks IH]; intros [|b vs] i ND Ek Ev; try (rewrite nthZ_nil in *; discriminate). cbn [combine value_at fst snd].
  rewrite nthZ_cons in Ek. rewrite nthZ_cons in Ev. inversion ND; subst. destruct (Z.eqb_spec i 0).
  - injection Ek as <-. injection Ev as <-. now rewrite String.eqb_refl.
  - destruct (String.eqb_spec a k) as [->|]; [exfalso; apply H1; eapply nthZ_In; exact Ek|]. eapply IH; eassumption.
Qed.
Lemma combine_by_key ks vs : NoDup ks -> zlen ks = zlen vs -> combine ks vs = map (fun k => (k, value_at k (combine ks vs))) ks.
Proof.
  intros ND HL. apply list_eqZ; [rewrite zlen_map; apply zlen_combine; exact HL|]. intros i. rewrite nthZ_map.
  destruct (nthZ ks i) as [k|] eqn:Ek.
  - pose proof (nthZ_Some _ _ _ Ek). destruct (nthZ_lt vs i) as [v Ev]; [lia|]. cbn [option_map]. rewrite (value_at_nth _ _ _ _ _ ND Ek Ev). rewrite nthZ_combine, Ek, Ev. reflexivity.
  - rewrite nthZ_combine, Ek. reflexivity.
Qed.

Definition covered (t u : ty) : Prop := forall v, has_type t v -> exists w, same_value v w /\ has_type u w.
Lemma list_covered t u l : covered t u -> Forall (has_type t) l -> exists l', Forall2 same_value l l' /\ Forall (has_type u) l'.
Proof.
  intros HC HF. destruct (choose (fun v w => same_value v w /\ has_type u w) l) as [l' Hl'].
  { intros v Hv. rewrite Forall_forall in HF. apply HC. auto. }
  exists l'. clear -Hl'. split; induction Hl'; constructor; tauto.
Qed.
Lemma Forall2_zlen {A B} (R : A -> B -> Prop) l l' : Forall2 R l l' -> zlen l = zlen l'.
Proof. intros H. apply Forall2_nthZ in H. apply H. Qed.
Lemma row_covered ts us row : zlen ts = zlen us -> (forall j t u, nthZ ts j = Some t -> nthZ us j = Some u -> covered t u) -> row_of has_type ts row ->
  exists row', Forall2 same_value row row' /\ row_of has_type us row'.
Proof.
  revert us row; induction ts as [|t ts IH]; intros [|u us] [|v row] HL HC Hr; cbn [row_of] in Hr; try contradiction.
  - exists []. split; [constructor|exact I].
  - rewrite zlen_cons, zlen_nil in HL. pose proof (zlen_nonneg us). lia.
  - rewrite zlen_cons, zlen_nil in HL. pose proof (zlen_nonneg ts). lia.
  - rewrite !zlen_cons in HL. destruct Hr as [H1 H2]. destruct (HC 0 t u eq_refl eq_refl v H1) as (w & S1 & S2).
    destruct (IH us row) as (row' & R1 & R2); [lia| |exact H2|].
    + intros j a b Ea Eb. apply (HC (j + 1)); rewrite nthZ_cons; pose proof (nthZ_Some _ _ _ Ea); (destruct (Z.eqb_spec (j + 1) 0); [lia|]); now replace (j + 1 - 1) with j by lia.
    + exists (w :: row'). split; [now constructor|]. now split.
Qed.

Lemma equal_values t : forall u, plain_keys t -> plain_keys u -> ty_equal t u = true -> covered t u.
Proof.
  induction t using ty_ind'; intros u Pt Pu E; destruct u; try discriminate E; cbn [plain_keys] in Pt, Pu; intros v Hv.
  - contradiction.
  - apply dt_equal in E. subst. exists v. split; [constructor|exact Hv].
  - destruct Hv as (l & -> & Hl). destruct (list_covered _ _ _ (IHt _ Pt Pu E) Hl) as (l' & S1 & S2). exists (VList l'). split; [now constructor|]. exists l'. auto.
  - cbn [ty_equal] in E. apply andb_true_iff in E. destruct E as [En E]. destruct Hv as (l & -> & HL & Hl). destruct (list_covered _ _ _ (IHt _ Pt Pu E) Hl) as (l' & S1 & S2).
    exists (VList l'). split; [now constructor|]. exists l'. split; [reflexivity|]. split; [|exact S2]. rewrite <- (Forall2_zlen _ _ _ S1). lia.
  - rewrite option_equal in E. rewrite has_option in Hv. destruct Hv as [->|Hv]; [exists VNone; split; [constructor|left; reflexivity]|].
    destruct (IHt0 _ (plain_option _ Pt) (plain_option _ Pu) E v Hv) as (w & S1 & S2). exists w. split; [exact S1|]. apply has_option. now right.
  - destruct Pt as [Pk Pt], Pu as [Pk' Pu]. rewrite Forall_forall in H. cbn [has_type] in Hv. destruct Hv as (row & -> & Hkeys & Hrow). rec_case E.
    + destruct Pk as (ND & HW & HL), Pk' as (ND' & HW' & HL'). rename l into ks, l0 into ks'. apply record_plain in E; auto. destruct E as [L0 E].
      pose proof (keys_perm _ _ _ _ ND HL HL' L0 E) as HP. apply row_of_In in Hrow. destruct Hrow as [Lr Hrow].
      destruct (choose (fun (ku : string * ty) w => has_type (snd ku) w /\ same_value (value_at (fst ku) (combine ks row)) w) (combine ks' ts0)) as [row' Hrow'].
      { intros [k u] Hin. destruct (In_nthZ _ _ Hin) as [j Ej]. rewrite nthZ_combine in Ej. destruct (nthZ ks' j) as [k'|] eqn:Ek'; [|discriminate]. destruct (nthZ ts0 j) as [u'|] eqn:Eu'; [|discriminate].
        injection Ej as -> ->. assert (Hk : In k ks) by (eapply Permutation_in; [apply Permutation_sym; exact HP|eapply nthZ_In; exact Ek']).
        destruct (In_nthZ _ _ Hk) as [i Ei]. pose proof (nthZ_Some _ _ _ Ei). destruct (nthZ_lt ts i) as [t Et]; [lia|]. destruct (nthZ_lt row i) as [v Ev]; [lia|].
        destruct (E i k t Ei Et) as (j' & u2 & Ej & Eu & Etu). pose proof (NoDup_nthZ _ _ _ _ ND' Ek' Ej). subst j'. rewrite Eu' in Eu. injection Eu as <-.
        destruct (H t (nthZ_In _ _ _ Et) u) with (v := v) as (w & S1 & S2); [eapply plain_In; [exact Pt|eapply nthZ_In; exact Et]|eapply plain_In; [exact Pu|eapply nthZ_In; exact Eu']|exact Etu|eapply Hrow; eassumption|].
        exists w. cbn [fst snd]. split; [exact S2|]. now rewrite (value_at_nth _ _ _ _ _ ND Ei Ev). }
      pose proof (Forall2_nthZ _ _ _ Hrow') as [Lr' Hr']. rewrite zlen_combine in Lr' by lia.
      exists (VRec (combine ks' row')). split.
      * cbn [mkrow]. apply sv_rec with (fs' := map (fun k => (k, value_at k (combine ks' row'))) ks).
        -- rewrite (combine_by_key ks row ND) by lia. assert (G : forall l, incl l ks -> Forall2 (fun f g : string * value => fst f = fst g /\ same_value (snd f) (snd g))
              (map (fun k => (k, value_at k (combine ks row))) l) (map (fun k => (k, value_at k (combine ks' row'))) l)); [|apply G; apply incl_refl].
           induction l as [|k l IHl]; intros Hl; cbn [map]; constructor; [|apply IHl; intros x Hx; apply Hl; right; exact Hx]. cbn [fst snd]. split; [reflexivity|].
           assert (Hk : In k ks') by (eapply Permutation_in; [exact HP|apply Hl; left; reflexivity]). destruct (In_nthZ _ _ Hk) as [j Ej]. pose proof (nthZ_Some _ _ _ Ej).
           destruct (nthZ_lt ts0 j) as [u Eu]; [lia|]. destruct (nthZ_lt row' j) as [w Ew]; [lia|].
           assert (Ec : nthZ (combine ks' ts0) j = Some (k, u)) by (rewrite nthZ_combine, Ej, Eu; reflexivity). destruct (Hr' _ _ _ Ec Ew) as [_ S]. cbn [fst] in S.
           now rewrite (value_at_nth _ _ _ _ _ ND' Ej Ew).
        -- enough (EQ : combine ks' row' = map (fun k => (k, value_at k (combine ks' row'))) ks') by (eapply Permutation_trans; [apply Permutation_map; exact HP|rewrite <- EQ; apply Permutation_refl]). apply combine_by_key; [exact ND'|lia].
      * cbn [has_type]. exists row'. split; [reflexivity|]. split; [cbn [keys_ok]; lia|]. apply row_of_In. split; [lia|]. intros j u w Eu Ew. pose proof (nthZ_Some _ _ _ Eu).
        destruct (nthZ_lt ks' j) as [k Ek]; [lia|]. assert (Ec : nthZ (combine ks' ts0) j = Some (k, u)) by (rewrite nthZ_combine, Ek, Eu; reflexivity). exact (proj1 (Hr' _ _ _ Ec Ew)).
    + apply tuple_equal in E. destruct E as [HL E]. destruct (row_covered ts ts0 row HL) as (row' & R1 & R2); [|exact Hrow|].
      * intros j t u Et Eu. apply H; [eapply nthZ_In; exact Et|eapply plain_In; [exact Pt|eapply nthZ_In; exact Et]|eapply plain_In; [exact Pu|eapply nthZ_In; exact Eu]|eapply E; eassumption].
      * exists (VTuple row'). split; [now constructor|]. cbn [has_type]. exists row'. auto.
  - rewrite Forall_forall in H. apply union_equal in E. destruct E as [HL E]. cbn [has_type] in Hv. apply one_of_In in Hv. destruct Hv as (t & Ht & Hv). destruct (In_nthZ _ _ Ht) as [j Ej].
    pose proof (nthZ_Some _ _ _ Ej). destruct (nthZ_lt ts0 j) as [u Eu]; [lia|].
    destruct (H t Ht u) with (v := v) as (w & S1 & S2); [eapply plain_In; [exact Pt|exact Ht]|eapply plain_In; [exact Pu|eapply nthZ_In; exact Eu]|eapply E; eassumption|exact Hv|].
    exists w. split; [exact S1|]. cbn [has_type]. apply one_of_In. exists u. split; [eapply nthZ_In; exact Eu|exact S2].
Qed.

(** ** Empty arrays of a type *)
Lemma empty_ok t : proper t -> exists c, empty_of t = Ok c /\ type_of c = t /\ den c = Some [].
Proof.
  induction t using ty_ind'; intros Hp; cbn [proper] in Hp; cbn [empty_of].
  - exists Empty. auto.
  - exists (Numpy dt []). auto.
  - destruct (IHt Hp) as (c & -> & Ht & Hd). cbn [bind]. exists (ListOffset [0] c). cbn [type_of den]. rewrite Ht, Hd. auto.
  - destruct Hp as [Hn Hp]. destruct (IHt Hp) as (c & -> & Ht & Hd). cbn [bind]. exists (Regular n 0 c). pose proof (den_length _ _ Hd) as HL. rewrite zlen_nil in HL.
    unfold mkRegular. cbn [length_]. rewrite HL. destruct (Z.ltb_spec n 0); [lia|]. cbn [type_of den]. rewrite Ht, Hd.
    destruct (Z.eqb_spec n 0) as [->|Hn0]; cbn [negb].
    + split; [reflexivity|]. split; reflexivity.
    + rewrite Z.quot_0_l by lia. split; [reflexivity|]. split; [reflexivity|]. destruct (Z.ltb_spec 0 n); [|lia]. change (zlen (@nil value)) with 0. rewrite Z.div_0_l by lia. reflexivity.
  - destruct (IHt Hp) as (c & -> & Ht & Hd). cbn [bind]. exists (IndexedOption [] c). cbn [type_of den]. rewrite Ht, Hd. auto.
  - destruct Hp as [Hk Hp]. assert (G : exists cs, mapres empty_of ts = Ok cs /\ map type_of cs = ts /\ exists vss, omap den cs = Some vss).
    { clear Hk keys. induction ts as [|t ts IH]; [exists []; split; [reflexivity|]; split; [reflexivity|]; exists []; reflexivity|]. inversion H; subst. destruct Hp as [Hp1 Hp2].
      destruct (H2 Hp1) as (c & E1 & E2 & E3). destruct (IH H3 Hp2) as (cs & F1 & F2 & (vss & F3)). exists (c :: cs). cbn [mapres map omap]. rewrite E1. cbn [bind]. rewrite F1. cbn [bind].
      rewrite E3, F3. split; [reflexivity|]. split; [congruence|]. eauto. }
    destruct G as (cs & -> & Ht & (vss & Hd)). cbn [bind]. exists (Record keys 0 cs). assert (HL : zlen cs = zlen ts) by (rewrite <- Ht; now rewrite zlen_map).
    cbn [type_of den]. rewrite Ht, Hd, HL, Hk. split; [|split; reflexivity]. unfold mkRecord. destruct keys as [ks|]; [|reflexivity]. cbn [keys_ok] in Hk. rewrite HL, Hk. reflexivity.
  - destruct Hp as [Hne Hp]. assert (G : exists cs, mapres empty_of ts = Ok cs /\ map type_of cs = ts /\ exists vss, omap den cs = Some vss).
    { clear Hne. induction ts as [|t ts IH]; [exists []; split; [reflexivity|]; split; [reflexivity|]; exists []; reflexivity|]. inversion H; subst. destruct Hp as [Hp1 Hp2].
      destruct (H2 Hp1) as (c & E1 & E2 & E3). destruct (IH H3 Hp2) as (cs & F1 & F2 & (vss & F3)). exists (c :: cs). cbn [mapres map omap]. rewrite E1. cbn [bind]. rewrite F1. cbn [bind].
      rewrite E3, F3. split; [reflexivity|]. split; [congruence|]. eauto. }
    destruct G as (cs & -> & Ht & (vss & Hd)). cbn [bind]. exists (Union [] [] cs). cbn [type_of den]. rewrite Ht, Hd. unfold mkUnion. destruct cs as [|c cs]; [destruct ts; [contradiction|discriminate]|].
    cbn [zlen]. split; [reflexivity|]. split; [reflexivity|]. rewrite zlen_cons. pose proof (zlen_nonneg cs). destruct (Z.leb_spec 1 (zlen cs + 1)); [|lia]. reflexivity.
Qed.

(** ** Simplifying keeps the type *)
Lemma toindexedoption_type c c' : toIndexedOptionArray64 c = Ok c' -> exists i c'', c' = IndexedOption i c'' /\ type_of c' = type_of c.
Proof. destruct c; cbn [toIndexedOptionArray64]; try discriminate; intros H; binv H; injection H as <-; eauto. Qed.
Lemma simplify_inner_type c' o i c'' : simplify_inner c' = Ok (Some (o, i, c'')) -> type_of c' = if o then YOption (type_of c'') else type_of c''.
Proof.
  destruct c'; cbn [simplify_inner]; try discriminate; intros H.
  1, 2: injection H as <- <- <-; reflexivity.
  all: apply bind_Ok in H; destruct H as (s & E & H); destruct (toindexedoption_type _ _ E) as (j & d & -> & Ht); injection H as <- <- <-; now rewrite <- Ht.
Qed.
Definition strip_type (t : ty) : ty := option_type t.
Lemma Indexed_simplify_type o index c' c : Indexed_simplify o index c' = Ok c ->
  option_type (type_of c) = option_type (type_of c') /\ ((exists t, type_of c = YOption t) <-> o = true \/ exists t, type_of c' = YOption t).
Proof.
  unfold Indexed_simplify. intros H. apply bind_Ok in H. destruct H as ([[[io inner] c'']|] & E & H).
  - apply bind_Ok in H. destruct H as (r & _ & H). injection H as <-. rewrite (simplify_inner_type _ _ _ _ E). destruct o, io; cbn [orb type_of option_type].
    + split; [reflexivity|]. split; [auto|eauto].
    + split; [reflexivity|]. split; [auto|eauto].
    + split; [reflexivity|]. split; [eauto|eauto].
    + split; [reflexivity|]. split; [intros (t & Ht); right; eauto|intros [?|(t & Ht)]; [discriminate|eauto]].
  - injection H as <-. destruct o; cbn [type_of option_type]; (split; [reflexivity|]); [split; [auto|eauto]|]. split; [auto|]. intros [?|?]; [discriminate|assumption].
Qed.
Lemma same_stripped t u : proper t -> option_type t = option_type u -> ((exists a, t = YOption a) <-> exists a, u = YOption a) -> ty_equal t u = true.
Proof.
  intros Hp E [H1 H2]. assert (HN : forall t, (forall a, t <> YOption a) -> option_type t = t) by (intros s Hs; destruct s; try reflexivity; exfalso; eapply Hs; reflexivity).
  assert (HD : forall t : ty, (exists a, t = YOption a) \/ forall a, t <> YOption a) by (intros s; destruct s; try (right; intros; discriminate); left; eauto).
  destruct (HD t) as [(a & ->)|Nt].
  - destruct H1 as (b & ->); [eauto|]. rewrite option_equal. cbn [option_type] in E. rewrite E. apply equal_refl. rewrite <- E. apply proper_option. exact Hp.
  - destruct (HD u) as [(b & ->)|Nu]; [destruct H2 as (a & ->); [eauto|]; exfalso; eapply Nt; reflexivity|]. rewrite HN in E by exact Nt. rewrite HN in E by exact Nu. subst u. apply equal_refl. exact Hp.
Qed.
Lemma simplify_type c c' : simplify_optiontype c = Ok c' -> proper (type_of c) -> (forall index d, c <> Unmasked (Indexed index d)) -> ty_equal (type_of c) (type_of c') = true.
Proof.
  intros H Hp HU. apply same_stripped; [exact Hp| |]; destruct c; cbn [simplify_optiontype] in H; try discriminate H.
  1, 2: apply Indexed_simplify_type in H; destruct H as [-> _]; reflexivity.
  1, 2: destruct (needs_simplify _); [|injection H as <-; reflexivity]; apply bind_Ok in H; destruct H as (s & E & H); destruct (toindexedoption_type _ _ E) as (i & d & -> & Ht);
    apply Indexed_simplify_type in H; destruct H as [-> _]; rewrite <- Ht; reflexivity.
  - destruct (needs_simplify _); injection H as <-; reflexivity.
  - apply Indexed_simplify_type in H. destruct H as [_ HI]. rewrite HI. cbn [type_of]. split; [auto|]. intros [?|?]; [discriminate|assumption].
  - apply Indexed_simplify_type in H. destruct H as [_ HI]. rewrite HI. cbn [type_of]. split; [auto|]. eauto.
  - destruct (needs_simplify _); [|injection H as <-; reflexivity]; apply bind_Ok in H; destruct H as (s & E & H); destruct (toindexedoption_type _ _ E) as (i & d & -> & Ht);
    apply Indexed_simplify_type in H. destruct H as [_ HI]. rewrite HI. cbn [type_of]. split; [auto|]. eauto.
  - destruct (needs_simplify _); [|injection H as <-; reflexivity]; apply bind_Ok in H; destruct H as (s & E & H); destruct (toindexedoption_type _ _ E) as (i & d & -> & Ht);
    apply Indexed_simplify_type in H. destruct H as [_ HI]. rewrite HI. cbn [type_of]. split; [auto|]. eauto.
  - destruct (needs_simplify c) eqn:EN; injection H as <-; [|reflexivity]. split; [|cbn [type_of]; eauto]. intros _. destruct c; try discriminate EN; cbn [type_of]; eauto.
    exfalso; eapply HU; reflexivity.
Qed.

(** ** Depths *)
Lemma union_depth ts d : depth_of (YUnion ts) = Some d -> exists t ts', ts = t :: ts' /\ forall u, In u ts -> depth_of u = Some d.
Proof.
  cbn [depth_of]. destruct ts as [|t ts]; [discriminate|]. cbn [map]. destruct (depth_of t) as [d0|] eqn:E; [|discriminate].
  destruct (forallb _ _) eqn:Ef; [|discriminate]. intros H; injection H as <-. exists t, ts. split; [reflexivity|].
  intros g [<-|Hg]; [exact E|]. rewrite forallb_forall in Ef. specialize (Ef (depth_of g)). rewrite in_map_iff in Ef.
  specialize (Ef (ex_intro _ g (conj eq_refl Hg))). destruct (depth_of g) as [d1|]; [|discriminate]. f_equal; lia.
Qed.
Lemma depth_pos t : forall d, depth_of t = Some d -> 1 <= d.
Proof.
  induction t using ty_ind'; intros d Hd; try (cbn [depth_of] in Hd; injection Hd as <-; lia).
  1, 2: cbn [depth_of] in Hd; destruct (depth_of t) as [e|]; [|discriminate]; cbn [option_map] in Hd; injection Hd as <-; specialize (IHt e eq_refl); lia.
  - exact (IHt d Hd).
  - apply union_depth in Hd. destruct Hd as (t & ts' & -> & Hd). inversion H; subst. eapply H2. apply Hd. left; reflexivity.
Qed.
Lemma purelist_type c : forall d, depth_of (type_of c) = Some d -> purelist_depth c = d.
Proof.
  induction c using content_ind'; intros d Hd; cbn [type_of] in Hd; cbn [purelist_depth]; try (cbn [depth_of] in Hd; injection Hd as <-; reflexivity); try (apply IHc; exact Hd).
  1, 2, 3: cbn [depth_of] in Hd; destruct (depth_of (type_of c)) as [e|]; [|discriminate]; cbn [option_map] in Hd; injection Hd as <-; rewrite (IHc e eq_refl); lia.
  rename H into IH. apply union_depth in Hd. destruct Hd as (u & us & E & Hd). destruct cs as [|c cs]; [discriminate|]. rewrite Forall_forall in IH.
  assert (HA : forall x, In x (c :: cs) -> purelist_depth x = d) by (intros x Hx; apply IH; [exact Hx|]; apply Hd; apply in_map; exact Hx).
  cbn [map]. rewrite (HA c (or_introl eq_refl)). replace (forallb _ (map purelist_depth cs)) with true; [reflexivity|].
  symmetry. apply forallb_forall. intros y Hy. apply in_map_iff in Hy as (x & <- & Hx). rewrite (HA x (or_intror Hx)). apply Z.eqb_refl.
Qed.
Lemma nested_type t : forall d v, depth_of t = Some d -> has_type t v -> nested (Z.to_nat d) v.
Proof.
  induction t using ty_ind'; intros d v Hd Hv.
  - contradiction.
  - cbn [depth_of] in Hd. injection Hd as <-. cbn. destruct dt, v; try contradiction; reflexivity.
  - cbn [depth_of] in Hd. destruct (depth_of t) as [e|] eqn:Ee; [|discriminate]. cbn [option_map] in Hd. injection Hd as <-. pose proof (depth_pos _ _ Ee).
    replace (Z.to_nat (1 + e)) with (S (Z.to_nat e)) by lia. destruct Hv as (l & -> & Hl). cbn [nested]. split; [lia|]. eapply Forall_impl; [|exact Hl]. intros a. apply IHt. reflexivity.
  - cbn [depth_of] in Hd. destruct (depth_of t) as [e|] eqn:Ee; [|discriminate]. cbn [option_map] in Hd. injection Hd as <-. pose proof (depth_pos _ _ Ee).
    replace (Z.to_nat (1 + e)) with (S (Z.to_nat e)) by lia. destruct Hv as (l & -> & _ & Hl). cbn [nested]. split; [lia|]. eapply Forall_impl; [|exact Hl]. intros a. apply IHt. reflexivity.
  - pose proof (depth_pos _ _ Hd). destruct Hv as [->|Hv]; [|apply IHt; assumption]. destruct (Z.to_nat d) eqn:E; [lia|exact I].
  - cbn [depth_of] in Hd. injection Hd as <-. destruct Hv as (row & -> & _). destruct keys; reflexivity.
  - apply union_depth in Hd. destruct Hd as (u & us & -> & Hd). rewrite Forall_forall in H. cbn [has_type] in Hv. apply one_of_In in Hv. destruct Hv as (t & Ht & Hv). eapply H; eauto.
Qed.

Definition mm_step (acc mm : Z * Z) : Z * Z := (if fst mm <? fst acc then fst mm else fst acc, if snd acc <? snd mm then snd mm else snd acc).
Lemma mm_fold mms : forall acc, fst (fold_left mm_step mms acc) <= fst acc /\ snd acc <= snd (fold_left mm_step mms acc) /\
  (forall mm, In mm mms -> fst (fold_left mm_step mms acc) <= fst mm /\ snd mm <= snd (fold_left mm_step mms acc)) /\
  (fst (fold_left mm_step mms acc) = fst acc \/ In (fst (fold_left mm_step mms acc)) (map fst mms)) /\
  (snd (fold_left mm_step mms acc) = snd acc \/ In (snd (fold_left mm_step mms acc)) (map snd mms)).
Proof.
  induction mms as [|mm mms IH]; intros acc; cbn [fold_left].
  - split; [lia|]. split; [lia|]. split; [intros ? []|]. auto.
  - destruct (IH (mm_step acc mm)) as (A & B & C & D & E).
    assert (F1 : fst (mm_step acc mm) <= fst acc /\ fst (mm_step acc mm) <= fst mm) by (unfold mm_step; cbn [fst]; destruct (Z.ltb_spec (fst mm) (fst acc)); lia).
    assert (G1 : snd acc <= snd (mm_step acc mm) /\ snd mm <= snd (mm_step acc mm)) by (unfold mm_step; cbn [snd]; destruct (Z.ltb_spec (snd acc) (snd mm)); lia).
    assert (F : fst (mm_step acc mm) = fst acc \/ fst (mm_step acc mm) = fst mm) by (unfold mm_step; cbn [fst]; destruct (fst mm <? fst acc); [right|left]; reflexivity).
    assert (G : snd (mm_step acc mm) = snd acc \/ snd (mm_step acc mm) = snd mm) by (unfold mm_step; cbn [snd]; destruct (snd acc <? snd mm); [right|left]; reflexivity).
    (split; [lia|]); (split; [lia|]); (split; [intros m [<-|Hm]; [lia|apply C; exact Hm]|]); cbn [map In];
      (split; [destruct D as [D|D]; [rewrite D; destruct F as [->| ->]; auto|auto]|destruct E as [E|E]; [rewrite E; destruct G as [->| ->]; auto|auto]]).
Qed.
Lemma branches_nonneg t : Forall (fun x => 0 <= x) (branches t) /\ branches t <> [].
Proof.
  induction t using ty_ind'; cbn [branches]; try (split; [repeat constructor; lia|discriminate]); try assumption.
  1, 2: destruct IHt as [A B]; split; [rewrite Forall_map; eapply Forall_impl; [|exact A]; cbn; intros; lia|destruct (branches t); [contradiction|discriminate]].
  all: destruct ts as [|t ts]; [split; [repeat constructor; lia|discriminate]|]; rewrite Forall_forall in H; split;
    [rewrite Forall_forall; intros x Hx; apply in_flat_map in Hx; destruct Hx as (u & Hu & Hx); destruct (H u Hu) as [A _]; rewrite Forall_forall in A; auto|];
    cbn [flat_map]; destruct (H t (or_introl eq_refl)) as [_ B]; destruct (branches t); [contradiction|discriminate].
Qed.
Definition below_max (t : ty) : Prop := Forall (fun x => x <= kMaxInt64) (branches t).
Lemma minmax_children cs : cs <> [] ->
  Forall (fun c => below_max (type_of c) -> is_least (fst (minmax_depth c)) (branches (type_of c)) /\ is_greatest (snd (minmax_depth c)) (branches (type_of c))) cs ->
  Forall (fun x => x <= kMaxInt64) (flat_map branches (map type_of cs)) ->
  let mm := fold_left mm_step (map minmax_depth cs) (kMaxInt64, 0) in
  is_least (fst mm) (flat_map branches (map type_of cs)) /\ is_greatest (snd mm) (flat_map branches (map type_of cs)).
Proof.
  intros NE IH HB. cbv zeta. destruct (mm_fold (map minmax_depth cs) (kMaxInt64, 0)) as (A & B & C & D & E). cbn [fst snd] in A, B, D, E.
  set (mm := fold_left mm_step (map minmax_depth cs) (kMaxInt64, 0)) in *. rewrite Forall_forall in IH, HB.
  assert (HC : forall c, In c cs -> is_least (fst (minmax_depth c)) (branches (type_of c)) /\ is_greatest (snd (minmax_depth c)) (branches (type_of c)) /\ fst mm <= fst (minmax_depth c) /\ snd (minmax_depth c) <= snd mm).
  { intros c Hc. destruct (IH c Hc) as [P Q]; [unfold below_max; rewrite Forall_forall; intros x Hx; apply HB; apply in_flat_map; exists (type_of c); split; [now apply in_map|exact Hx]|].
    split; [exact P|]. split; [exact Q|]. apply C. now apply in_map. }
  assert (HI : forall c x, In c cs -> In x (branches (type_of c)) -> In x (flat_map branches (map type_of cs))) by (intros c x Hc Hx; apply in_flat_map; exists (type_of c); split; [now apply in_map|exact Hx]).
  assert (HO : forall x, In x (flat_map branches (map type_of cs)) -> exists c, In c cs /\ In x (branches (type_of c))).
  { intros x Hx. apply in_flat_map in Hx. destruct Hx as (t & Ht & Hx). apply in_map_iff in Ht. destruct Ht as (c & <- & Hc). eauto. }
  destruct cs as [|c0 cs']; [contradiction|]. remember (c0 :: cs') as cs. assert (H0 : In c0 cs) by (subst cs; left; reflexivity). destruct (HC c0 H0) as ((P1 & P2) & (Q1 & Q2) & R1 & R2).
  assert (Z0 : 0 <= snd (minmax_depth c0)) by (pose proof (proj1 (branches_nonneg (type_of c0))) as N; rewrite Forall_forall in N; auto).
  split; split.
  - destruct D as [D|D]; [|apply in_map_iff in D; destruct D as (m & Em & Hm); apply in_map_iff in Hm; destruct Hm as (c & <- & Hc); rewrite <- Em; eapply HI; [exact Hc|apply HC; exact Hc]].
    pose proof (HB _ (HI _ _ H0 P1)). assert (fst (minmax_depth c0) = kMaxInt64) by lia. rewrite D, <- H1. eapply HI; eauto.
  - rewrite Forall_forall. intros x Hx. destruct (HO x Hx) as (c & Hc & Hx'). destruct (HC c Hc) as ((P3 & P4) & _ & R3 & _). rewrite Forall_forall in P4. specialize (P4 x Hx'). lia.
  - destruct E as [E|E]; [|apply in_map_iff in E; destruct E as (m & Em & Hm); apply in_map_iff in Hm; destruct Hm as (c & <- & Hc); rewrite <- Em; eapply HI; [exact Hc|apply HC; exact Hc]].
    assert (snd (minmax_depth c0) = 0) by lia. rewrite E, <- H. eapply HI; eauto.
  - rewrite Forall_forall. intros x Hx. destruct (HO x Hx) as (c & Hc & Hx'). destruct (HC c Hc) as (_ & (P3 & P4) & _ & R3). rewrite Forall_forall in P4. specialize (P4 x Hx'). lia.
Qed.
Lemma least_succ m l : is_least m l -> is_least (m + 1) (map (Z.add 1) l).
Proof. intros [H1 H2]. split; [apply in_map_iff; exists m; split; [lia|exact H1]|]. rewrite Forall_map. eapply Forall_impl; [|exact H2]. cbn. intros; lia. Qed.
Lemma greatest_succ m l : is_greatest m l -> is_greatest (m + 1) (map (Z.add 1) l).
Proof. intros [H1 H2]. split; [apply in_map_iff; exists m; split; [lia|exact H1]|]. rewrite Forall_map. eapply Forall_impl; [|exact H2]. cbn. intros; lia. Qed.
Lemma minmax_type c : below_max (type_of c) -> is_least (fst (minmax_depth c)) (branches (type_of c)) /\ is_greatest (snd (minmax_depth c)) (branches (type_of c)).
Proof.
  induction c using content_ind'; unfold below_max; cbn [type_of branches minmax_depth]; intros HB;
    try (split; split; [left; reflexivity|repeat constructor; cbn; lia|left; reflexivity|repeat constructor; cbn; lia]); try (apply IHc; exact HB).
  1, 2, 3: destruct IHc as [A B]; [unfold below_max; rewrite Forall_map in HB; eapply Forall_impl; [|exact HB]; cbn; intros; lia|];
    destruct (minmax_depth c) as [a b]; cbn [fst snd] in *; split; [apply least_succ; exact A|apply greatest_succ; exact B].
  all: destruct cs as [|c cs]; [cbn; split; (split; [left; reflexivity|apply Forall_cons; [lia|apply Forall_nil]])|];
    exact (minmax_children (c :: cs) ltac:(discriminate) H HB).
Qed.
Lemma number_depths_type t : forall d n v, has_type t v -> In n (number_depths d v) -> In (n - d + 1) (branches t).
Proof.
  induction t using ty_ind'; intros d n0 v Hv Hn.
  - contradiction.
  - destruct dt, v; try contradiction; cbn in *; destruct Hn as [<-|[]]; left; lia.
  - destruct Hv as (l & -> & Hl). cbn [number_depths] in Hn. apply in_flat_map in Hn. destruct Hn as (x & Hx & Hn). rewrite Forall_forall in Hl. cbn [branches]. apply in_map_iff.
    exists (n0 - (d + 1) + 1). split; [lia|]. eapply IHt; [apply Hl; exact Hx|exact Hn].
  - destruct Hv as (l & -> & _ & Hl). cbn [number_depths] in Hn. apply in_flat_map in Hn. destruct Hn as (x & Hx & Hn). rewrite Forall_forall in Hl. cbn [branches]. apply in_map_iff.
    exists (n0 - (d + 1) + 1). split; [lia|]. eapply IHt; [apply Hl; exact Hx|exact Hn].
  - destruct Hv as [->|Hv]; [destruct Hn|]. eapply IHt; eassumption.
  - destruct Hv as (row & -> & Hk & Hr). rewrite Forall_forall in H. apply row_of_In in Hr. destruct Hr as [HL Hr].
    assert (HG : exists x, In x row /\ In n0 (number_depths d x)).
    { destruct keys as [ks|]; cbn [mkrow number_depths] in Hn; apply in_flat_map in Hn; [|exact Hn]. destruct Hn as ([k x] & Hx & Hn). exists x. split; [eapply in_combine_r; exact Hx|exact Hn]. }
    destruct HG as (x & Hx & Hn'). destruct (In_nthZ _ _ Hx) as [j Ej]. pose proof (nthZ_Some _ _ _ Ej). destruct (nthZ_lt ts j) as [t Et]; [lia|].
    assert (In (n0 - d + 1) (branches t)) by (eapply H; [eapply nthZ_In; exact Et|eapply Hr; eassumption|exact Hn']).
    cbn [branches]. destruct ts as [|t' ts]; [rewrite nthZ_nil in Et; discriminate|]. apply in_flat_map. exists t. split; [eapply nthZ_In; exact Et|assumption].
  - rewrite Forall_forall in H. cbn [has_type] in Hv. apply one_of_In in Hv. destruct Hv as (t & Ht & Hv). assert (In (n0 - d + 1) (branches t)) by (eapply H; eassumption).
    cbn [branches]. destruct ts as [|t' ts]; [destruct Ht|]. apply in_flat_map. eauto.
Qed.
