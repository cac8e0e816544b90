(** C18: simplify_uniontype merges nested and mergeable contents of a union without changing any element (up to numeric promotion). *)
From Verif Require Import Base BaseLemmas OmapLemmas LoopLemmas Content SpecArray SpecForm SpecMerge KCore Core Convert Option KMerge Merge
  PCore PCarry PForm PTidy PPromote PMergeable PMergeK PMerge PMergeC PMergeR PMergeM PSimplify.
Local Open Scope string_scope.
Local Open Scope list_scope.
Local Open Scope Z_scope.

(** the contents of a union, those of directly nested unions in place of these *)
Definition flat_contents (cs : list content) : list content := flat_map (fun c => match c with Union _ _ inner => inner | _ => [c] end) cs.
(** tidy, and option types not mixed with IndexedArrays (C14_option_then_indexed_refuted) *)
Definition simplifiable (cs : list content) : Prop :=
  Forall tidy (flat_contents cs) /\
  (Forall (fun c => indexed_free c = true) (flat_contents cs) \/ Forall (fun c => option_free (form_of c) = true) (flat_contents cs)).

Lemma to_leaf_ok cs : simplifiable cs -> exists OF, Forall (fun x => Forall (leaf_ok OF) (leaves x)) cs.
Proof.
  assert (K : forall P : content -> Prop, Forall P (flat_contents cs) -> Forall (fun x => Forall P (leaves x)) cs).
  { intros P. unfold flat_contents. induction cs as [|c cs IH]; intros H; [constructor|]. cbn [flat_map] in H. apply Forall_app in H as [H1 H2]. constructor; [|apply IH; exact H2]. destruct c; exact H1. }
  intros [HT [HO|HO]]; [exists false|exists true]; apply K; rewrite Forall_forall in *; intros x Hx; (split; [apply HT; exact Hx|apply HO; exact Hx]).
Qed.

(** [refeq] is any test that only holds of identical arrays *)
Theorem C18_simplify_uniontype : forall rc narrow refeq domerge mergebool tags index cs vs,
  (forall a b, refeq a b = true -> a = b) -> den (Union tags index cs) = Some vs -> simplifiable cs ->
  exists n, forall fuel, (n <= fuel)%nat ->
  match simplify_uniontype rc narrow refeq fuel domerge mergebool tags index cs with
  | Ok c' => exists vs', den c' = Some vs' /\ Forall2 (promotes rc) vs vs'
  | Err _ => (exists x, narrow x = true) \/ 127 < Z.of_nat (list_sum (map weight cs))
  | UB => False
  end.
Proof.
  intros rc narrow refeq dm mb tags index cs vs Hr Hd HS. destruct (to_leaf_ok cs HS) as (OF & HL). exists (sumw cs + 1)%nat. intros fuel Hf. exact (simplify_ok rc narrow mb dm fuel OF refeq tags index cs vs Hr Hd HL Hf).
Qed.
Print Assumptions C18_simplify_uniontype.

(** without merging, the elements do not change at all when nothing is nested: no promotion happens *)
Theorem C18_no_merge_is_identity : forall rc narrow refeq mergebool tags index cs vs fuel,
  (forall a b, refeq a b = false) -> den (Union tags index cs) = Some vs -> (forall t i inner, ~ In (Union t i inner) cs) -> zlen cs <= 127 ->
  exists c', simplify_uniontype rc narrow refeq fuel false mergebool tags index cs = Ok c' /\ den c' = Some vs.
Proof.
  intros rc narrow refeq mb tags index cs vs fuel Hr Hd HN Hn. unfold simplify_uniontype. destruct (union_positions _ _ _ _ Hd) as (vss & Dcs & Hne & Ht & Hti & Hpos). destruct (Z.ltb_spec (zlen index) (zlen tags)); [lia|]. rewrite Ht. pose proof (zlen_nonneg vs).
  assert (G : forall xs a ts is_, (forall p x, nthZ xs p = Some x -> nthZ cs (a + p) = Some x) -> 0 <= a -> a + zlen xs = zlen cs -> zlen ts = zlen vs -> zlen is_ = zlen vs ->
    (forall i, 0 <= i < zlen vs -> (exists t, nthZ tags i = Some t /\ t < a) -> nthZ ts i = nthZ tags i /\ nthZ is_ i = nthZ index i) ->
    exists ts' is', foldm (simplify_step rc narrow refeq fuel false mb (zlen vs) tags index) (combine (zseq a (a + zlen xs)) xs) (ts, is_, slice 0 a cs) = Ok (ts', is', cs) /\ zlen ts' = zlen vs /\ zlen is' = zlen vs
      /\ forall i, 0 <= i < zlen vs -> nthZ ts' i = nthZ tags i /\ nthZ is' i = nthZ index i).
  { induction xs as [|x xs IH]; intros a ts is_ HX Ha Hz Lt Li HP.
    - rewrite combine_nil. cbn [foldm]. change (zlen (@nil content)) with 0 in Hz. assert (a = zlen cs) as -> by lia. rewrite slice_full. exists ts, is_. split; [reflexivity|]. split; [exact Lt|]. split; [exact Li|].
      intros i Hi. apply HP; [exact Hi|]. destruct (nthZ_lt vs i Hi) as (v & Hv). destruct (Hpos i v Hv) as (t & j & cv & A & B & C & D). exists t. split; [exact A|]. pose proof (nthZ_Some _ _ _ C). pose proof (F2_zlen _ _ _ Dcs). lia.
    - pose proof (zlen_nonneg xs). rewrite zlen_cons in *. rewrite zseq_cons by lia. cbn [combine foldm]. pose proof (HX 0 x ltac:(rewrite nthZ_cons; reflexivity)) as Hx. rewrite Z.add_0_r in Hx.
      assert (ES : forall st, simplify_step rc narrow refeq fuel false mb (zlen vs) tags index st (a, x) = simplify_plain rc narrow refeq fuel false mb (zlen vs) tags index a x st) by (intros st; destruct x; try reflexivity; exfalso; eapply HN; eapply nthZ_In; exact Hx).
      rewrite ES. unfold simplify_plain. assert (EF : forall l, find_index (fun y => refeq y x || (false && mergeable mb y x)) l = None) by (induction l as [|y l IHl]; cbn [find_index]; [reflexivity|rewrite Hr, IHl; reflexivity]).
      rewrite EF. rewrite zlen_slice by lia. replace (a - 0) with a by lia.
      destruct (one_written vs tags index vss Hpos a a 0 ts is_ Lt Li) as (t' & i' & E & L1 & L2 & N). rewrite E. cbn [bind fst snd].
      assert (EC : slice 0 a cs ++ [x] = slice 0 (a + 1) cs) by (symmetry; apply slice_snoc_nth; [lia|exact Hx]). rewrite EC.
      replace (a + (1 + zlen xs)) with ((a + 1) + zlen xs) by lia. replace (a + (zlen xs + 1)) with ((a + 1) + zlen xs) by lia. apply IH; try lia; try assumption.
      + intros p y Hy. pose proof (nthZ_Some _ _ _ Hy). replace (a + 1 + p) with (a + (p + 1)) by lia. apply HX. rewrite nthZ_cons. destruct (Z.eqb_spec (p + 1) 0); [lia|]. replace (p + 1 - 1) with p by lia; exact Hy.
      + intros i Hi (t & Et & Hlt). specialize (N i Hi). unfold Qone, qone in N. rewrite Et in N. destruct (Z.eqb_spec t a) as [Ea|].
        * subst t. destruct N as [N1 N2]. rewrite N1, N2. destruct (nthZ_lt vs i Hi) as (v & Hv). destruct (Hpos i v Hv) as (t2 & j & cv & A & B & C & D). rewrite B, Et. split; [reflexivity|f_equal; lia].
        * destruct N as [-> ->]. apply HP; [exact Hi|]. exists t. split; [exact Et|lia]. }
  destruct (G cs 0 (alloc (zlen vs)) (alloc (zlen vs))) as (ts & is' & E & L1 & L2 & N); try lia; try (apply zlen_alloc; lia).
  - intros p x Hx. exact Hx.
  - intros i Hi (t & Et & Hlt). exfalso. destruct (nthZ_lt vs i Hi) as (v & Hv). destruct (Hpos i v Hv) as (t' & j & cv & A & B & C & D). pose proof (nthZ_Some _ _ _ C). rewrite Et in A. injection A as ->. lia.
  - rewrite Z.add_0_l in E. rewrite slice_nil in E. rewrite E. cbn [bind]. unfold kMaxInt8. destruct (Z.ltb_spec 127 (zlen cs)); [lia|].
    assert (HU : exists c', mkUnion ts is' cs = Ok c' /\ den c' = Some vs).
    { unfold mkUnion. destruct cs as [|c0 cs0]; [change (zlen (@nil content)) with 0 in Hne; lia|]. destruct (Z.ltb_spec (zlen is') (zlen ts)); [lia|]. eexists; split; [reflexivity|].
      assert (EC : combine ts is' = combine tags index).
      { assert (ZC : forall a b : list Z, zlen (combine a b) = Z.min (zlen a) (zlen b)) by (intros; unfold zlen; rewrite combine_length; lia). apply list_eqZ; [rewrite !ZC; lia|]. intros i Hi. rewrite ZC in Hi. rewrite !nthZ_combine. destruct (N i ltac:(lia)) as [-> ->]; reflexivity. }
      cbn [den] in Hd |- *. rewrite EC. destruct (omap den (c0 :: cs0)); [|discriminate]. destruct (Z.leb_spec (zlen ts) (zlen is')); [|lia]. destruct (Z.leb_spec (zlen tags) (zlen index)); [|lia]. exact Hd. }
    destruct cs as [|c [|c1 cs]]; [exact HU| |exact HU]. clear HU.
    inversion Dcs as [|? cv ? ? Dc Dn]; subst. inversion Dn; subst. apply (carry_den c cv is' vs true Dc).
    apply omap_F. apply F2_of_nthZ; [lia|]. intros i p v Hp Hv. destruct (N i (nthZ_Some _ _ _ Hv)) as [_ N2]. destruct (Hpos i v Hv) as (t & j & cv' & A & B & C & D). rewrite N2, B in Hp. injection Hp as <-.
    pose proof (nthZ_Some _ _ _ C) as HR. change (zlen [cv]) with 1 in HR. assert (t = 0) as -> by lia. rewrite nthZ_cons in C. simpl in C. injection C as ->. exact D.
Qed.
Print Assumptions C18_no_merge_is_identity.

(** contents that can all be merged leave no union behind *)
Theorem C18_all_mergeable : forall rc narrow refeq mergebool tags index cs vs,
  (forall a b, refeq a b = true -> a = b) -> den (Union tags index cs) = Some vs -> simplifiable cs ->
  Forall (fun c => union_free (form_of c) = true) cs -> ForallOrdPairs (fun a b => mergeable mergebool a b = true) cs ->
  exists n, forall fuel, (n <= fuel)%nat ->
  forall c', simplify_uniontype rc narrow refeq fuel true mergebool tags index cs = Ok c' -> union_free (form_of c') = true.
Proof.
  intros rc narrow refeq mb tags index cs vs Hr Hd HS HU HPP. destruct (to_leaf_ok cs HS) as (OF & HL). exists (sumw cs + 1)%nat. intros fuel Hf c' HE.
  apply (simplify_single rc narrow mb fuel OF refeq tags index cs vs c' Hr Hd); try assumption.
  - rewrite Forall_forall in *. intros x Hx. specialize (HL x Hx). specialize (HU x Hx). destruct x; try discriminate HU; inversion HL; assumption.
  - clear - HPP. induction HPP as [|a l HF HP IH]; constructor; [|exact IH]. eapply Forall_impl; [|exact HF]. intros b Hb. cbv beta in Hb. rewrite mergeable_form in Hb. exact Hb.
Qed.
Print Assumptions C18_all_mergeable.

(** a union of integers, a nested union of reals and lists, and lists again *)
Definition exu : list content := [Numpy DInt [1; 2]; Union [1; 0; 0] [0; 0; 1] [Numpy DReal [50; 60]; ListOffset [0; 2] (Numpy DInt [8; 9])]; ListA [1] [2] (Numpy DInt [3; 4])].
Example C18_example_hyp : simplifiable exu.
Proof. split; [repeat constructor|left; repeat constructor]. Qed.
Example C18_example : den (Union [0; 1; 1; 2; 0; 1] [1; 0; 2; 0; 0; 1] exu) = Some [VInt 2; VList [VInt 8; VInt 9]; VReal 60; VList [VInt 4]; VInt 1; VReal 50] /\
  exists c1 c2, simplify_uniontype (fun n => 10 * n) (fun _ => false) (fun _ _ => false) 30 true false [0; 1; 1; 2; 0; 1] [1; 0; 2; 0; 0; 1] exu = Ok (Union c1 c2 [Numpy DReal [10; 20; 50; 60]; ListA [0; 3] [2; 4] (Numpy DInt [8; 9; 3; 4])])
   /\ den (Union c1 c2 [Numpy DReal [10; 20; 50; 60]; ListA [0; 3] [2; 4] (Numpy DInt [8; 9; 3; 4])]) = Some [VReal 20; VList [VInt 8; VInt 9]; VReal 60; VList [VInt 4]; VReal 10; VReal 50].
Proof. split; [reflexivity|]. do 2 eexists. split; vm_compute; reflexivity. Qed.
