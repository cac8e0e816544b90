(** ArrayBuilder: every successful sequence of calls is well nested. *)
From Coq Require Import String.
From Verif Require Import Base BaseLemmas OmapLemmas Content SpecArray Core Merge Builder SpecBuilder PBuilder PBuilderStep PBuilderUnion PBuilderSpec.
Local Open Scope string_scope.
Local Open Scope list_scope.
Local Open Scope Z_scope.

Lemma advance_misnested k : forall frs es, misnested frs k -> advance es frs k = None.
Proof.
  induction frs as [|f frs IH]; intros es H.
  - destruct k; try destruct H; reflexivity.
  - cbn [advance]. destruct frs as [|g frs].
    + assert (Eo : own es f k = None) by (destruct f, k; try destruct H; reflexivity). rewrite Eo.
      assert (Es : forall l, advance l [] k = None) by (intros l; destruct k; try reflexivity; destruct H).
      destruct f as [l|n fs [[i l]|]|fs [[i l]|]]; cbn [inside]; rewrite ?Es; reflexivity.
    + assert (H' : misnested (g :: frs) k) by exact H. destruct f as [l|n fs [[i l]|]|fs [[i l]|]]; cbn [inside]; rewrite ?(IH _ H'); reflexivity.
Qed.
Lemma describes_reading sizes ks es frs : describes sizes ks es frs -> reading [] [] ks = Some (es, frs).
Proof.
  assert (HS : forall ks k es frs, reading es frs (ks ++ [k]) = match reading es frs ks with Some (es, frs) => advance es frs k | None => None end).
  { clear. induction ks as [|x ks IH]; intros k es frs; cbn; [destruct (advance es frs k) as [[? ?]|]; reflexivity|]. destruct (advance es frs x) as [[? ?]|]; [apply IH|reflexivity]. }
  induction 1 as [|ks k es frs es' frs' D IH T A]; [reflexivity|]. now rewrite HS, IH.
Qed.

Section All.
Variable rc : Z -> Z.
Variable sizes : list Z.
Hypothesis Hsizes : zlen sizes <= 122.
Notation holds := (holds rc sizes).
Notation step := (step rc).
Definition small (i : Z) (f : frame) : Prop := match f with FTuple n _ _ => n <= i | _ => False end.
Lemma index_raises i b es frs : holds b es frs -> Exists (small i) frs -> exists m, step b (CIndex i) = Err m.
Proof.
  induction 1 as [n Hn|l|l|l es HF HR|index c es frs H IH HF|c parts H IH|c parts l frs H IH|cs next cols rows Hl Hh IH Hc Hs|cs next cols rows fs now frs Hl Hh IH Hc Hb Hn Hs
    |cs next ntt cols rows keys Hl Hk Hh IH Hc|cs next ntt cols rows fs now frs keys Hl Hk Hh IH Hc Hb Hn|pos cs cur cols es frs Hl Hh IH Hkinds Hnd Hp Hpos Hcur Hne]; intros HE; try (now inversion HE).
  - cbn [Builder.step]. assert (frs <> []) by (intros ->; inversion HE). rewrite (holds_active _ _ _ _ _ H). destruct frs; [congruence|]. destruct (IH HE) as [m Em]. rewrite Em. eexists; reflexivity.
  - cbn [Builder.step]. inversion HE as [? ? HS|? ? HS]; subst; [destruct HS|]. destruct (IH HS) as [m Em]. rewrite Em. eexists; reflexivity.
  - cbn [Builder.step]. destruct (Z.leb_spec (zlen cs) i); [eexists; reflexivity|]. inversion HE as [? ? HS|? ? HS]; subst; [cbn in HS; lia|].
    destruct now as [f|]; [|destruct Hn as [_ ->]; inversion HS]. subst next. unfold all in Hb. apply Forall_app in Hb as [_ Hb]. apply Forall_cons_iff in Hb as [Hf _].
    destruct (nthZ_lt cs (fst f) Hf) as [c Ec]. destruct (nthZ_lt cols (fst f)) as [col Ecol]; [lia|].
    pose proof (Hh _ _ _ Ec Ecol) as Hc'. rewrite Z.eqb_refl in Hc'. pose proof (IH _ _ _ Ec Ecol) as IHc. rewrite Z.eqb_refl in IHc. destruct (IHc HS) as [m Em].
    destruct (Z.eqb_spec (fst f) (-1)); [lia|]. rewrite !(nth_apply_eq _ _ _ _ Ec), (holds_active _ _ _ _ _ Hc'). destruct frs; [inversion HS|]. cbn [bind]. rewrite Em. eexists; reflexivity.
  - cbn [Builder.step]. inversion HE as [? ? HS|? ? HS]; subst; [destruct HS|]. destruct now as [f|]; [|destruct Hn as [_ ->]; inversion HS]. pose proof (nthZ_Some _ _ _ Hn) as Hr. destruct (Z.eqb_spec next (-1)); [lia|].
    destruct (nthZ_lt cs next) as [c Ec]; [lia|]. destruct (nthZ_lt cols next) as [col Ecol]; [lia|]. pose proof (IH _ _ _ _ Hn Ec Ecol) as IHc. rewrite Z.eqb_refl in IHc. destruct (IHc HS) as [m Em].
    rewrite !(nth_apply_eq _ _ _ _ Ec), Em. eexists; reflexivity.
  - cbn [Builder.step]. destruct Hcur as [[_ ->]|[Hc Hf]]; [inversion HE|]. destruct (Z.eqb_spec cur (-1)); [lia|].
    destruct (nthZ_lt cs cur Hc) as [c Ec]. destruct (nthZ_lt cols cur) as [col Ecol]; [lia|]. pose proof (IH _ _ _ Ec Ecol) as IHc. rewrite Z.eqb_refl in IHc. destruct (IHc HE) as [m Em].
    rewrite !(nth_apply_eq _ _ _ _ Ec), Em. eexists; reflexivity.
Qed.
Lemma run_app_Ok b0 ks k b : run rc b0 (ks ++ [k]) = Ok b -> exists b1, run rc b0 ks = Ok b1.
Proof. rewrite run_snoc. destruct (run rc b0 ks); [eauto|discriminate|discriminate]. Qed.
Lemma run_describes ks : forall b, run rc new_builder ks = Ok b -> Forall (sized sizes) ks -> exists es frs, describes sizes ks es frs.
Proof.
  induction ks as [|k ks IH] using rev_ind; intros b E S.
  - exists [], []. constructor.
  - apply Forall_app in S as [S Sk]. apply Forall_cons_iff in Sk as [Sk _]. destruct (run_app_Ok _ _ _ _ E) as [b1 E1]. destruct (IH _ E1 S) as (es & frs & D).
    destruct (advance es frs k) as [[es' frs']|] eqn:A; [|destruct (describes_reject rc sizes Hsizes _ _ _ _ D A) as [m Em]; congruence].
    exists es', frs'. econstructor; [exact D| |exact A]. destruct k; try exact I; try exact Sk. cbn in *.
    apply Forall_forall. intros f Hf. destruct f as [| n ? ? |]; cbn; try exact I. destruct (Z.lt_ge_cases i n); [lia|]. exfalso.
    destruct (describes_run rc sizes Hsizes _ _ _ D) as (b2 & E2 & Hb2). rewrite E1 in E2. injection E2 as <-.
    destruct (index_raises i _ _ _ Hb2) as [m Em]; [apply Exists_exists; eexists; split; [exact Hf|exact H]|]. rewrite run_snoc, E1 in E. cbn [bind] in E. rewrite Em in E. discriminate.
Qed.
End All.

(** without tuples *)
Definition no_tuple (f : frame) : Prop := match f with FTuple _ _ _ => False | _ => True end.
Lemma advance_no_tuple k : (match k with CBeginTuple _ => False | _ => True end) -> forall frs es es' frs', Forall no_tuple frs -> advance es frs k = Some (es', frs') -> tame [] frs k /\ Forall no_tuple frs'.
Proof.
  intros Hk frs es es' frs' HN A. split.
  - destruct k; try exact I; [destruct Hk|]. cbn. eapply Forall_impl; [|exact HN]. now intros [].
  - revert es es' frs' HN A. induction frs as [|f frs IH]; intros es es' frs' HN A.
    + cbn in A. destruct k; try discriminate; try destruct Hk; cbn in A; injection A as <- <-; repeat constructor.
    + apply Forall_cons_iff in HN as [Hf HN]. cbn [advance] in A. destruct (match frs with [] => own es f k | _ :: _ => None end) as [[es1 frs1]|] eqn:Eo.
      * destruct frs; [|discriminate]. injection A as <- <-. destruct f; try destruct Hf; destruct k; cbn in Eo; try discriminate; try destruct (once _ _); try discriminate; injection Eo as <- <-; repeat constructor.
      * destruct f as [l|n fs now|fs [[i l]|]]; try destruct Hf; cbn in A; try discriminate; destruct (advance l frs k) as [[l' frs1]|] eqn:E; try discriminate; cbn in A; injection A as <- <-; constructor; try exact I; eapply IH; eauto.
Qed.
Lemma reading_no_tuple rc ks : Forall (fun k => match k with CBeginTuple _ => False | _ => True end) ks -> forall ks0 es frs, describes [] ks0 es frs -> Forall no_tuple frs ->
  match reading es frs ks with
  | Some _ => exists b, run rc new_builder (ks0 ++ ks) = Ok b
  | None => exists msg, run rc new_builder (ks0 ++ ks) = Err msg
  end.
Proof.
  intros HF. assert (Hs : zlen (@nil Z) <= 122) by (rewrite zlen_nil; lia). induction HF as [|k ks Hk HF IH]; intros ks0 es frs D HN; cbn [reading].
  - rewrite app_nil_r. destruct (describes_run rc [] Hs _ _ _ D) as (b & E & _). eauto.
  - destruct (advance es frs k) as [[es' frs']|] eqn:A.
    + destruct (advance_no_tuple k Hk _ _ _ _ HN A) as [T HN']. specialize (IH (ks0 ++ [k]) es' frs'). rewrite <- app_assoc in IH. apply IH; [|exact HN']. econstructor; eauto.
    + destruct (describes_reject rc [] Hs _ _ _ _ D A) as [m Em]. exists m. change (k :: ks) with ([k] ++ ks). rewrite app_assoc. clear - Em.
      assert (HR : forall a b b0, run rc b0 (a ++ b) = let* b1 := run rc b0 a in run rc b1 b) by (induction a as [|x a IH]; intros b b0; cbn; [reflexivity|]; destruct (step rc b0 x); cbn; [apply IH|reflexivity|reflexivity]).
      rewrite HR, Em. reflexivity.
Qed.
