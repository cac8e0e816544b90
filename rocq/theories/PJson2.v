(** Proofs about JSON: texts that are rejected, and the way there and back. *)
From Coq Require Import String DecimalString DecimalNat Decimal.
From Verif Require Import Base BaseLemmas OmapLemmas Content KCore Core KOption Option KReduce Merge Builder SpecArray SpecBuilder PCore PAt PValid PForm
  PBuilder PBuilderStep PBuilderUnion PBuilderSnap PBuilderSpec PBuilderAll ThmC22 Getitem Types SpecTypes PTypes PTypes2 Json SpecJson PJson.
Local Open Scope string_scope.
Local Open Scope list_scope.
Local Open Scope Z_scope.

Section Proofs.
Variables (quiet_nan infinity minus_infinity : Z).
Variable o : options.
Variable rc : Z -> Z.
Notation handle := (handle quiet_nan infinity minus_infinity o).
Notation feed := (feed quiet_nan infinity minus_infinity rc o).
Notation datum := (datum quiet_nan infinity minus_infinity o).
Notation covered_document := (covered_document quiet_nan infinity minus_infinity o).

(** ** The reader ends or raises *)
Lemma handle_no_tuple t k : handle t = Ok k -> match k with CBeginTuple _ => False | _ => True end.
Proof. destruct t; cbn; try (intros H; injection H as <-; exact I); try discriminate. repeat (destruct (is_string _ _); [intros H; injection H as <-; exact I|]). discriminate. Qed.
Lemma handle_no_UB t : handle t <> UB.
Proof. destruct t; cbn; try discriminate. repeat (destruct (is_string _ _); [discriminate|]). discriminate. Qed.
Lemma nil_sizes : zlen (@nil Z) <= 122.
Proof. rewrite zlen_nil. lia. Qed.
Lemma run_snoc b0 ks k : run rc b0 (ks ++ [k]) = let* b := run rc b0 ks in let* r := step rc b k in Ok (returned r).
Proof. revert b0; induction ks as [|a ks IH]; intros b0; cbn [run app bind]; [reflexivity|]. destruct (step rc b0 a); cbn [bind]; [apply IH|reflexivity|reflexivity]. Qed.
Lemma feed_defined ts : forall ks0 es frs b, describes [] ks0 es frs -> Forall no_tuple frs -> run rc new_builder ks0 = Ok b -> feed b ts <> UB.
Proof.
  induction ts as [|t ts IH]; intros ks0 es frs b D HN HR; cbn [Json.feed]; [discriminate|]. pose proof (handle_no_UB t). destruct (handle t) as [k|m|] eqn:Ek; cbn [bind]; [|discriminate|contradiction].
  pose proof (handle_no_tuple t k Ek) as Hk. destruct (advance es frs k) as [[es' frs']|] eqn:A.
  - destruct (advance_no_tuple k Hk _ _ _ _ HN A) as [T HN']. assert (D' : describes [] (ks0 ++ [k]) es' frs') by (econstructor; eauto).
    destruct (describes_run rc [] nil_sizes _ _ _ D') as (b' & E & _). pose proof E as E'. rewrite run_snoc, HR in E. cbn [bind] in E. destruct (step rc b k) as [r| |]; cbn [bind] in *; try discriminate E.
    injection E as <-. eapply IH; eassumption.
  - destruct (describes_reject rc [] nil_sizes _ _ _ _ D A) as [m E]. rewrite run_snoc, HR in E. cbn [bind] in E. destruct (step rc b k); cbn [bind] in *; discriminate.
Qed.
Lemma feed_new ts : feed new_builder ts <> UB.
Proof. apply (feed_defined ts [] [] []); [constructor|constructor|reflexivity]. Qed.
Lemma feed_app a b : forall b0, feed b0 (a ++ b) = let* b1 := feed b0 a in feed b1 b.
Proof.
  induction a as [|t a IH]; intros b0; cbn [Json.feed app bind]; [reflexivity|]. destruct (handle t); cbn [bind]; [|reflexivity|reflexivity]. destruct (step rc b0 a0); cbn [bind]; [apply IH|reflexivity|reflexivity].
Qed.
Lemma rejected_raises refeq fuel docs events at_end : events <> [] \/ at_end = false ->
  exists m, do_parse quiet_nan infinity minus_infinity rc refeq fuel o docs (Rejected events at_end) = Err m.
Proof.
  intros H. unfold do_parse. pose proof (feed_new (concat docs)) as H1. pose proof (feed_new (concat docs ++ events)) as H2. rewrite feed_app in H2.
  destruct (feed new_builder (concat docs)) as [b| |]; cbn [bind] in *; [|eauto|contradiction]. destruct (feed b events) as [b'| |]; cbn [bind] in *; [|eauto|contradiction].
  destruct events; [destruct H as [H| ->]; [contradiction|eexists; reflexivity]|]. destruct at_end; eexists; reflexivity.
Qed.

(** ** A key twice *)
Fixpoint onceb (d : json) : bool :=
  match d with
  | JList l => forallb onceb l
  | JObject fs => once String.eqb (fields quiet_nan infinity minus_infinity o fs) && forallb (fun f => onceb (snd f)) fs
  | _ => true
  end.
Lemma onceb_iff d : onceb d = true <-> keys_once d.
Proof.
  induction d using json_ind'; cbn [onceb keys_once]; try (split; auto; fail).
  - rewrite forallb_forall, fold_and, Forall_forall. rewrite Forall_forall in H. split; intros G x Hx; apply H; auto.
  - rewrite andb_true_iff, (once_iff quiet_nan infinity minus_infinity o), forallb_forall, (fold_and (fun f : string * json => keys_once (snd f))), Forall_forall. rewrite Forall_forall in H.
    split; intros [G1 G]; (split; [exact G1|]); intros x Hx; apply H; auto.
Qed.
Definition stuck (es : list entry) (frs : list frame) (ks : list call) : Prop :=
  exists ks1 k ks2 es1 frs1, ks = ks1 ++ k :: ks2 /\ reading es frs ks1 = Some (es1, frs1) /\ frs1 <> [] /\ advance es1 frs1 k = None.
Lemma reading_app' ks1 ks2 : forall es frs, reading es frs (ks1 ++ ks2) = match reading es frs ks1 with Some (es1, frs1) => reading es1 frs1 ks2 | None => None end.
Proof. induction ks1 as [|k ks1 IH]; intros es frs; cbn [reading app]; [reflexivity|]. destruct (advance es frs k) as [[es1 frs1]|]; [apply IH|reflexivity]. Qed.
Lemma stuck_reading es frs ks : stuck es frs ks -> reading es frs ks = None.
Proof. intros (ks1 & k & ks2 & es1 & frs1 & -> & E & _ & A). rewrite reading_app', E. cbn [reading]. now rewrite A. Qed.
Lemma stuck_app es frs ks ks' : stuck es frs ks -> stuck es frs (ks ++ ks').
Proof. intros (ks1 & k & ks2 & es1 & frs1 & -> & E & N & A). exists ks1, k, (ks2 ++ ks'), es1, frs1. rewrite <- app_assoc. auto. Qed.
Lemma stuck_after es frs ks es1 frs1 ks' : reading es frs ks = Some (es1, frs1) -> stuck es1 frs1 ks' -> stuck es frs (ks ++ ks').
Proof.
  intros E (ks1 & k & ks2 & es2 & frs2 & -> & E2 & N & A). exists (ks ++ ks1), k, ks2, es2, frs2. rewrite <- app_assoc. split; [reflexivity|]. rewrite reading_app', E. auto.
Qed.
Definition carrier (f : frame) (l : list entry) : Prop := match f with FList l' => l' = l | FTuple _ _ (Some (_, l')) => l' = l | FRecord _ (Some (_, l')) => l' = l | _ => False end.
Definition put (f : frame) (l : list entry) : frame :=
  match f with FList _ => FList l | FTuple n fs (Some (i, _)) => FTuple n fs (Some (i, l)) | FRecord fs (Some (i, _)) => FRecord fs (Some (i, l)) | f => f end.
Lemma put_put f a b : put (put f a) b = put f b.
Proof. destruct f as [?|? ? [[]|]|? [[]|]]; reflexivity. Qed.
Lemma carrier_put f l l' : carrier f l -> carrier (put f l') l' /\ put f l = f.
Proof. destruct f as [?|? ? [[]|]|? [[]|]]; cbn; intros H; try contradiction; subst; auto. Qed.
Lemma inside_put f l r : carrier f l -> inside f r = option_map (fun x => put f (fst x) :: snd x) (r l).
Proof. destruct f as [?|? ? [[]|]|? [[]|]]; cbn; intros H; try contradiction; subst; reflexivity. Qed.
Lemma advance_lift f l es frs k l' frs' : carrier f l -> advance l frs k = Some (l', frs') -> advance es (f :: frs) k = Some (es, put f l' :: frs').
Proof.
  intros Hc H. cbn [advance]. assert (E : (match frs with [] => own es f k | _ :: _ => None end) = None) by (destruct frs; [|reflexivity]; eapply start_own; exact H).
  rewrite E, (inside_put _ _ _ Hc), H. reflexivity.
Qed.
Lemma reading_lift ks : forall f l es frs l' frs', carrier f l -> reading l frs ks = Some (l', frs') -> reading es (f :: frs) ks = Some (es, put f l' :: frs').
Proof.
  induction ks as [|k ks IH]; intros f l es frs l' frs' Hc H; cbn [reading] in *.
  - injection H as <- <-. destruct (carrier_put f l l Hc) as [_ E]. now rewrite E.
  - destruct (advance l frs k) as [[l1 frs1]|] eqn:A; [|discriminate]. rewrite (advance_lift _ _ es _ _ _ _ Hc A).
    rewrite (IH (put f l1) l1 es frs1 l' frs' (proj1 (carrier_put f l l1 Hc)) H). now rewrite put_put.
Qed.
Lemma stuck_lift f l es frs ks : carrier f l -> stuck l frs ks -> stuck es (f :: frs) ks.
Proof.
  intros Hc (ks1 & k & ks2 & l1 & frs1 & -> & E & N & A). exists ks1, k, ks2, es, (put f l1 :: frs1). split; [reflexivity|]. split; [eapply reading_lift; eassumption|]. split; [discriminate|].
  cbn [advance]. destruct frs1 as [|g frs1]; [contradiction|]. rewrite (inside_put (put f l1) l1) by (apply (carrier_put f l l1 Hc)). now rewrite A.
Qed.
Lemma reads_reading outer ks : forall es frs es' frs', reads [] outer es frs ks es' frs' -> reading es frs ks = Some (es', frs').
Proof. induction ks as [|k ks IH]; intros es frs es' frs'; cbn [reads reading]; [intros [-> ->]; reflexivity|]. intros (e1 & f1 & _ & -> & H). now apply IH. Qed.
Lemma datum_reading d es : onceb d = true -> reading es [] (calls (datum d)) = Some (es ++ [datum d], []).
Proof. intros H. eapply reads_reading with (outer := []). apply reads_entry. apply datum_writable. apply onceb_iff. exact H. Qed.
Lemma twice_stuck d : onceb d = false -> forall es, stuck es [] (calls (datum d)).
Proof.
  induction d using json_ind'; cbn [onceb]; try discriminate; intros HB es; cbn [SpecJson.datum calls].
  - apply (stuck_after es [] [CBeginList] es [FList []]); [reflexivity|]. apply stuck_app.
    assert (G : forall done, stuck es [FList done] (flat_map calls (map datum l))).
    { induction H as [|d l Hd Hl IH]; [discriminate|]. intros done. cbn [forallb] in HB. cbn [map flat_map]. destruct (onceb d) eqn:Ed.
      - eapply stuck_after; [eapply reading_lift; [reflexivity|apply datum_reading; exact Ed]|]. cbn [put]. apply IH. exact HB.
      - apply stuck_app. eapply stuck_lift; [reflexivity|]. apply Hd. reflexivity. }
    apply G.
  - apply (stuck_after es [] [CBeginRecord] es [FRecord [] None]); [reflexivity|].
    destruct (forallb (fun f => onceb (snd f)) fs) eqn:EF.
    + rewrite andb_true_r in HB. assert (G : forall fs done now, forallb (fun f : string * json => onceb (snd f)) fs = true ->
        exists done' now', reading es [FRecord done now] (field_calls (fields quiet_nan infinity minus_infinity o fs)) = Some (es, [FRecord done' now']) /\ all done' now' = all done now ++ fields quiet_nan infinity minus_infinity o fs).
      { clear. induction fs as [|[k d] fs IH]; intros done now HF; [exists done, now; split; [reflexivity|]; cbn; now rewrite app_nil_r|]. cbn [forallb snd] in HF. apply andb_true_iff in HF. destruct HF as [H1 H2].
        destruct (IH (all done now) (Some (k, [datum d])) H2) as (done' & now' & R & E). exists done', now'. split; [|rewrite E; cbn [fields map fst snd]; unfold all at 1; rewrite <- app_assoc; reflexivity].
        unfold field_calls in *. cbn [fields map flat_map fst snd]. rewrite app_nil_r.
        change ((CField k :: calls (datum d)) ++ ?r) with ([CField k] ++ calls (datum d) ++ r). rewrite reading_app'. cbn [reading]. cbn [advance own].
        rewrite reading_app'. rewrite (reading_lift _ (FRecord (all done now) (Some (k, []))) [] es [] ([] ++ [datum d]) []); [|reflexivity|apply datum_reading; exact H1]. cbn [put app]. exact R. }
      destruct (G fs [] None EF) as (done' & now' & R & E). change (all [] None ++ fields quiet_nan infinity minus_infinity o fs) with (fields quiet_nan infinity minus_infinity o fs) in E.
      exists (field_calls (fields quiet_nan infinity minus_infinity o fs)), CEndRecord, [], es, [FRecord done' now']. split; [reflexivity|]. split; [exact R|]. split; [discriminate|].
      cbn [advance own]. rewrite E, HB. destruct now' as [[k l]|]; reflexivity.
    + apply stuck_app. clear HB. assert (G : forall done now, stuck es [FRecord done now] (field_calls (fields quiet_nan infinity minus_infinity o fs))).
      { induction H as [|[k d] fs Hd Hl IH]; [discriminate|]. intros done now. cbn [forallb snd] in EF. unfold field_calls in *. cbn [fields map flat_map fst snd]. rewrite app_nil_r.
        change ((CField k :: calls (datum d)) ++ ?r) with ([CField k] ++ calls (datum d) ++ r). eapply (stuck_after _ _ [CField k] es [FRecord (all done now) (Some (k, []))]); [reflexivity|].
        destruct (onceb d) eqn:Ed.
        - eapply stuck_after; [eapply reading_lift; [reflexivity|apply datum_reading; exact Ed]|]. cbn [put]. apply IH. exact EF.
        - apply stuck_app. eapply stuck_lift; [reflexivity|]. apply Hd. exact Ed. }
      apply G.
Qed.
Lemma twice_reading docs : existsb (fun d => negb (onceb d)) docs = true -> forall es, reading es [] (flat_map calls (map datum docs)) = None.
Proof.
  induction docs as [|d docs IH]; intros H es; [discriminate|]. cbn [existsb] in H. cbn [map flat_map]. destruct (onceb d) eqn:Ed; cbn [negb orb] in H.
  - rewrite reading_app', (datum_reading d es Ed). apply IH. exact H.
  - apply stuck_reading. apply stuck_app. apply twice_stuck. exact Ed.
Qed.
Lemma calls_no_tuple d : Forall (fun k => match k with CBeginTuple _ => False | _ => True end) (calls (datum d)).
Proof.
  induction d using json_ind'; cbn [SpecJson.datum calls]; try (constructor; [exact I|constructor]).
  - constructor; [exact I|]. apply Forall_app. split; [|constructor; [exact I|constructor]]. induction H; cbn [map flat_map]; [constructor|]. apply Forall_app. auto.
  - constructor; [exact I|]. apply Forall_app. split; [|constructor; [exact I|constructor]]. induction H; cbn [map flat_map fst snd]; [constructor|]. rewrite app_nil_r. constructor; [exact I|]. apply Forall_app. auto.
Qed.
Lemma twice_raises refeq fuel docs r : Forall covered_document docs -> (exists d, In d docs /\ ~ keys_once d) ->
  exists m, do_parse quiet_nan infinity minus_infinity rc refeq fuel o (map text docs) r = Err m.
Proof.
  intros Hc (d & Hin & Hd). unfold do_parse. rewrite (feed_run quiet_nan infinity minus_infinity o rc _ _ _ (handled_all quiet_nan infinity minus_infinity o docs Hc)).
  assert (HF : Forall (fun k => match k with CBeginTuple _ => False | _ => True end) (flat_map calls (map datum docs))).
  { clear. induction docs; cbn [map flat_map]; [constructor|]. apply Forall_app. split; [apply calls_no_tuple|assumption]. }
  pose proof (reading_no_tuple rc _ HF [] [] [] (d_nil []) (Forall_nil _)) as R. rewrite (twice_reading docs) in R.
  - destruct R as [m R]. cbn [app] in R. rewrite R. cbn [bind]. eauto.
  - apply existsb_exists. exists d. split; [exact Hin|]. destruct (onceb d) eqn:E; [|reflexivity]. exfalso. apply Hd. apply onceb_iff. exact E.
Qed.
End Proofs.
