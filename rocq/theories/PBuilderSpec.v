(** ArrayBuilder: the calls that append complete data are well nested. *)
From Coq Require Import String.
From Verif Require Import Base BaseLemmas SpecArray Builder SpecBuilder PBuilder.
Local Open Scope string_scope.
Local Open Scope list_scope.
Local Open Scope Z_scope.

Section Ind.
Variable P : entry -> Prop.
Hypothesis Hnull : P ENull.
Hypothesis Hbool : forall b, P (EBool b).
Hypothesis Hint : forall z, P (EInt z).
Hypothesis Hreal : forall r, P (EReal r).
Hypothesis Hlist : forall l, Forall P l -> P (EList l).
Hypothesis Htuple : forall n fs, Forall (fun f => Forall P (snd f)) fs -> P (ETuple n fs).
Hypothesis Hrecord : forall fs, Forall (fun f => Forall P (snd f)) fs -> P (ERecord fs).
Fixpoint entry_ind' (e : entry) : P e :=
  let go := fix go l : Forall P l := match l with [] => Forall_nil P | x :: l => Forall_cons x (entry_ind' x) (go l) end in
  match e with
  | ENull => Hnull | EBool b => Hbool b | EInt z => Hint z | EReal r => Hreal r
  | EList l => Hlist l (go l)
  | ETuple n fs => Htuple n fs ((fix gs (fs : list (Z * list entry)) : Forall (fun f => Forall P (snd f)) fs := match fs with [] => Forall_nil _ | f :: fs => Forall_cons f (go (snd f)) (gs fs) end) fs)
  | ERecord fs => Hrecord fs ((fix gs (fs : list (string * list entry)) : Forall (fun f => Forall P (snd f)) fs := match fs with [] => Forall_nil _ | f :: fs => Forall_cons f (go (snd f)) (gs fs) end) fs)
  end.
End Ind.

Section Reads.
Variable sizes : list Z.
Definition fits (outer : list Z) (frs : list frame) (k : call) : Prop :=
  tame sizes frs k /\ match k with CIndex i => Forall (fun m => 0 <= i < m) outer | _ => True end.
Fixpoint reads (outer : list Z) (es : list entry) (frs : list frame) (ks : list call) (es' : list entry) (frs' : list frame) : Prop :=
  match ks with
  | [] => es' = es /\ frs' = frs
  | k :: ks => exists es1 frs1, fits outer frs k /\ advance es frs k = Some (es1, frs1) /\ reads outer es1 frs1 ks es' frs'
  end.
Lemma reads_app outer ks1 ks2 : forall es frs es1 frs1 es2 frs2, reads outer es frs ks1 es1 frs1 -> reads outer es1 frs1 ks2 es2 frs2 -> reads outer es frs (ks1 ++ ks2) es2 frs2.
Proof.
  induction ks1 as [|k ks1 IH]; intros es frs es1 frs1 es2 frs2; cbn.
  - now intros [-> ->].
  - intros (ea & fa & H1 & H2 & H3) H4. exists ea, fa. eauto.
Qed.
Lemma reads_describes ks : forall ks0 es frs es' frs', describes sizes ks0 es frs -> reads [] es frs ks es' frs' -> describes sizes (ks0 ++ ks) es' frs'.
Proof.
  induction ks as [|k ks IH]; intros ks0 es frs es' frs' H; cbn.
  - intros [-> ->]. now rewrite app_nil_r.
  - intros (ea & fa & [H1 _] & H2 & H3). change (k :: ks) with ([k] ++ ks). rewrite app_assoc. eapply IH; [|exact H3]. econstructor; eauto.
Qed.
Lemma start_own es es2 f k r : start es k = Some r -> own es2 f k = None.
Proof. destruct k; try discriminate; intros _; destruct f; reflexivity. Qed.
Lemma advance_in es f frs k l l' frs' : (forall r, inside f r = option_map (fun x => match f with FList _ => FList (fst x) | FTuple n fs (Some (i, _)) => FTuple n fs (Some (i, fst x)) | FRecord fs (Some (i, _)) => FRecord fs (Some (i, fst x)) | f => f end :: snd x) (r l)) ->
  advance l frs k = Some (l', frs') -> advance es (f :: frs) k = Some (es, match f with FList _ => FList l' | FTuple n fs (Some (i, _)) => FTuple n fs (Some (i, l')) | FRecord fs (Some (i, _)) => FRecord fs (Some (i, l')) | f => f end :: frs').
Proof.
  intros Hf H. cbn [advance]. assert (E : (match frs with [] => own es f k | _ :: _ => None end) = None).
  { destruct frs; [|reflexivity]. eapply start_own. exact H. }
  rewrite E, Hf, H. reflexivity.
Qed.
Lemma reads_list outer ks : forall es l frs l' frs', reads outer l frs ks l' frs' -> reads outer es (FList l :: frs) ks es (FList l' :: frs').
Proof.
  induction ks as [|k ks IH]; intros es l frs l' frs'; cbn [reads].
  - now intros [-> ->].
  - intros (ea & fa & [H1 H1'] & H2 & H3). exists es, (FList ea :: fa). split; [|split; [|now apply IH]].
    + split; [|exact H1']. destruct k; auto. cbn in *. constructor; [exact I|assumption].
    + now apply (advance_in es (FList l) frs k l ea fa).
Qed.
Lemma reads_tuple outer n fs i ks : forall es l frs l' frs', reads (n :: outer) l frs ks l' frs' -> reads outer es (FTuple n fs (Some (i, l)) :: frs) ks es (FTuple n fs (Some (i, l')) :: frs').
Proof.
  induction ks as [|k ks IH]; intros es l frs l' frs'; cbn [reads].
  - now intros [-> ->].
  - intros (ea & fa & [H1 H1'] & H2 & H3). exists es, (FTuple n fs (Some (i, ea)) :: fa). split; [|split; [|now apply IH]].
    + destruct k; try (split; [exact H1|exact I]). apply Forall_cons_iff in H1' as [Ha Hb]. split; [|exact Hb]. cbn in *. constructor; assumption.
    + now apply (advance_in es (FTuple n fs (Some (i, l))) frs k l ea fa).
Qed.
Lemma reads_record outer fs i ks : forall es l frs l' frs', reads outer l frs ks l' frs' -> reads outer es (FRecord fs (Some (i, l)) :: frs) ks es (FRecord fs (Some (i, l')) :: frs').
Proof.
  induction ks as [|k ks IH]; intros es l frs l' frs'; cbn [reads].
  - now intros [-> ->].
  - intros (ea & fa & [H1 H1'] & H2 & H3). exists es, (FRecord fs (Some (i, ea)) :: fa). split; [|split; [|now apply IH]].
    + split; [|exact H1']. destruct k; auto. cbn in *. constructor; [exact I|assumption].
    + now apply (advance_in es (FRecord fs (Some (i, l))) frs k l ea fa).
Qed.
Definition goal (e : entry) : Prop := forall outer es, writable sizes outer e -> reads outer es [] (calls e) (es ++ [e]) [].
Lemma reads_items outer l : Forall goal l -> forall es, fold_right and True (map (writable sizes outer) l) -> reads outer es [] (flat_map calls l) (es ++ l) [].
Proof.
  induction 1 as [|e l He Hl IH]; intros es; cbn [flat_map map fold_right].
  - intros _. rewrite app_nil_r. split; reflexivity.
  - intros [H1 H2]. eapply reads_app; [now apply He|]. change (es ++ e :: l) with (es ++ [e] ++ l). rewrite app_assoc. now apply IH.
Qed.
Lemma reads_slots outer n fs es : Forall (fun f => Forall goal (snd f)) fs -> forall done now,
  fold_right and True (map (fun f => Forall (fun m => 0 <= fst f < m) (n :: outer) /\ fold_right and True (map (writable sizes (n :: outer)) (snd f))) fs) ->
  exists done' now', all done' now' = all done now ++ fs /\ reads outer es [FTuple n done now] (flat_map (fun f => CIndex (fst f) :: flat_map calls (snd f)) fs) es [FTuple n done' now'].
Proof.
  induction 1 as [|[i l] fs Hl Hfs IH]; intros done now; cbn [map fold_right flat_map].
  - intros _. exists done, now. rewrite app_nil_r. repeat split.
  - intros [[H1 H2] H3]. destruct (IH (all done now) (Some (i, l)) H3) as (done' & now' & E & R). exists done', now'. split.
    + rewrite E. unfold all at 1. now rewrite <- app_assoc.
    + cbn [fst snd] in *. eapply (reads_app outer (CIndex i :: flat_map calls l)); [|exact R].
      cbn [reads]. exists es, [FTuple n (all done now) (Some (i, []))]. apply Forall_cons_iff in H1 as [Ha Hb]. split; [|split].
      * split; [|exact Hb]. cbn. constructor; [exact Ha|constructor].
      * reflexivity.
      * apply reads_tuple. exact (reads_items (n :: outer) l Hl [] H2).
Qed.
Lemma reads_fields outer fs es : Forall (fun f => Forall goal (snd f)) fs -> forall done now,
  fold_right and True (map (fun f : string * list entry => fold_right and True (map (writable sizes outer) (snd f))) fs) ->
  exists done' now', all done' now' = all done now ++ fs /\ reads outer es [FRecord done now] (flat_map (fun f => CField (fst f) :: flat_map calls (snd f)) fs) es [FRecord done' now'].
Proof.
  induction 1 as [|[i l] fs Hl Hfs IH]; intros done now; cbn [map fold_right flat_map].
  - intros _. exists done, now. rewrite app_nil_r. repeat split.
  - intros [H2 H3]. destruct (IH (all done now) (Some (i, l)) H3) as (done' & now' & E & R). exists done', now'. split.
    + rewrite E. unfold all at 1. now rewrite <- app_assoc.
    + cbn [fst snd] in *. eapply (reads_app outer (CField i :: flat_map calls l)); [|exact R].
      cbn [reads]. exists es, [FRecord (all done now) (Some (i, []))]. split; [|split].
      * split; exact I.
      * reflexivity.
      * apply reads_record. exact (reads_items outer l Hl [] H2).
Qed.
Lemma reads_entry e : goal e.
Proof.
  induction e as [|b|z|r|l Hl|n fs Hfs|fs Hfs] using entry_ind'; intros outer es H; cbn [calls].
  - cbn. eexists _, _. split; [split; exact I|]. split; [reflexivity|]. split; reflexivity.
  - cbn. eexists _, _. split; [split; exact I|]. split; [reflexivity|]. split; reflexivity.
  - cbn. eexists _, _. split; [split; exact I|]. split; [reflexivity|]. split; reflexivity.
  - cbn. eexists _, _. split; [split; exact I|]. split; [reflexivity|]. split; reflexivity.
  - cbn [writable] in H. cbn [reads]. exists es, [FList []]. split; [split; exact I|]. split; [reflexivity|].
    eapply reads_app; [apply reads_list; exact (reads_items outer l Hl [] H)|]. cbn. eexists _, _. split; [split; exact I|]. split; [reflexivity|]. split; reflexivity.
  - cbn [writable] in H. destruct H as (Hn & Hin & Ho & Hw). cbn [reads]. exists es, [FTuple n [] None]. split; [split; [split; assumption|exact I]|]. split; [reflexivity|].
    destruct (reads_slots outer n fs es Hfs [] None Hw) as (done & now & E & R). eapply reads_app; [exact R|]. change (all [] None ++ fs) with fs in E.
    cbn. rewrite E, Ho. eexists _, _. split; [split; exact I|]. split; [reflexivity|]. split; reflexivity.
  - cbn [writable] in H. destruct H as (Ho & Hw). cbn [reads]. exists es, [FRecord [] None]. split; [split; exact I|]. split; [reflexivity|].
    destruct (reads_fields outer fs es Hfs [] None Hw) as (done & now & E & R). eapply reads_app; [exact R|]. change (all [] None ++ fs) with fs in E.
    cbn. rewrite E, Ho. eexists _, _. split; [split; exact I|]. split; [reflexivity|]. split; reflexivity.
Qed.
Lemma writable_describes es : Forall (writable sizes []) es -> describes sizes (flat_map calls es) es [].
Proof.
  intros H. apply (reads_describes _ [] [] [] es []); [constructor|].
  apply (reads_items [] es); [apply Forall_forall; intros; apply reads_entry|]. induction H; cbn; auto.
Qed.

(** and nothing else describes them *)
Definition slot_calls (fs : list (Z * list entry)) := flat_map (fun f => CIndex (fst f) :: flat_map calls (snd f)) fs.
Definition field_calls (fs : list (string * list entry)) := flat_map (fun f => CField (fst f) :: flat_map calls (snd f)) fs.
Fixpoint opened (frs : list frame) : list call :=
  match frs with
  | [] => []
  | FList l :: frs => CBeginList :: flat_map calls l ++ opened frs
  | FTuple n fs now :: frs => CBeginTuple n :: slot_calls (all fs now) ++ opened frs
  | FRecord fs now :: frs => CBeginRecord :: field_calls (all fs now) ++ opened frs
  end.
Lemma calls_app a b : flat_map calls (a ++ b) = flat_map calls a ++ flat_map calls b.
Proof. apply flat_map_app. Qed.
Lemma advance_calls k : forall frs es es' frs', advance es frs k = Some (es', frs') -> flat_map calls es' ++ opened frs' = flat_map calls es ++ opened frs ++ [k].
Proof.
  induction frs as [|f frs IH]; intros es es' frs' H.
  - cbn in H. destruct k; try discriminate; cbn in H; injection H as <- <-; rewrite ?calls_app; cbn; rewrite ?app_nil_r; reflexivity.
  - cbn [advance] in H. destruct (match frs with [] => own es f k | _ :: _ => None end) as [[es1 frs1]|] eqn:Eo.
    + destruct frs; [|discriminate]. injection H as <- <-. destruct f, k; cbn in Eo; try discriminate; try (destruct (once _ _); [|discriminate]); injection Eo as <- <-; rewrite ?calls_app; cbn; rewrite ?app_nil_r; unfold slot_calls, field_calls; try reflexivity.
      * unfold all at 1. rewrite flat_map_app. reflexivity.
      * unfold all at 1. rewrite flat_map_app. reflexivity.
    + destruct f as [l|n fs [[i l]|]|fs [[i l]|]]; cbn in H; try discriminate; destruct (advance l frs k) as [[l' frs1]|] eqn:E; try discriminate; cbn in H; injection H as <- <-; apply IH in E; cbn [opened]; f_equal.
      * rewrite <- app_comm_cons. f_equal. rewrite E, app_assoc. reflexivity.
      * rewrite <- app_comm_cons. f_equal. unfold slot_calls, all. rewrite !flat_map_app. cbn [flat_map fst snd]. rewrite !app_nil_r, <- !app_assoc, <- !app_comm_cons. now rewrite E.
      * rewrite <- app_comm_cons. f_equal. unfold field_calls, all. rewrite !flat_map_app. cbn [flat_map fst snd]. rewrite !app_nil_r, <- !app_assoc, <- !app_comm_cons. now rewrite E.
Qed.
Lemma describes_calls ks es frs : describes sizes ks es frs -> ks = flat_map calls es ++ opened frs.
Proof.
  induction 1 as [|ks k es frs es' frs' D IH T A]; [reflexivity|]. rewrite (advance_calls _ _ _ _ _ A), app_assoc. now f_equal.
Qed.
End Reads.
