(** ArrayBuilder: unions; the step lemma. *)
From Coq Require Import String.
From Verif Require Import Base BaseLemmas OmapLemmas SpecArray Content Builder SpecBuilder PBuilder PBuilderStep PBuilderTuple PBuilderRecord.
Local Open Scope string_scope.
Local Open Scope list_scope.
Local Open Scope Z_scope.

Lemma find_content_spec p cs : match find_content p cs with
  | Some i => exists c, nthZ cs i = Some c /\ p c = true
  | None => forall j c, nthZ cs j = Some c -> p c = false
  end.
Proof.
  induction cs as [|c cs IH]; cbn [find_content]; [intros j c H; now rewrite nthZ_nil in H|].
  destruct (p c) eqn:E; [exists c; now split|]. destruct (find_content p cs) as [i|]; cbn [option_map].
  - destruct IH as (c0 & H1 & H2). exists c0. split; [|exact H2]. rewrite nthZ_cons. apply nthZ_Some in H1 as Hr. destruct (i + 1 =? 0) eqn:?; [lia|]. now replace (i + 1 - 1) with i by lia.
  - intros j c0. rewrite nthZ_cons. destruct (j =? 0); [now intros [= <-]|apply IH].
Qed.
Lemma int8_small i : 0 <= i <= 127 -> int8 i = i.
Proof. intros H. unfold int8. rewrite Z.mod_small by lia. lia. Qed.

Section Union.
Variable rc : Z -> Z.
Variable sizes : list Z.
Hypothesis Hsizes : zlen sizes <= 122.
Notation holds := (holds rc sizes).
Notation step := (step rc).
Notation good := (good rc sizes).

Lemma choose_spec cs k kd : tkind k = Some kd -> (forall j c, nthZ cs j = Some c -> exists col, holds c col []) ->
  match choose cs k with
  | Some i => exists c, nthZ cs i = Some c /\ (bkind c = Some kd \/ kd = KReal /\ bkind c = Some KInt /\ forall j c, nthZ cs j = Some c -> bkind c <> Some KReal)
  | None => forall j c, nthZ cs j = Some c -> bkind c <> Some kd
  end.
Proof.
  intros Hk Hh.
  assert (HT : forall n c, (exists col, holds c col []) -> (match c with BTuple fs len _ _ => (len =? -1) || (zlen fs =? n) | _ => false end = true <-> bkind c = Some (KTuple n))).
  { intros n c [col H]. destruct c; try (split; discriminate). inversion H; subst. cbn. pose proof (zlen_nonneg rows).
    replace (zlen rows =? -1) with false by lia. cbn. split; [intros E; do 2 f_equal; lia|intros [= E]; lia]. }
  destruct k; try discriminate; cbn in Hk; injection Hk as <-; cbn [choose].
  - pose proof (find_content_spec (fun c => match c with BBool _ => true | _ => false end) cs) as H. destruct (find_content _ _) as [i|].
    + destruct H as (c & H1 & H2). exists c. split; [exact H1|]. left. now destruct c.
    + intros j c Hj E. specialize (H _ _ Hj). destruct c; discriminate.
  - pose proof (find_content_spec (fun c => match c with BInt _ => true | _ => false end) cs) as H. destruct (find_content _ _) as [i|].
    + destruct H as (c & H1 & H2). exists c. split; [exact H1|]. left. now destruct c.
    + intros j c Hj E. specialize (H _ _ Hj). destruct c; discriminate.
  - pose proof (find_content_spec (fun c => match c with BReal _ => true | _ => false end) cs) as H.
    pose proof (find_content_spec (fun c => match c with BInt _ => true | _ => false end) cs) as H'.
    destruct (find_content (fun c => match c with BReal _ => true | _ => false end) cs) as [i|].
    + destruct H as (c & H1 & H2). exists c. split; [exact H1|]. left. now destruct c.
    + assert (HN : forall j c, nthZ cs j = Some c -> bkind c <> Some KReal) by (intros j c Hj E; specialize (H _ _ Hj); destruct c; discriminate).
      destruct (find_content (fun c => match c with BInt _ => true | _ => false end) cs) as [i|].
      * destruct H' as (c & H1 & H2). exists c. split; [exact H1|]. right. split; [reflexivity|]. split; [now destruct c|exact HN].
      * exact HN.
  - pose proof (find_content_spec (fun c => match c with BList _ _ _ => true | _ => false end) cs) as H. destruct (find_content _ _) as [i|].
    + destruct H as (c & H1 & H2). exists c. split; [exact H1|]. left. now destruct c.
    + intros j c Hj E. specialize (H _ _ Hj). destruct c; discriminate.
  - pose proof (find_content_spec (fun c => match c with BTuple fs len _ _ => (len =? -1) || (zlen fs =? numfields) | _ => false end) cs) as H. destruct (find_content _ _) as [i|].
    + destruct H as (c & H1 & H2). exists c. split; [exact H1|]. left. apply HT; eauto.
    + intros j c Hj E. specialize (H _ _ Hj). apply HT in E; [congruence|eauto].
  - pose proof (find_content_spec (fun c => match c with BRecord _ _ _ _ _ _ => true | _ => false end) cs) as H. destruct (find_content _ _) as [i|].
    + destruct H as (c & H1 & H2). exists c. split; [exact H1|]. left. now destruct c.
    + intros j c Hj E. specialize (H _ _ Hj). destruct c; discriminate.
Qed.

(** a node of the right kind takes the call itself *)
Lemma step_match c col k kd r : holds c col [] -> bkind c = Some kd -> tkind k = Some kd -> tame sizes [] k -> step c k = Ok r -> snd r = None /\ bkind (fst r) = Some kd.
Proof.
  intros Hh Hc Hk T E. inversion Hh; subst; try discriminate; cbn in Hc; injection Hc as <-; destruct k; try discriminate; cbn [Builder.step] in E.
  1-4: injection E as <-; split; reflexivity.
  - cbn in Hk. injection Hk as ->. pose proof (zlen_nonneg cs). pose proof (zlen_nonneg rows). destruct (zlen cs <? 0) eqn:?; [lia|]. destruct (zlen rows =? -1) eqn:?; [lia|].
    rewrite Z.eqb_refl in E. injection E as <-. split; reflexivity.
  - injection E as <-. split; reflexivity.
Qed.
Lemma step_open_kind c k kd r : active c = true -> bkind c = Some kd -> step c k = Ok r -> bkind (fst r) = Some kd.
Proof.
  intros Ha Hc E. destruct c; try discriminate; cbn in Ha; subst; cbn in Hc; injection Hc as <-.
  - destruct k; cbn [Builder.step] in E; try (destruct (active c)); try (match type of E with context [Builder.step rc ?c ?k] => destruct (Builder.step rc c k) end); cbn [bind] in E; try discriminate; injection E as <-; reflexivity.
  - cbn [Builder.step] in E.
    destruct (nth_apply (fun c => let* r := step c k in Ok (c, r)) contents nextindex) as [p| |]; destruct (nth_apply (fun c => Ok (active c)) contents nextindex) as [a| |];
      destruct (nextindex =? -1); cbn [bind] in E; destruct k; try discriminate; try (destruct (zlen contents <=? i)); try discriminate; try (destruct a); try discriminate;
      try (destruct (mapres _ _) as [cs'| |] eqn:Em; cbn [bind] in E; try discriminate; apply mapres_Ok in Em); injection E as <-; cbn [fst bkind]; rewrite ?zlen_upd, ?Em; reflexivity.
  - cbn [Builder.step] in E.
    destruct (nth_apply (fun c => let* r := step c k in Ok (c, r)) contents nextindex) as [p| |]; destruct (nth_apply (fun c => Ok (active c)) contents nextindex) as [a| |];
      destruct (nextindex =? -1); cbn [bind] in E; destruct k; try discriminate; try (destruct a); try discriminate;
      try (destruct (mapres _ _) as [cs'| |]; cbn [bind] in E; try discriminate); try (destruct (search_key _ _ _ _ _) as [[?|]| |]; cbn [bind] in E; try discriminate); injection E as <-; reflexivity.
Qed.

Section U.
Variables (pos : list (Z * Z)) (cs : list builder) (cur : Z) (cols : list (list entry)) (es : list entry) (frs : list frame).
Hypothesis Hlen : zlen cols = zlen cs.
Hypothesis Hh : forall j c col, nthZ cs j = Some c -> nthZ cols j = Some col -> holds c col (if j =? cur then frs else []).
Hypothesis Hg : forall j c col, nthZ cs j = Some c -> nthZ cols j = Some col -> good c col (if j =? cur then frs else []).
Hypothesis Hkinds : forall j c, nthZ cs j = Some c -> exists kd, bkind c = Some kd /\ kind_ok sizes kd.
Hypothesis Hnodup : NoDup (map bkind cs).
Hypothesis Hpart : forall j c col, nthZ cs j = Some c -> nthZ cols j = Some col -> part (bkind c) col es.
Hypothesis Hpos : Forall2 (located cols) pos es.
Hypothesis Hcur : cur = -1 /\ frs = [] \/ 0 <= cur < zlen cs /\ frs <> [].
Hypothesis Hne : 1 <= zlen cs.
Notation b := (BUnion (map fst pos) (map snd pos) cs cur).

Lemma contents_few : zlen cs <= 127.
Proof.
  assert (H : (List.length (map bkind cs) <= List.length (map Some ([KBool; KInt; KReal; KList; KRecord] ++ map KTuple sizes)))%nat).
  { apply NoDup_incl_length; [exact Hnodup|]. intros okd Hi. apply in_map_iff in Hi as (c & <- & Hc). apply In_nthZ in Hc as [j Hj].
    destruct (Hkinds _ _ Hj) as (kd & -> & Hok). apply in_map. apply in_or_app. destruct kd; cbn; try (left; tauto). right. apply in_map. exact Hok. }
  rewrite !map_length, app_length, map_length in H. cbn in H. unfold zlen in *. lia.
Qed.
Lemma kinds_inj i j c c' : nthZ cs i = Some c -> nthZ cs j = Some c' -> bkind c = bkind c' -> i = j.
Proof.
  intros H1 H2 E. pose proof Hnodup as HN. rewrite NoDup_nthZ in HN. apply (HN i j (bkind c)); rewrite nthZ_map; [rewrite H1|rewrite H2, E]; reflexivity.
Qed.
Lemma col_at j c : nthZ cs j = Some c -> exists col, nthZ cols j = Some col.
Proof. intros H. apply nthZ_lt. apply nthZ_Some in H. lia. Qed.
Lemma union_nonnull : filter nonnull es = es.
Proof.
  apply filter_all. intros e Hi.
  assert (exists p, located cols p e) as (p & col & Hc & He).
  { clear - Hpos Hi. induction Hpos; [destruct Hi|]. destruct Hi as [->|Hi]; eauto. }
  destruct (nthZ_lt cs (fst p)) as [c Ec]; [apply nthZ_Some in Hc; lia|]. destruct (Hkinds _ _ Ec) as (kd & Ek & _).
  pose proof (holds_kind_nonnull _ _ _ _ _ _ (Hh _ _ _ Ec Hc) Ek) as HN. apply nthZ_In in He. rewrite <- HN in He. now apply filter_In in He.
Qed.
Lemma put_upd {A} (l : list A) i x : 0 <= i < zlen l -> put l i x = upd l (Z.to_nat i) x.
Proof. intros H. unfold put. destruct (i <? zlen l) eqn:?; [reflexivity|lia]. Qed.
Lemma put_end {A} (l : list A) x : put l (zlen l) x = l ++ [x].
Proof. unfold put. destruct (zlen l <? zlen l) eqn:?; [lia|reflexivity]. Qed.

(** open: the call goes to the content in use *)
Lemma union_inside k : 0 <= cur < zlen cs -> frs <> [] ->
  match advance [] frs k with
  | Some (ext, frs') => tame sizes frs k -> exists r, step b k = Ok r /\ holds (returned r) (es ++ ext) frs' /\ (frs <> [] -> snd r = None)
  | None => exists m, step b k = Err m
  end.
Proof.
  intros Hc Hf. destruct (nthZ_lt cs cur Hc) as [c Ec]. destruct (col_at _ _ Ec) as [col Ecol].
  pose proof (Hh _ _ _ Ec Ecol) as Hc0. pose proof (Hg _ _ _ Ec Ecol k) as G. rewrite Z.eqb_refl in Hc0, G.
  destruct (Hkinds _ _ Ec) as (kd & Ek & Hok). pose proof (Hpart _ _ _ Ec Ecol) as Hp. rewrite Ek in Hp.
  assert (Ecr : (cur =? -1) = false) by lia. cbn [Builder.step]. rewrite Ecr, (nth_apply_eq _ _ _ _ Ec).
  assert (Ho : forall j c col, j <> cur -> nthZ cs j = Some c -> nthZ cols j = Some col -> holds c col []).
  { intros j c' col' Hj H1 H2. pose proof (Hh _ _ _ H1 H2) as H. destruct (j =? cur) eqn:?; [lia|exact H]. }
  assert (Hd : forall j c', j <> cur -> nthZ cs j = Some c' -> bkind c' <> Some kd).
  { intros j c' Hj H1 E. apply Hj. eapply kinds_inj; eauto. congruence. }
  destruct (advance [] frs k) as [[ext frs']|] eqn:Ea.
  - intros T. destruct (G T) as (r & Er & Hr & Hn). specialize (Hn Hf). assert (Eret : returned r = fst r) by (unfold returned; now rewrite Hn). rewrite Eret in Hr.
    assert (Ek' : bkind (fst r) = Some kd).
    { apply (step_open_kind c k kd r); auto. rewrite (holds_active _ _ _ _ _ Hc0). destruct frs; [congruence|reflexivity]. }
    rewrite Er. cbn [bind fst snd]. rewrite (holds_length _ _ _ _ _ Hc0), (holds_length _ _ _ _ _ Hr), zlen_app. rewrite <- (put_upd cs cur) by exact Hc.
    destruct (advance_open _ _ _ _ _ Ea Hf) as (f & rest & Efrs & HG). destruct HG as [(-> & f' & rest' & -> & _)|(-> & Hend & e & -> & Eke)].
    + rewrite zlen_nil, Z.add_0_r, Z.eqb_refl, andb_false_r. eexists; split; [reflexivity|]. split; [|reflexivity]. cbn [returned snd fst]. rewrite app_nil_r in *.
      apply (union_open rc sizes pos cs cols es cur (fst r) col kd); auto; [lia|discriminate].
    + cbn [app]. replace (zlen col =? zlen col + zlen [e]) with false by (rewrite zlen_cons, zlen_nil; lia). rewrite Hend. cbn [andb negb].
      assert (Hfk : Some (fkind f) = Some kd) by (rewrite Efrs in Hc0; f_equal; symmetry; eapply holds_kind_frame; eauto).
      eexists; split; [reflexivity|]. split; [|reflexivity]. cbn [returned snd fst]. cbn [app] in *.
      apply (union_close rc sizes pos cs cols es cur (fst r) col kd); auto; [lia| |].
      * unfold part in *. destruct (numeric kd) eqn:En; [destruct f; injection Hfk as <-; discriminate|]. rewrite filter_app, <- Hp. cbn. unfold has_kind. injection Hfk as Hfk. rewrite Eke, Hfk, kind_eqb_refl. reflexivity.
      * right. congruence.
  - destruct G as [m Er]. exists m. now rewrite Er.
Qed.

(** closed *)
Lemma union_start k : cur = -1 -> frs = [] ->
  match start [] k with
  | Some (ext, frs') => tame sizes [] k -> exists r, step b k = Ok r /\ holds (returned r) (es ++ ext) frs'
  | None => exists m, step b k = Err m
  end.
Proof.
  intros Ec Ef.
  assert (Hh' : forall j c col, nthZ cs j = Some c -> nthZ cols j = Some col -> holds c col []).
  { intros j c col H1 H2. pose proof (Hh _ _ _ H1 H2) as H. rewrite Ef in H. now destruct (j =? cur). }
  assert (Hg' : forall j c col, nthZ cs j = Some c -> nthZ cols j = Some col -> good c col []).
  { intros j c col H1 H2. pose proof (Hg _ _ _ H1 H2) as H. rewrite Ef in H. now destruct (j =? cur). }
  destruct (start [] k) as [[ext frs']|] eqn:Es.
  2: { rewrite Ec. destruct k; try discriminate; eexists; reflexivity. }
  intros T.
  assert (k = CNull \/ k <> CNull) as [->|Hk] by (destruct k; (left; reflexivity) || (right; discriminate)).
  { cbn in Es. injection Es as <- <-.
    assert (HB : holds b es []) by (rewrite <- Ef; now apply (h_union rc sizes pos cs cur cols es frs)).
    destruct (option_of_ok rc sizes b es HB union_nonnull) as (o & Eo & Ho). cbn [Builder.step]. replace (cur =? -1) with true by lia. rewrite Eo. cbn [bind]. eexists; split; [reflexivity|exact Ho]. }
  destruct (fresh_ok rc sizes _ _ _ Es T Hk) as (c0 & kd & Efr & Hc0 & Hk0 & Htk & Hok0).
  assert (Eext : ext = [] /\ (exists f, frs' = [f]) /\ is_leaf k = false \/ exists e, ext = [e] /\ frs' = [] /\ is_leaf k = true /\ ekind e = Some kd).
  { destruct (start_starts _ _ _ Es) as [(El & -> & e & -> & Ek)|(El & -> & f & -> & Ek)]; [right|left]; rewrite ?Htk in *; eauto 6. }
  assert (Hexists : forall j c, nthZ cs j = Some c -> exists col, holds c col []) by (intros j c Hj; destruct (col_at _ _ Hj) as [col Hcol]; eauto).
  pose proof (choose_spec cs k kd Htk Hexists) as HC.
  pose proof contents_few as Hfew.
  (* what the call does, in terms of the content chosen *)
  assert (HS : step b k = match choose cs k with
     | Some i => let* p := nth_apply (fun c => match c, k with BInt l, CReal x => Ok (zlen l, BReal (map rc l ++ [x])) | _, _ => let* r := step c k in Ok (blength c, fst r) end) cs i in
                 let cs := upd cs (Z.to_nat i) (snd p) in
                 if is_leaf k then Ok (BUnion (map fst pos ++ [int8 i]) (map snd pos ++ [fst p]) cs (-1), None) else Ok (BUnion (map fst pos) (map snd pos) cs (int8 i), None)
     | None => let* c := fresh_for k in
               if is_leaf k then Ok (BUnion (map fst pos ++ [int8 (zlen cs)]) (map snd pos ++ [0]) (cs ++ [c]) (-1), None) else Ok (BUnion (map fst pos) (map snd pos) (cs ++ [c]) (int8 (zlen cs)), None)
     end).
  { rewrite Ec. destruct k; try discriminate; try congruence; reflexivity. }
  rewrite HS. clear HS. destruct (choose cs k) as [i|].
  - destruct HC as (c & Hci & HCk). destruct (col_at _ _ Hci) as [col Hcol]. pose proof (nthZ_Some _ _ _ Hci) as Hi. rewrite (nth_apply_eq _ _ _ _ Hci), int8_small by lia.
    pose proof (Hh' _ _ _ Hci Hcol) as Hcc. pose proof (Hpart _ _ _ Hci Hcol) as Hp.
    assert (HP : exists c', (match c, k with BInt l, CReal x => Ok (zlen l, BReal (map rc l ++ [x])) | _, _ => let* r := step c k in Ok (blength c, fst r) end) = Ok (zlen col, c') /\
                 holds c' (col ++ ext) frs' /\ bkind c' = Some kd /\ (numeric kd = false -> bkind c = Some kd) /\ (numeric kd = true -> exists kd', bkind c = Some kd' /\ numeric kd' = true) /\ forall j c', j <> i -> nthZ cs j = Some c' -> bkind c' <> Some kd).
    { destruct HCk as [Hck|(-> & Hck & HnoReal)].
      - assert (EM : (match c, k with BInt l, CReal x => Ok (zlen l, BReal (map rc l ++ [x])) | _, _ => let* r := step c k in Ok (blength c, fst r) end) = let* r := step c k in Ok (blength c, fst r)).
        { destruct c; try reflexivity. destruct k; try reflexivity. cbn in Hck, Htk. congruence. }
        rewrite EM. pose proof (Hg' _ _ _ Hci Hcol k) as G. cbn [advance] in G. rewrite Es in G. destruct (G T) as (r & Er & Hr & _).
        destruct (step_match c col k kd r Hcc Hck Htk T Er) as [Hn Hb]. rewrite Er. cbn [bind]. rewrite (holds_length _ _ _ _ _ Hcc). eexists; split; [reflexivity|].
        assert (Eret : returned r = fst r) by (unfold returned; now rewrite Hn). rewrite Eret in Hr. split; [exact Hr|]. split; [exact Hb|]. split; [auto|]. split; [intros; eauto|].
        intros j c' Hj H1 E. apply Hj. eapply kinds_inj; eauto. congruence.
      - destruct c; try discriminate. destruct k; try discriminate. cbn in Es. injection Es as <- <-. inversion Hcc; subst. eexists; split; [rewrite zlen_map; reflexivity|].
        split; [apply int_to_real|]. split; [reflexivity|]. split; [discriminate|]. split; [intros _; eexists; split; reflexivity|]. intros j c' _ H1. now apply (HnoReal j). }
    destruct HP as (c' & -> & Hc' & Hbk & Hnum & Hnum' & Hd). cbn [bind fst snd]. rewrite <- (put_upd cs i) by lia.
    assert (Hothers : forall j c col, j <> i -> nthZ cs j = Some c -> nthZ cols j = Some col -> holds c col []) by eauto.
    destruct Eext as [(-> & (f & ->) & ->)|(e & -> & -> & -> & Eke)]; eexists; (split; [reflexivity|]); cbn [returned snd fst].
    + rewrite app_nil_r in *. apply (union_open rc sizes pos cs cols es i c' col kd); auto; [lia|discriminate|].
      unfold part. destruct (numeric kd) eqn:En.
      * destruct (Hnum' eq_refl) as (kd' & Ek' & En'). rewrite Ek' in Hp. cbn in Hp. now rewrite En' in Hp.
      * rewrite (Hnum eq_refl) in Hp. cbn in Hp. now rewrite En in Hp.
    + apply (union_close rc sizes pos cs cols es i c' col kd); auto; [lia|].
      unfold part. destruct (numeric kd) eqn:En.
      * destruct (Hnum' eq_refl) as (kd' & Ek' & En'). rewrite Ek' in Hp. cbn in Hp. rewrite En' in Hp. apply incl_app; [now apply incl_appl|now apply incl_appr, incl_refl].
      * rewrite (Hnum eq_refl) in Hp. cbn in Hp. rewrite En in Hp. rewrite filter_app, <- Hp. cbn. unfold has_kind. rewrite Eke, kind_eqb_refl. reflexivity.
  - rewrite Efr. cbn [bind]. rewrite int8_small by lia. rewrite <- (put_end cs c0).
    assert (Hp0 : part (Some kd) [] es).
    { unfold part. destruct (numeric kd) eqn:En; [intros x []|]. symmetry. apply (located_kind rc sizes cs cols pos es); auto.
      intros j c col H1 H2. eauto. }
    assert (Hothers : forall j c col, j <> zlen cs -> nthZ cs j = Some c -> nthZ cols j = Some col -> holds c col []) by eauto.
    assert (Hd : forall j c, j <> zlen cs -> nthZ cs j = Some c -> bkind c <> Some kd) by eauto.
    destruct Eext as [(-> & (f & ->) & ->)|(e & -> & -> & -> & Eke)]; eexists; (split; [reflexivity|]); cbn [returned snd fst].
    + rewrite app_nil_r in *. apply (union_open rc sizes pos cs cols es (zlen cs) c0 [] kd); auto; [lia|discriminate].
    + apply (union_close rc sizes pos cs cols es (zlen cs) c0 [] kd); auto; [lia|].
      unfold part in *. destruct (numeric kd) eqn:En; [now apply incl_appr, incl_refl|]. rewrite filter_app, <- Hp0. cbn. unfold has_kind. rewrite Eke, kind_eqb_refl. reflexivity.
Qed.
Lemma good_union : good b es frs.
Proof.
  intros k. destruct Hcur as [[Ec Ef]|[Hc Hf]].
  - pose proof (union_start k Ec Ef) as H. rewrite Ef. cbn [advance]. destruct (start [] k) as [[ext frs']|]; [|exact H].
    intros T. destruct (H T) as (r & E1 & E2). exists r. split; [exact E1|]. split; [exact E2|congruence].
  - now apply union_inside.
Qed.
End U.

Theorem holds_good b es frs : holds b es frs -> good b es frs.
Proof.
  induction 1.
  - now apply good_unknown.
  - apply good_bool.
  - apply good_int.
  - now apply good_real.
  - now apply good_option.
  - now apply good_list.
  - now apply good_list_open.
  - eapply good_tuple; eauto.
  - eapply good_tuple_open; eauto.
  - eapply good_record; eauto.
  - eapply good_record_open; eauto.
  - eapply good_union; eauto.
Qed.

Lemma describes_run ks es frs : describes sizes ks es frs -> exists b, run rc new_builder ks = Ok b /\ holds b es frs.
Proof.
  induction 1 as [|ks k es frs es' frs' D (b & Eb & Hb) T A].
  - exists new_builder. split; [reflexivity|]. apply (h_unknown rc sizes 0). lia.
  - pose proof (holds_good _ _ _ Hb k) as G. rewrite advance_nil in A. destruct (advance [] frs k) as [[ext frs1]|]; [|discriminate]. cbn in A. injection A as <- <-.
    destruct (G T) as (r & Er & Hr & _). exists (returned r). split; [|exact Hr].
    assert (HR : forall b0, run rc b0 (ks ++ [k]) = let* b := run rc b0 ks in let* r := step b k in Ok (returned r)).
    { clear. induction ks as [|x ks IH]; intros b0; cbn; [destruct (step b0 k); reflexivity|]. destruct (step b0 x); cbn; [apply IH|reflexivity|reflexivity]. }
    rewrite HR, Eb. cbn [bind]. now rewrite Er.
Qed.
Lemma run_snoc b0 ks k : run rc b0 (ks ++ [k]) = let* b := run rc b0 ks in let* r := step b k in Ok (returned r).
Proof. revert b0. induction ks as [|x ks IH]; intros b0; cbn; [destruct (step b0 k); reflexivity|]. destruct (step b0 x); cbn; [apply IH|reflexivity|reflexivity]. Qed.
Lemma describes_reject ks es frs k : describes sizes ks es frs -> advance es frs k = None -> exists m, run rc new_builder (ks ++ [k]) = Err m.
Proof.
  intros D A. destruct (describes_run _ _ _ D) as (b & Eb & Hb). pose proof (holds_good _ _ _ Hb k) as G. rewrite advance_nil in A.
  destruct (advance [] frs k); [discriminate|]. destruct G as [m Er]. exists m. rewrite run_snoc, Eb. cbn [bind]. now rewrite Er.
Qed.
End Union.
