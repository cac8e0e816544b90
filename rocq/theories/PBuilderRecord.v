(** ArrayBuilder: records. *)
From Coq Require Import String.
From Verif Require Import Base BaseLemmas OmapLemmas SpecArray Content Builder SpecBuilder PBuilder PBuilderStep PBuilderTuple.
Local Open Scope string_scope.
Local Open Scope list_scope.
Local Open Scope Z_scope.

(** ** distinct keys *)
Lemma distinct_snoc l k : distinct (l ++ [k]) = if existsb (String.eqb k) (distinct l) then distinct l else distinct l ++ [k].
Proof. unfold distinct. now rewrite fold_left_app. Qed.
Lemma existsb_eqb k l : existsb (String.eqb k) l = true <-> In k l.
Proof.
  rewrite existsb_exists. split.
  - intros (x & Hx & E). apply String.eqb_eq in E. now subst.
  - intros H. exists k. split; [exact H|apply String.eqb_refl].
Qed.
Lemma distinct_In k l : In k (distinct l) <-> In k l.
Proof.
  induction l as [|x l IH] using rev_ind; [split; intros []|]. rewrite distinct_snoc, in_app_iff. cbn [In].
  destruct (existsb (String.eqb x) (distinct l)) eqn:E.
  - apply existsb_eqb in E. rewrite IH. split; [tauto|]. intros [H|[<-|[]]]; [exact H|now apply IH].
  - rewrite in_app_iff, IH. cbn [In]. tauto.
Qed.
Lemma distinct_NoDup l : NoDup (distinct l).
Proof.
  induction l as [|x l IH] using rev_ind; [constructor|]. rewrite distinct_snoc. destruct (existsb (String.eqb x) (distinct l)) eqn:E; [exact IH|].
  rewrite NoDup_nthZ. intros i j y. rewrite !nthZ_app.
  assert (Hx : forall i, nthZ (distinct l) i <> Some x).
  { intros i0 H. apply nthZ_In in H. apply existsb_eqb in H. congruence. }
  rewrite NoDup_nthZ in IH. intros H1 H2.
  destruct (i <? zlen (distinct l)) eqn:Ei, (j <? zlen (distinct l)) eqn:Ej.
  - exact (IH _ _ _ H1 H2).
  - apply nthZ_In in H2 as [->|[]]. now apply Hx in H1.
  - apply nthZ_In in H1 as [->|[]]. now apply Hx in H2.
  - apply nthZ_Some in H1, H2. change (zlen [x]) with 1 in H1, H2. lia.
Qed.

(** ** the search for a key *)
Lemma search_none keys key ntt : forall fuel i,
  (ntt <= i <= zlen keys /\ (Z.to_nat (zlen keys - i + ntt) < fuel)%nat /\ (forall p, ntt <= p < i -> nthZ keys p <> Some key)
   \/ 0 < i < ntt /\ (Z.to_nat (ntt - i) <= fuel)%nat /\ (forall p, ntt <= p < zlen keys -> nthZ keys p <> Some key) /\ (forall p, 0 <= p < i -> nthZ keys p <> Some key)) ->
  0 <= ntt <= zlen keys ->
  exists found, search_key fuel keys key ntt i = Ok found /\
    match found with Some p => nthZ keys p = Some key | None => ~ In key keys end.
Proof.
  assert (HN : forall P : Prop, (forall p, 0 <= p < zlen keys -> nthZ keys p <> Some key) -> ~ In key keys).
  { intros _ H Hi. apply In_nthZ in Hi as [p Hp]. apply nthZ_Some in Hp as Hr. now apply (H p). }
  induction fuel as [|fuel IH]; intros i Hi Hn; [lia|]. cbn [search_key].
  destruct (zlen keys <=? i) eqn:Ew.
  - destruct Hi as [(H1 & H2 & H3)|(H1 & H2 & H3 & H4)]; [|lia]. assert (i = zlen keys) as -> by lia.
    destruct (0 =? ntt) eqn:E0.
    + exists None. split; [reflexivity|]. apply (HN True). intros p Hp. apply H3. lia.
    + destruct (rd_in keys 0 ltac:(lia)) as (k0 & -> & Hk0). cbn [bind]. destruct (k0 =? key)%string eqn:Ek.
      * apply String.eqb_eq in Ek. subst k0. eexists; split; [reflexivity|exact Hk0].
      * apply String.eqb_neq in Ek. assert (Hz : forall p, 0 <= p < 1 -> nthZ keys p <> Some key) by (intros p Hp; assert (p = 0) as -> by lia; rewrite Hk0; congruence).
        destruct (0 + 1 =? ntt) eqn:E1.
        -- exists None. split; [reflexivity|]. apply (HN True). intros p Hp. destruct (p <? 1) eqn:?; [apply Hz; lia|apply H3; lia].
        -- apply IH; [|exact Hn]. right. split; [lia|]. split; [lia|]. split; [intros; apply H3; lia|exact Hz].
  - assert (Hir : 0 <= i < zlen keys) by lia. destruct (rd_in keys i Hir) as (k0 & -> & Hk0). cbn [bind]. destruct (k0 =? key)%string eqn:Ek.
    + apply String.eqb_eq in Ek. subst k0. eexists; split; [reflexivity|exact Hk0].
    + apply String.eqb_neq in Ek. destruct Hi as [(H1 & H2 & H3)|(H1 & H2 & H3 & H4)].
      * destruct (i + 1 =? ntt) eqn:E1; [lia|]. apply IH; [|exact Hn]. left. split; [lia|]. split; [lia|]. intros p Hp.
        destruct (p =? i) eqn:Ep; [assert (p = i) as -> by lia; rewrite Hk0; congruence|apply H3; lia].
      * assert (H4' : forall p, 0 <= p < i + 1 -> nthZ keys p <> Some key).
        { intros p Hp. destruct (p =? i) eqn:Ep; [assert (p = i) as -> by lia; rewrite Hk0; congruence|apply H4; lia]. }
        destruct (i + 1 =? ntt) eqn:E1.
        -- exists None. split; [reflexivity|]. apply (HN True). intros p Hp. destruct (p <? ntt) eqn:?; [apply H4'; lia|apply H3; lia].
        -- apply IH; [|exact Hn]. right. split; [lia|]. split; [lia|]. split; [exact H3|exact H4'].
Qed.
Lemma search_ok keys key ntt : 0 <= ntt <= zlen keys ->
  exists found, search_key (S (S (List.length keys))) keys key ntt ntt = Ok found /\
    match found with Some p => nthZ keys p = Some key | None => ~ In key keys end.
Proof. intros H. apply search_none; [|exact H]. left. split; [lia|]. split; [unfold zlen in *; lia|intros; lia]. Qed.

Lemma filled_once_s (fs : list (string * list entry)) k : once String.eqb fs = true -> zlen (filled String.eqb k fs) <= 1.
Proof.
  intros H. rewrite <- once_spec in H.
  destruct (existsb (fun f => (fst f =? k)%string) fs) eqn:E.
  - apply existsb_exists in E as (f & Hf & Ef). apply String.eqb_eq in Ef as <-. now apply H.
  - rewrite filled_out; [rewrite zlen_nil; lia|]. intros f Hf. destruct (fst f =? k)%string eqn:Ef; [|reflexivity].
    assert (existsb (fun f => (fst f =? k)%string) fs = true) by (apply existsb_exists; eauto). congruence.
Qed.
Lemma filled_twice_s (fs : list (string * list entry)) : once String.eqb fs = false -> exists f, In f fs /\ 1 < zlen (filled String.eqb (fst f) fs).
Proof.
  unfold once. intros H. destruct (existsb (fun f => negb (zlen (filled String.eqb (fst f) fs) <=? 1)) fs) eqn:E.
  - apply existsb_exists in E as (f & Hf & Ef). exists f. split; [exact Hf|lia].
  - exfalso. assert (forallb (fun f => zlen (filled String.eqb (fst f) fs) <=? 1) fs = true); [|congruence].
    apply forallb_forall. intros f Hf. destruct (zlen (filled String.eqb (fst f) fs) <=? 1) eqn:E1; [reflexivity|].
    assert (existsb (fun f => negb (zlen (filled String.eqb (fst f) fs) <=? 1)) fs = true); [|congruence]. apply existsb_exists. exists f. now rewrite E1.
Qed.

Section Record.
Variable rc : Z -> Z.
Variable sizes : list Z.
Notation holds := (holds rc sizes).
Notation step := (step rc).
Notation good := (good rc sizes).

Lemma good_record cs next ntt cols rows :
  let keys := distinct (flat_map (map fst) rows) in
  zlen cols = zlen cs -> zlen keys = zlen cs ->
  (forall j c col, nthZ cs j = Some c -> nthZ cols j = Some col -> holds c col []) ->
  (forall j k col, nthZ keys j = Some k -> nthZ cols j = Some col -> Forall2 (cell String.eqb k) rows col) ->
  good (BRecord cs keys (zlen rows) false next ntt) (map ERecord rows) [].
Proof.
  intros keys Hl Hlk Hh Hc k. cbn [advance]. pose proof (h_record rc sizes cs next ntt cols rows Hl Hlk Hh Hc) as HT. fold keys in HT.
  pose proof (elsewhere_ok rc sizes _ _ KRecord k HT eq_refl) as H. pose proof (zlen_nonneg rows) as Hr.
  destruct k; cbn [start Builder.step] in *; try (apply H; discriminate); try (intros T; destruct H as (r0 & E & Hr0); [discriminate|exact T|]; exists r0; split; [exact E|]; split; [exact Hr0|congruence]).
  intros T. destruct (zlen rows =? -1) eqn:?; [lia|]. eexists; split; [reflexivity|]. split; [|congruence]. cbn [returned snd fst]. rewrite app_nil_r.
  assert (EK : keys = distinct (flat_map (map fst) (rows ++ [all [] None]))) by (rewrite flat_map_app; cbn; now rewrite app_nil_r).
  pose proof (h_record_open rc sizes cs (-1) 0 cols rows [] None []) as HO. cbn zeta in HO. rewrite <- EK in HO. apply HO; auto.
  - intros j k0 c col _ H1 H2. cbn. rewrite app_nil_r. destruct (j =? -1); eauto.
  - pose proof (zlen_nonneg keys). lia.
Qed.

Section Open.
Variables (cs : list builder) (next ntt : Z) (cols : list (list entry)) (rows : list (list (string * list entry))) (fs : list (string * list entry)) (now : option (string * list entry)) (frs : list frame) (keys : list string).
Hypothesis Hkeys : keys = distinct (flat_map (map fst) (rows ++ [all fs now])).
Hypothesis Hl : zlen cols = zlen cs.
Hypothesis Hlk : zlen keys = zlen cs.
Hypothesis Hh : forall j k c col, nthZ keys j = Some k -> nthZ cs j = Some c -> nthZ cols j = Some col -> holds c (col ++ filled String.eqb k (all fs now)) (if j =? next then frs else []).
Hypothesis Hg : forall j k c col, nthZ keys j = Some k -> nthZ cs j = Some c -> nthZ cols j = Some col -> good c (col ++ filled String.eqb k (all fs now)) (if j =? next then frs else []).
Hypothesis Hc : forall j k col, nthZ keys j = Some k -> nthZ cols j = Some col -> Forall2 (cell String.eqb k) rows col.
Hypothesis Hntt : 0 <= ntt <= zlen keys.
Hypothesis Hnow : match now with Some f => nthZ keys next = Some (fst f) | None => next = -1 /\ frs = [] end.
Notation b := (BRecord cs keys (zlen rows) true next ntt).
Notation es := (map ERecord rows).

Lemma keys_NoDup : NoDup keys.
Proof. rewrite Hkeys. apply distinct_NoDup. Qed.
Lemma keys_inj i j k : nthZ keys i = Some k -> nthZ keys j = Some k -> i = j.
Proof. pose proof keys_NoDup as H. rewrite NoDup_nthZ in H. apply H. Qed.
Lemma keys_all f : In f (all fs now) -> exists j, nthZ keys j = Some (fst f).
Proof. intros Hf. apply In_nthZ. rewrite Hkeys. apply distinct_In. rewrite flat_map_app, in_app_iff. right. cbn. rewrite app_nil_r. now apply in_map. Qed.
Lemma keys_rows row f : In row rows -> In f row -> In (fst f) keys.
Proof. intros H1 H2. rewrite Hkeys. apply distinct_In. rewrite flat_map_app, in_app_iff. left. apply in_flat_map. exists row. split; [exact H1|now apply in_map]. Qed.

Lemma current_r k l : now = Some (k, l) -> nthZ keys next = Some k /\ 0 <= next < zlen cs /\ exists c col, nthZ cs next = Some c /\ nthZ cols next = Some col.
Proof.
  intros E. rewrite E in Hnow. cbn in Hnow. split; [exact Hnow|]. apply nthZ_Some in Hnow as Hi. rewrite Hlk in Hi.
  split; [exact Hi|]. destruct (nthZ_lt cs next Hi) as [c Ec]. destruct (nthZ_lt cols next ltac:(lia)) as [col Ecol]. eauto.
Qed.
Lemma now_cases_r : now = None \/ exists i l, now = Some (i, l).
Proof. destruct now as [[i l]|]; eauto. Qed.
Lemma now_none_r : now = None -> next = -1 /\ frs = [].
Proof. intros E. rewrite E in Hnow. exact Hnow. Qed.
Lemma inner_inactive_r : frs = [] -> (if next =? -1 then Ok false else nth_apply (fun c => Ok (active c)) cs next) = Ok false.
Proof.
  intros E. destruct now_cases_r as [En|(i & l & En)].
  - destruct (now_none_r En) as [-> _]. reflexivity.
  - destruct (current_r i l En) as (Ex & Hi & c & col & Ec & Ecol). destruct (next =? -1) eqn:?; [reflexivity|].
    rewrite (nth_apply_eq _ _ _ _ Ec). pose proof (Hh _ _ _ _ Ex Ec Ecol) as Hh'. rewrite E in Hh'. f_equal.
    rewrite (holds_active _ _ _ _ _ Hh'). now destruct (next =? next).
Qed.

Lemma rebuild cs' next' ntt' cols' fs' now' frs' keys' : keys' = distinct (flat_map (map fst) (rows ++ [all fs' now'])) ->
    zlen cols' = zlen cs' -> zlen keys' = zlen cs' ->
    (forall j k c col, nthZ keys' j = Some k -> nthZ cs' j = Some c -> nthZ cols' j = Some col -> holds c (col ++ filled String.eqb k (all fs' now')) (if j =? next' then frs' else [])) ->
    (forall j k col, nthZ keys' j = Some k -> nthZ cols' j = Some col -> Forall2 (cell String.eqb k) rows col) ->
    0 <= ntt' <= zlen keys' ->
    (match now' with Some f => nthZ keys' next' = Some (fst f) | None => next' = -1 /\ frs' = [] end) ->
    holds (BRecord cs' keys' (zlen rows) true next' ntt') es (FRecord fs' now' :: frs').
Proof. intros -> H1 H2 H3 H4 H5 H6. now apply (h_record_open rc sizes cs' next' ntt' cols'). Qed.

Lemma flat_keys_snoc k l : flat_map (map fst) (rows ++ [all (all fs now) (Some (k, l))]) = flat_map (map fst) (rows ++ [all fs now]) ++ [k].
Proof. rewrite !flat_map_app. cbn. rewrite !app_nil_r. unfold all at 1. rewrite map_app. cbn. now rewrite app_assoc. Qed.

Lemma record_field k : frs = [] ->
  exists r, step b (CField k) = Ok r /\ holds (returned r) es [FRecord (all fs now) (Some (k, []))] /\ snd r = None.
Proof.
  intros E. cbn [Builder.step]. rewrite inner_inactive_r by exact E. cbn [bind].
  assert (EF : forall j, filled String.eqb j (all (all fs now) (Some (k, []))) = filled String.eqb j (all fs now)).
  { intros j. rewrite filled_some. destruct (k =? j)%string; apply app_nil_r. }
  assert (Hh' : forall j k c col, nthZ keys j = Some k -> nthZ cs j = Some c -> nthZ cols j = Some col -> holds c (col ++ filled String.eqb k (all fs now)) []).
  { intros j k0 c col H1 H2 H3. pose proof (Hh _ _ _ _ H1 H2 H3) as H. rewrite E in H. now destruct (j =? next). }
  destruct (search_ok keys k ntt Hntt) as (found & -> & Hf). cbn [bind]. destruct found as [i|].
  - eexists; split; [reflexivity|]. split; [|reflexivity]. cbn [returned snd fst]. apply nthZ_Some in Hf as Hi.
    apply (rebuild cs i (i + 1) cols); auto.
    + rewrite flat_keys_snoc, distinct_snoc, <- Hkeys. replace (existsb (String.eqb k) keys) with true; [reflexivity|]. symmetry. apply existsb_eqb. now apply nthZ_In in Hf.
    + intros j k0 c col H1 H2 H3. rewrite EF. destruct (j =? i); eauto.
    + lia.
  - eexists; split; [reflexivity|]. split; [|reflexivity]. cbn [returned snd fst].
    set (c0 := if zlen rows =? 0 then BUnknown 0 else BOption (repeat (-1) (Z.to_nat (zlen rows))) (BUnknown 0)).
    assert (H0 : holds c0 (repeat ENull (Z.to_nat (zlen rows))) []).
    { unfold c0. destruct (zlen rows =? 0) eqn:E0; [assert (Er : zlen rows = 0) by lia; rewrite Er; apply (h_unknown rc sizes 0); lia|].
      assert (EN : filter nonnull (repeat ENull (Z.to_nat (zlen rows))) = []) by (apply filter_none; intros x Hx; now apply repeat_spec in Hx as ->).
      apply h_option; rewrite EN; [apply (h_unknown rc sizes 0); lia|]. generalize (Z.to_nat (zlen rows)). intros m. induction m; cbn; constructor; auto. now left. }
    assert (HN : forall f, In f (all fs now) -> (fst f =? k)%string = false).
    { intros f Hfin. apply String.eqb_neq. intros <-. destruct (keys_all f Hfin) as [j Hj]. apply Hf. now apply nthZ_In in Hj. }
    apply (rebuild (cs ++ [c0]) (zlen keys) 0 (cols ++ [repeat ENull (Z.to_nat (zlen rows))])).
    + rewrite flat_keys_snoc, distinct_snoc, <- Hkeys. destruct (existsb (String.eqb k) keys) eqn:Ex; [|reflexivity]. apply existsb_eqb in Ex. contradiction.
    + rewrite !zlen_app, Hl. reflexivity.
    + rewrite !zlen_app, Hlk. reflexivity.
    + intros j k0 c col. rewrite EF. rewrite !nthZ_app, Hl, Hlk. destruct (j <? zlen cs) eqn:Ej.
      * intros H1 H2 H3. destruct (j =? zlen cs); eauto.
      * rewrite !nthZ_cons, !nthZ_nil. destruct (j - zlen cs =? 0); [|discriminate]. intros [= <-] [= <-] [= <-].
        rewrite filled_out by exact HN. rewrite app_nil_r. now destruct (j =? zlen cs).
    + intros j k0 col. rewrite !nthZ_app, Hl, Hlk. destruct (j <? zlen cs) eqn:Ej; [apply Hc|].
      rewrite !nthZ_cons, !nthZ_nil. destruct (j - zlen cs =? 0); [|discriminate]. intros [= <-] [= <-].
      assert (HR : forall rs, incl rs rows -> Forall2 (cell String.eqb k) rs (repeat ENull (Z.to_nat (zlen rs)))).
      { induction rs as [|row rs IHr]; intros Hin; [constructor|]. rewrite zlen_cons. replace (Z.to_nat (zlen rs + 1)) with (S (Z.to_nat (zlen rs))) by (pose proof (zlen_nonneg rs); lia).
        cbn [repeat]. constructor; [|apply IHr; intros x Hx; apply Hin; now right]. right. split; [|reflexivity]. apply filled_out. intros f Hfin.
        apply String.eqb_neq. intros <-. apply Hf. apply (keys_rows row); [apply Hin; now left|exact Hfin]. }
      apply HR. apply incl_refl.
    + pose proof (zlen_nonneg (keys ++ [k])). lia.
    + cbn [fst]. apply nthZ_mid.
Qed.

Let full (j : Z) : list entry := match nthZ cols j, nthZ keys j with Some col, Some k => col ++ filled String.eqb k (all fs now) | _, _ => [] end.
Lemma full_hg_r : frs = [] -> forall j c, nthZ cs j = Some c -> holds c (full j) [] /\ good c (full j) [].
Proof.
  intros E j c Hj. unfold full. destruct (nthZ_lt cols j) as [col Ecol]; [apply nthZ_Some in Hj; lia|]. rewrite Ecol.
  destruct (nthZ_lt keys j) as [k Ek]; [apply nthZ_Some in Hj; lia|]. rewrite Ek.
  pose proof (Hh _ _ _ _ Ek Hj Ecol) as Hh'. pose proof (Hg _ _ _ _ Ek Hj Ecol) as Hg'. rewrite E in Hh', Hg'. destruct (j =? next); split; assumption.
Qed.
Lemma full_len_r j k : nthZ keys j = Some k -> zlen (full j) = zlen rows + zlen (filled String.eqb k (all fs now)).
Proof.
  intros Hj. unfold full. destruct (nthZ_lt cols j) as [col Ecol]; [apply nthZ_Some in Hj; lia|]. rewrite Ecol, Hj, zlen_app. pose proof (Hc _ _ _ Hj Ecol) as Hc'. apply cell_len in Hc'. lia.
Qed.
Lemma record_end : frs = [] -> once String.eqb (all fs now) = true ->
  exists r, step b CEndRecord = Ok r /\ holds (returned r) (es ++ [ERecord (all fs now)]) [] /\ snd r = None.
Proof.
  intros E Ho. cbn [Builder.step]. rewrite inner_inactive_r by exact E. cbn [bind].
  destruct (end_all rc sizes cs full (zlen rows)) as (cs' & Em & El & Hcs').
  - intros j c Hj. now apply full_hg_r.
  - intros j Hj. destruct (nthZ_lt keys j) as [k Ek]; [lia|]. rewrite (full_len_r j k Ek). pose proof (filled_once_s _ k Ho). pose proof (zlen_nonneg (filled String.eqb k (all fs now))). lia.
  - rewrite Em. cbn [bind]. eexists; split; [reflexivity|]. split; [|reflexivity]. cbn [returned snd fst].
    change [ERecord (all fs now)] with (map ERecord [all fs now]). rewrite <- map_app.
    replace (zlen rows + 1) with (zlen (rows ++ [all fs now])) by (rewrite zlen_app; reflexivity).
    assert (Hz : zlen (zseq 0 (zlen cs)) = zlen cs) by (rewrite zlen_zseq; pose proof (zlen_nonneg cs); lia).
    assert (EN : forall j col, nthZ (map (fun j => full j ++ if zlen (full j) =? zlen rows then [ENull] else []) (zseq 0 (zlen cs))) j = Some col ->
       0 <= j < zlen cs /\ col = full j ++ if zlen (full j) =? zlen rows then [ENull] else []).
    { intros j col Hj. apply nthZ_Some in Hj as Hj'. rewrite zlen_map, Hz in Hj'. split; [exact Hj'|].
      rewrite nthZ_map, nthZ_zseq in Hj by lia. cbn in Hj. now injection Hj as <-. }
    rewrite Hkeys. apply (h_record rc sizes cs' _ _ (map (fun j => full j ++ if zlen (full j) =? zlen rows then [ENull] else []) (zseq 0 (zlen cs)))).
    + rewrite zlen_map, Hz. lia.
    + rewrite <- Hkeys. lia.
    + intros j c col H1 H2. destruct (EN _ _ H2) as [_ ->]. now apply Hcs'.
    + rewrite <- Hkeys. intros j k col Hk Hj. destruct (EN _ _ Hj) as [Hj' ->]. rewrite (full_len_r j k Hk). unfold full.
      destruct (nthZ_lt cols j) as [col Ecol]; [lia|]. rewrite Ecol, Hk. pose proof (Hc _ _ _ Hk Ecol) as Hc'. rewrite <- app_assoc. apply Forall2_app; [exact Hc'|].
      pose proof (filled_once_s _ k Ho) as Ho'. destruct (filled String.eqb k (all fs now)) as [|e [|e' l']] eqn:Ef.
      * rewrite zlen_nil, Z.add_0_r, Z.eqb_refl. constructor; [|constructor]. right. now split.
      * rewrite zlen_cons, zlen_nil. replace (zlen rows + (0 + 1) =? zlen rows) with false by lia. constructor; [|constructor]. now left.
      * rewrite !zlen_cons in Ho'. pose proof (zlen_nonneg l'). lia.
Qed.
Lemma record_end_twice : frs = [] -> once String.eqb (all fs now) = false -> exists m, step b CEndRecord = Err m.
Proof.
  intros E Ho. cbn [Builder.step]. rewrite inner_inactive_r by exact E. cbn [bind].
  destruct (filled_twice_s _ Ho) as (f & Hf & Hf2). destruct (keys_all f Hf) as [p Hp]. apply nthZ_Some in Hp as Hpr.
  destruct (end_fail rc sizes cs full (zlen rows)) as [m Em].
  - intros j c Hj. now apply full_hg_r.
  - intros j Hj. destruct (nthZ_lt keys j) as [k Ek]; [lia|]. rewrite (full_len_r j k Ek). pose proof (zlen_nonneg (filled String.eqb k (all fs now))). lia.
  - exists p. split; [lia|]. rewrite (full_len_r p _ Hp). lia.
  - rewrite Em. eexists; reflexivity.
Qed.

Lemma record_inside i l k : now = Some (i, l) -> (frs = [] -> match k with CField _ | CEndRecord => False | _ => True end) ->
  match advance [] frs k with
  | Some (ext, frs') => tame sizes (FRecord fs now :: frs) k -> exists r, step b k = Ok r /\ holds (returned r) es (FRecord fs (Some (i, l ++ ext)) :: frs') /\ snd r = None
  | None => exists m, step b k = Err m
  end.
Proof.
  intros E Hk. destruct (current_r i l E) as (En & Hi & c & col & Ec & Ecol). pose proof (Hh _ _ _ _ En Ec Ecol) as Hci. pose proof (Hg _ _ _ _ En Ec Ecol k) as G.
  rewrite Z.eqb_refl in Hci. rewrite Z.eqb_refl in G. pose proof (holds_active _ _ _ _ _ Hci) as Ha.
  assert (Enn : (next =? -1) = false) by lia.
  destruct (advance [] frs k) as [[ext frs']|] eqn:Ea.
  - intros T. destruct G as (r & Er & Hr0 & Hn0); [destruct k; cbn in *; auto; now inversion T|].
    assert (Ein : nth_apply (fun c => let* r := step c k in Ok (c, r)) cs next = Ok (c, r)) by (rewrite (nth_apply_eq _ _ _ _ Ec), Er; reflexivity).
    assert (Eact : nth_apply (fun c => Ok (active c)) cs next = Ok (active c)) by (now rewrite (nth_apply_eq _ _ _ _ Ec)).
    assert (Efst : frs <> [] -> fst r = returned r) by (intros Hf; unfold returned; now rewrite (Hn0 Hf)).
    exists (BRecord (upd cs (Z.to_nat next) (returned r)) keys (zlen rows) true next ntt, None). split; [|split; [|reflexivity]].
    + assert (Est : (if active c then fst r else returned r) = returned r) by (rewrite Ha; destruct frs; [reflexivity|now apply Efst]).
      destruct k; cbn [Builder.step]; rewrite ?Enn, ?Ein, ?Eact; cbn [bind fst snd]; rewrite ?Est; try reflexivity.
      * destruct frs; [discriminate|]. now rewrite (Efst ltac:(discriminate)).
      * destruct frs; [discriminate|]. now rewrite (Efst ltac:(discriminate)).
      * destruct frs; [discriminate|]. now rewrite (Efst ltac:(discriminate)).
      * destruct frs; [now destruct (Hk eq_refl)|]. rewrite Ha. now rewrite (Efst ltac:(discriminate)).
      * destruct frs; [now destruct (Hk eq_refl)|]. rewrite Ha. now rewrite (Efst ltac:(discriminate)).
    + cbn [returned snd fst].
      assert (Enth : forall j c0, nthZ (upd cs (Z.to_nat next) (returned r)) j = Some c0 -> j = next /\ c0 = returned r \/ j <> next /\ nthZ cs j = Some c0).
      { intros j c0. rewrite nthZ_upd by lia. rewrite Z2Nat.id by lia. destruct (j =? next) eqn:Ej; [intros [= <-]; left; split; [lia|reflexivity]|right; split; [lia|assumption]]. }
      apply (rebuild _ next ntt cols fs (Some (i, l ++ ext)) frs'); rewrite ?zlen_upd; auto.
      * rewrite Hkeys, E. f_equal. rewrite !flat_map_app. f_equal. cbn. unfold all. now rewrite !map_app.
      * intros j k0 c0 col0 H0 H1 H2. rewrite filled_some. destruct (Enth _ _ H1) as [[-> ->]|[Hj H1']].
        -- rewrite En in H0. injection H0 as <-. rewrite String.eqb_refl, Z.eqb_refl. rewrite Ecol in H2. injection H2 as <-. rewrite E, filled_some, String.eqb_refl in Hr0. rewrite <- !app_assoc in *. exact Hr0.
        -- pose proof (Hh _ _ _ _ H0 H1' H2) as Hh'. rewrite E, filled_some in Hh'. destruct (i =? k0)%string eqn:Ek.
           { apply String.eqb_eq in Ek. subst k0. exfalso. apply Hj. eapply keys_inj; eauto. }
           destruct (j =? next) eqn:?; [lia|]. exact Hh'.
  - destruct G as [m Er].
    assert (Ein : nth_apply (fun c => let* r := step c k in Ok (c, r)) cs next = Err m) by (rewrite (nth_apply_eq _ _ _ _ Ec), Er; reflexivity).
    assert (Eact : nth_apply (fun c => Ok (active c)) cs next = Ok (active c)) by (now rewrite (nth_apply_eq _ _ _ _ Ec)).
    destruct k; cbn [Builder.step]; rewrite ?Enn, ?Ein, ?Eact; cbn [bind fst snd]; try (exists m; reflexivity).
    + destruct frs; [now destruct (Hk eq_refl)|]. rewrite Ha. eexists; reflexivity.
    + destruct frs; [now destruct (Hk eq_refl)|]. rewrite Ha. eexists; reflexivity.
Qed.

Lemma good_record_open : good b es (FRecord fs now :: frs).
Proof.
  intros k.
  assert (HK : (frs = [] /\ ((exists i, k = CField i) \/ k = CEndRecord)) \/ (frs = [] -> match k with CField _ | CEndRecord => False | _ => True end)).
  { clear. destruct frs; [|right; discriminate]. destruct k; try (right; intros _; exact I); left; split; eauto. }
  destruct HK as [[Ef [[i ->]| ->]]|HK].
  - rewrite Ef. cbn [advance own]. intros T. rewrite app_nil_r. destruct (record_field i Ef) as (r & E1 & E2 & E3). exists r. auto.
  - rewrite Ef. cbn [advance own]. destruct (once String.eqb (all fs now)) eqn:Eo.
    + intros T. destruct (record_end Ef Eo) as (r & E1 & E2 & E3). exists r. auto.
    + replace (inside (FRecord fs now) (fun l : list entry => start l CEndRecord)) with (@None (list frame)) by (clear; destruct now as [[? ?]|]; reflexivity).
      cbn. now apply record_end_twice.
  - assert (EA : advance [] (FRecord fs now :: frs) k = option_map (fun frs' => ([], frs')) (inside (FRecord fs now) (fun l => advance l frs k))).
    { clear - HK. cbn [advance]. destruct frs; [|reflexivity]. specialize (HK eq_refl). destruct k; try reflexivity; destruct HK. }
    rewrite EA. clear EA. destruct now_cases_r as [En|(i & l & En)].
    2:{ replace (inside (FRecord fs now) (fun l => advance l frs k)) with (inside (FRecord fs (Some (i, l))) (fun l => advance l frs k)) by (now rewrite En).
      cbn [inside]. rewrite advance_nil. pose proof (record_inside i l k En HK) as HI.
      destruct (advance [] frs k) as [[ext frs']|] eqn:Ea; cbn [option_map fst snd].
      - intros T. destruct (HI T) as (r & E1 & E2 & E3). exists r. rewrite app_nil_r. auto.
      - exact HI. }
    destruct (now_none_r En) as [Ex Ef]. replace (inside (FRecord fs now) (fun l => advance l frs k)) with (@None (list frame)) by (now rewrite En).
    cbn [inside option_map]. specialize (HK Ef). rewrite Ex. destruct k; cbn [Builder.step]; try (now destruct HK); eexists; reflexivity.
Qed.
End Open.
End Record.
