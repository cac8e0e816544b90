(** ArrayBuilder: tuples. *)
From Coq Require Import String.
From Verif Require Import Base BaseLemmas OmapLemmas SpecArray Content Builder SpecBuilder PBuilder PBuilderStep.
Local Open Scope string_scope.
Local Open Scope list_scope.
Local Open Scope Z_scope.

Lemma filled_app {K X} (eqb : K -> K -> bool) k (a b : list (K * list X)) : filled eqb k (a ++ b) = filled eqb k a ++ filled eqb k b.
Proof. apply flat_map_app. Qed.
Lemma filled_one {K X} (eqb : K -> K -> bool) k (f : K * list X) : filled eqb k [f] = if eqb (fst f) k then snd f else [].
Proof. unfold filled. cbn. apply app_nil_r. Qed.
Lemma filled_some {K} (eqb : K -> K -> bool) k fs i l : filled eqb k (all fs (Some (i, l))) = filled eqb k fs ++ (if eqb i k then l else []).
Proof. unfold all. now rewrite filled_app, filled_one. Qed.

(** the cell a finished row puts under a key *)
Definition cell_of {K} (eqb : K -> K -> bool) (k : K) (row : list (K * list entry)) : list entry :=
  match filled eqb k row with [] => [ENull] | l => l end.

Lemma once_spec {K X} (eqb : K -> K -> bool) (fs : list (K * list X)) :
  (forall f, In f fs -> zlen (filled eqb (fst f) fs) <= 1) <-> once eqb fs = true.
Proof. unfold once. rewrite forallb_forall. split; intros H f Hf; specialize (H f Hf); lia. Qed.
Lemma filled_out {K X} (eqb : K -> K -> bool) k (fs : list (K * list X)) : (forall f, In f fs -> eqb (fst f) k = false) -> filled eqb k fs = [].
Proof. induction fs as [|f fs IH]; intros H; [reflexivity|]. unfold filled. cbn. rewrite (H f) by now left. apply IH. intros; apply H; now right. Qed.
Lemma filled_once (fs : list (Z * list entry)) j : once Z.eqb fs = true -> zlen (filled Z.eqb j fs) <= 1.
Proof.
  intros H. rewrite <- once_spec in H.
  destruct (existsb (fun f => fst f =? j) fs) eqn:E.
  - apply existsb_exists in E as (f & Hf & Ef). assert (j = fst f) as -> by lia. now apply H.
  - rewrite filled_out; [rewrite zlen_nil; lia|]. intros f Hf. destruct (fst f =? j) eqn:Ef; [|reflexivity].
    assert (existsb (fun f => fst f =? j) fs = true) by (apply existsb_exists; eauto). congruence.
Qed.
Lemma filled_twice (fs : list (Z * list entry)) : once Z.eqb fs = false -> exists f, In f fs /\ 1 < zlen (filled Z.eqb (fst f) fs).
Proof.
  unfold once. intros H. destruct (existsb (fun f => negb (zlen (filled Z.eqb (fst f) fs) <=? 1)) fs) eqn:E.
  - apply existsb_exists in E as (f & Hf & Ef). exists f. split; [exact Hf|lia].
  - exfalso. assert (forallb (fun f => zlen (filled Z.eqb (fst f) fs) <=? 1) fs = true); [|congruence].
    apply forallb_forall. intros f Hf. destruct (zlen (filled Z.eqb (fst f) fs) <=? 1) eqn:E1; [reflexivity|].
    assert (existsb (fun f => negb (zlen (filled Z.eqb (fst f) fs) <=? 1)) fs = true); [|congruence]. apply existsb_exists. exists f. now rewrite E1.
Qed.

Section Tuple.
Variable rc : Z -> Z.
Variable sizes : list Z.
Notation holds := (holds rc sizes).
Notation step := (step rc).
Notation good := (good rc sizes).

Lemma end_one_ok c full len : holds c full [] -> good c full [] ->
  match zlen full - len with
  | 0 => exists c', end_one (fun c => step c CNull) len c = Ok c' /\ holds c' (full ++ [ENull]) []
  | 1 => end_one (fun c => step c CNull) len c = Ok c
  | _ => len <= zlen full -> exists m, end_one (fun c => step c CNull) len c = Err m
  end.
Proof.
  intros H G. pose proof (holds_length _ _ _ _ _ H) as Hl. unfold end_one. rewrite Hl.
  destruct (zlen full =? len) eqn:E.
  - replace (zlen full - len) with 0 by lia. specialize (G CNull). cbn in G. destruct (G I) as (r & Er & Hr & _). rewrite Er. cbn [bind].
    pose proof (holds_length _ _ _ _ _ Hr) as Hl'. rewrite Hl', zlen_app, zlen_cons, zlen_nil.
    replace (zlen full + (0 + 1) =? len + 1) with true by lia. eauto.
  - destruct (zlen full - len) as [|p|p] eqn:Ed; [lia| |]; cbn [bind]; rewrite Hl.
    + destruct p; try (intros _; replace (zlen full =? len + 1) with false by lia; eauto).
      replace (zlen full =? len + 1) with true by lia. reflexivity.
    + intros; lia.
Qed.
Lemma end_all cs : forall (full : Z -> list entry) len,
  (forall j c, nthZ cs j = Some c -> holds c (full j) [] /\ good c (full j) []) ->
  (forall j, 0 <= j < zlen cs -> zlen (full j) = len \/ zlen (full j) = len + 1) ->
  exists cs', mapres (end_one (fun c => step c CNull) len) cs = Ok cs' /\ zlen cs' = zlen cs /\
    forall j c', nthZ cs' j = Some c' -> holds c' (full j ++ if zlen (full j) =? len then [ENull] else []) [].
Proof.
  induction cs as [|c cs IH]; intros full len Hc Hf.
  - exists []. repeat split. intros j c' H. now rewrite nthZ_nil in H.
  - pose proof (zlen_nonneg cs) as Hn. rewrite zlen_cons in Hf.
    destruct (IH (fun j => full (j + 1)) len) as (cs' & E & El & Hcs').
    + intros j c0 Hj. apply Hc. rewrite nthZ_cons. apply nthZ_Some in Hj as Hr. destruct (j + 1 =? 0) eqn:?; [lia|]. now replace (j + 1 - 1) with j by lia.
    + intros j Hj. apply Hf. lia.
    + destruct (Hc 0 c eq_refl) as [H0 G0]. pose proof (end_one_ok c (full 0) len H0 G0) as H1.
      assert (H2 : exists c', end_one (fun c => step c CNull) len c = Ok c' /\ holds c' (full 0 ++ if zlen (full 0) =? len then [ENull] else []) []).
      { destruct (Hf 0 ltac:(lia)) as [Ef|Ef].
        - replace (zlen (full 0) - len) with 0 in H1 by lia. rewrite Ef, Z.eqb_refl. exact H1.
        - replace (zlen (full 0) - len) with 1 in H1 by lia. exists c. split; [exact H1|]. replace (zlen (full 0) =? len) with false by lia. now rewrite app_nil_r. }
      destruct H2 as (c' & Ec & Hc'). exists (c' :: cs'). cbn [mapres]. rewrite Ec. cbn [bind]. rewrite E. cbn [bind]. split; [reflexivity|]. split; [rewrite !zlen_cons; lia|].
      intros j c0. rewrite nthZ_cons. destruct (j =? 0) eqn:Ej; [assert (j = 0) as -> by lia; now intros [= <-]|].
      intros Hj. specialize (Hcs' _ _ Hj). now replace (j - 1 + 1) with j in Hcs' by lia.
Qed.
Lemma end_fail cs : forall (full : Z -> list entry) len,
  (forall j c, nthZ cs j = Some c -> holds c (full j) [] /\ good c (full j) []) ->
  (forall j, 0 <= j < zlen cs -> len <= zlen (full j)) -> (exists j, 0 <= j < zlen cs /\ len + 1 < zlen (full j)) ->
  exists m, mapres (end_one (fun c => step c CNull) len) cs = Err m.
Proof.
  induction cs as [|c cs IH]; intros full len Hc Hf (j & Hj & Hbad); [unfold zlen in Hj; cbn in Hj; lia|].
  pose proof (zlen_nonneg cs) as Hn. rewrite zlen_cons in *.
  destruct (Hc 0 c eq_refl) as [H0 G0]. pose proof (end_one_ok c (full 0) len H0 G0) as H1. pose proof (Hf 0 ltac:(lia)) as Hf0. cbn [mapres].
  assert (HR : j <> 0 -> exists m, mapres (end_one (fun c => step c CNull) len) cs = Err m).
  { intros Hj0. apply (IH (fun j => full (j + 1)) len).
    - intros j0 c0 Hj1. apply Hc. rewrite nthZ_cons. apply nthZ_Some in Hj1 as Hr. destruct (j0 + 1 =? 0) eqn:?; [lia|]. now replace (j0 + 1 - 1) with j0 by lia.
    - intros j0 Hj1. apply Hf. lia.
    - exists (j - 1). replace (j - 1 + 1) with j by lia. split; lia. }
  destruct (zlen (full 0) - len) as [|p|p] eqn:Ed; [|destruct p|lia].
  - destruct H1 as (c' & Ec & _). rewrite Ec. cbn [bind]. destruct HR as [m ->]; [intros ->; lia|]. eexists; reflexivity.
  - destruct (H1 Hf0) as [m ->]. eexists; reflexivity.
  - destruct (H1 Hf0) as [m ->]. eexists; reflexivity.
  - rewrite H1. cbn [bind]. destruct HR as [m ->]; [intros ->; lia|]. eexists; reflexivity.
Qed.


Lemma good_tuple cs next cols rows :
  zlen cols = zlen cs ->
  (forall j c col, nthZ cs j = Some c -> nthZ cols j = Some col -> holds c col []) ->
  (forall j col, nthZ cols j = Some col -> Forall2 (cell Z.eqb j) rows col) ->
  In (zlen cs) sizes ->
  good (BTuple cs (zlen rows) false next) (map (ETuple (zlen cs)) rows) [].
Proof.
  intros Hl Hh Hc Hs k. cbn [advance]. pose proof (h_tuple rc sizes cs next cols rows Hl Hh Hc Hs) as HT.
  pose proof (elsewhere_ok rc sizes _ _ (KTuple (zlen cs)) k HT eq_refl) as H. pose proof (zlen_nonneg rows) as Hr.
  destruct k; cbn [start Builder.step] in *; try (apply H; discriminate); try (intros T; destruct H as (r0 & E & Hr0); [discriminate|exact T|]; exists r0; split; [exact E|]; split; [exact Hr0|congruence]).
  intros T. destruct T as [Hn Hin]. destruct (numfields <? 0) eqn:?; [lia|]. destruct (zlen rows =? -1) eqn:?; [lia|].
  destruct (numfields =? zlen cs) eqn:En.
  - assert (numfields = zlen cs) as -> by lia. eexists; split; [reflexivity|]. split; [|congruence]. cbn [returned snd fst]. rewrite app_nil_r.
    apply (h_tuple_open rc sizes cs (-1) cols rows [] None []); auto.
    + intros j c col H1 H2. cbn. rewrite app_nil_r. destruct (j =? -1); eauto.
    + constructor.
  - destruct H as (r & E & Hr0); [cbn; intros [= ->]; lia|split; assumption|]. cbn [elsewhere] in E. exists r. split; [exact E|]. split; [exact Hr0|congruence].
Qed.

Section Open.
Variables (cs : list builder) (next : Z) (cols : list (list entry)) (rows : list (list (Z * list entry))) (fs : list (Z * list entry)) (now : option (Z * list entry)) (frs : list frame).
Hypothesis Hl : zlen cols = zlen cs.
Hypothesis Hh : forall j c col, nthZ cs j = Some c -> nthZ cols j = Some col -> holds c (col ++ filled Z.eqb j (all fs now)) (if j =? next then frs else []).
Hypothesis Hg : forall j c col, nthZ cs j = Some c -> nthZ cols j = Some col -> good c (col ++ filled Z.eqb j (all fs now)) (if j =? next then frs else []).
Hypothesis Hc : forall j col, nthZ cols j = Some col -> Forall2 (cell Z.eqb j) rows col.
Hypothesis Hr : Forall (fun f => 0 <= fst f < zlen cs) (all fs now).
Hypothesis Hnow : match now with Some f => next = fst f | None => next = -1 /\ frs = [] end.
Hypothesis Hs : In (zlen cs) sizes.
Notation b := (BTuple cs (zlen rows) true next).
Notation es := (map (ETuple (zlen cs)) rows).

(** the content in use *)
Lemma current i l : now = Some (i, l) -> next = i /\ 0 <= i < zlen cs /\ exists c col, nthZ cs i = Some c /\ nthZ cols i = Some col.
Proof.
  intros E. rewrite E in Hnow. cbn in Hnow. split; [exact Hnow|]. assert (Hi : 0 <= i < zlen cs).
  { rewrite Forall_forall in Hr. rewrite E in Hr. apply (Hr (i, l)). unfold all. apply in_or_app. right. now left. }
  split; [exact Hi|]. destruct (nthZ_lt cs i Hi) as [c Ec]. destruct (nthZ_lt cols i ltac:(lia)) as [col Ecol]. eauto.
Qed.
Lemma now_cases : now = None \/ exists i l, now = Some (i, l).
Proof. destruct now as [[i l]|]; eauto. Qed.
Lemma now_none : now = None -> next = -1 /\ frs = [].
Proof. intros E. rewrite E in Hnow. exact Hnow. Qed.
Lemma inner_inactive : frs = [] -> (if next =? -1 then Ok false else nth_apply (fun c => Ok (active c)) cs next) = Ok false.
Proof.
  intros E. destruct now_cases as [En|(i & l & En)].
  - destruct (now_none En) as [-> _]. reflexivity.
  - destruct (current i l En) as (Ex & Hi & c & col & Ec & Ecol). rewrite Ex. destruct (i =? -1) eqn:?; [reflexivity|].
    rewrite (nth_apply_eq _ _ _ _ Ec). pose proof (Hh _ _ _ Ec Ecol) as Hh'. rewrite E in Hh'. f_equal.
    rewrite (holds_active _ _ _ _ _ Hh'). now destruct (i =? next).
Qed.

Lemma tuple_index i : frs = [] -> 0 <= i < zlen cs ->
  exists r, step b (CIndex i) = Ok r /\ holds (returned r) es [FTuple (zlen cs) (all fs now) (Some (i, []))] /\ snd r = None.
Proof.
  intros E Hi. cbn [Builder.step]. rewrite inner_inactive by exact E. cbn [bind]. destruct (zlen cs <=? i) eqn:?; [lia|].
  eexists; split; [reflexivity|]. split; [|reflexivity]. cbn [returned snd fst].
  assert (EF : forall j, filled Z.eqb j (all (all fs now) (Some (i, []))) = filled Z.eqb j (all fs now)).
  { intros j. rewrite filled_some. destruct (i =? j); apply app_nil_r. }
  apply (h_tuple_open rc sizes cs i cols rows (all fs now) (Some (i, [])) []); auto.
  - intros j c col H1 H2. rewrite EF. pose proof (Hh _ _ _ H1 H2) as Hh'. rewrite E in Hh'. now destruct (j =? next), (j =? i).
  - unfold all at 1. apply Forall_app. split; [exact Hr|]. constructor; [exact Hi|constructor].
Qed.

Let full (j : Z) : list entry := match nthZ cols j with Some col => col ++ filled Z.eqb j (all fs now) | None => [] end.
Lemma full_hg : frs = [] -> forall j c, nthZ cs j = Some c -> holds c (full j) [] /\ good c (full j) [].
Proof.
  intros E j c Hj. unfold full. destruct (nthZ_lt cols j) as [col Ecol]; [apply nthZ_Some in Hj; lia|]. rewrite Ecol.
  pose proof (Hh _ _ _ Hj Ecol) as Hh'. pose proof (Hg _ _ _ Hj Ecol) as Hg'. rewrite E in Hh', Hg'. destruct (j =? next); split; assumption.
Qed.
Lemma full_len j : 0 <= j < zlen cs -> zlen (full j) = zlen rows + zlen (filled Z.eqb j (all fs now)).
Proof.
  intros Hj. unfold full. destruct (nthZ_lt cols j) as [col Ecol]; [lia|]. rewrite Ecol, zlen_app. pose proof (Hc _ _ Ecol) as Hc'. apply cell_len in Hc'. lia.
Qed.
Lemma tuple_end : frs = [] -> once Z.eqb (all fs now) = true ->
  exists r, step b CEndTuple = Ok r /\ holds (returned r) (es ++ [ETuple (zlen cs) (all fs now)]) [] /\ snd r = None.
Proof.
  intros E Ho. cbn [Builder.step]. rewrite inner_inactive by exact E. cbn [bind].
  destruct (end_all cs full (zlen rows)) as (cs' & Em & El & Hcs').
  - intros j c Hj. now apply full_hg.
  - intros j Hj. rewrite full_len by exact Hj. pose proof (filled_once _ j Ho). pose proof (zlen_nonneg (filled Z.eqb j (all fs now))). lia.
  - rewrite Em. cbn [bind]. eexists; split; [reflexivity|]. split; [|reflexivity]. cbn [returned snd fst].
    change [ETuple (zlen cs) (all fs now)] with (map (ETuple (zlen cs)) [all fs now]). rewrite <- map_app, <- El.
    replace (zlen rows + 1) with (zlen (rows ++ [all fs now])) by (rewrite zlen_app; reflexivity).
    assert (Hz : zlen (zseq 0 (zlen cs)) = zlen cs) by (rewrite zlen_zseq; pose proof (zlen_nonneg cs); lia).
    assert (EN : forall j col, nthZ (map (fun j => full j ++ if zlen (full j) =? zlen rows then [ENull] else []) (zseq 0 (zlen cs))) j = Some col ->
       0 <= j < zlen cs /\ col = full j ++ if zlen (full j) =? zlen rows then [ENull] else []).
    { intros j col Hj. apply nthZ_Some in Hj as Hj'. rewrite zlen_map, Hz in Hj'. split; [exact Hj'|].
      rewrite nthZ_map, nthZ_zseq in Hj by lia. cbn in Hj. now injection Hj as <-. }
    apply (h_tuple rc sizes cs' _ (map (fun j => full j ++ if zlen (full j) =? zlen rows then [ENull] else []) (zseq 0 (zlen cs)))).
    + rewrite zlen_map, Hz. lia.
    + intros j c col H1 H2. destruct (EN _ _ H2) as [_ ->]. now apply Hcs'.
    + intros j col Hj. destruct (EN _ _ Hj) as [Hj' ->]. rewrite full_len by exact Hj'. unfold full.
      destruct (nthZ_lt cols j) as [col Ecol]; [lia|]. rewrite Ecol. pose proof (Hc _ _ Ecol) as Hc'. rewrite <- app_assoc. apply Forall2_app; [exact Hc'|].
      pose proof (filled_once _ j Ho) as Ho'. destruct (filled Z.eqb j (all fs now)) as [|e [|e' l']] eqn:Ef.
      * rewrite zlen_nil, Z.add_0_r, Z.eqb_refl. constructor; [|constructor]. right. now split.
      * rewrite zlen_cons, zlen_nil. replace (zlen rows + (0 + 1) =? zlen rows) with false by lia. constructor; [|constructor]. now left.
      * rewrite !zlen_cons in Ho'. pose proof (zlen_nonneg l'). lia.
    + rewrite El. exact Hs.
Qed.
Lemma tuple_end_twice : frs = [] -> once Z.eqb (all fs now) = false -> exists m, step b CEndTuple = Err m.
Proof.
  intros E Ho. cbn [Builder.step]. rewrite inner_inactive by exact E. cbn [bind].
  destruct (filled_twice _ Ho) as (f & Hf & Hf2). pose proof Hr as Hr'. rewrite Forall_forall in Hr'. specialize (Hr' f Hf).
  destruct (end_fail cs full (zlen rows)) as [m Em].
  - intros j c Hj. now apply full_hg.
  - intros j Hj. rewrite full_len by exact Hj. pose proof (zlen_nonneg (filled Z.eqb j (all fs now))). lia.
  - exists (fst f). split; [exact Hr'|]. rewrite full_len by exact Hr'. lia.
  - rewrite Em. eexists; reflexivity.
Qed.

(** the call goes to the content in use *)
Lemma tuple_inside i l k : now = Some (i, l) -> (frs = [] -> match k with CIndex _ | CEndTuple => False | _ => True end) ->
  match advance [] frs k with
  | Some (ext, frs') => tame sizes (FTuple (zlen cs) fs now :: frs) k -> exists r, step b k = Ok r /\ holds (returned r) es (FTuple (zlen cs) fs (Some (i, l ++ ext)) :: frs') /\ snd r = None
  | None => exists m, step b k = Err m
  end.
Proof.
  intros E Hk. destruct (current i l E) as (En & Hi & c & col & Ec & Ecol). pose proof (Hh _ _ _ Ec Ecol) as Hci. pose proof (Hg _ _ _ Ec Ecol k) as G.
  rewrite En, Z.eqb_refl in Hci. rewrite En, Z.eqb_refl in G. pose proof (holds_active _ _ _ _ _ Hci) as Ha.
  assert (Enn : (i =? -1) = false) by lia.
  destruct (advance [] frs k) as [[ext frs']|] eqn:Ea.
  - intros T. destruct G as (r & Er & Hr0 & Hn0); [destruct k; cbn in *; auto; now inversion T|].
    assert (Ein : nth_apply (fun c => let* r := step c k in Ok (c, r)) cs i = Ok (c, r)) by (rewrite (nth_apply_eq _ _ _ _ Ec), Er; reflexivity).
    assert (Eact : nth_apply (fun c => Ok (active c)) cs i = Ok (active c)) by (now rewrite (nth_apply_eq _ _ _ _ Ec)).
    assert (Efst : frs <> [] -> fst r = returned r) by (intros Hf; unfold returned; now rewrite (Hn0 Hf)).
    exists (BTuple (upd cs (Z.to_nat i) (returned r)) (zlen rows) true i, None). split; [|split; [|reflexivity]].
    + assert (Est : (if active c then fst r else returned r) = returned r) by (rewrite Ha; destruct frs; [reflexivity|now apply Efst]).
      rewrite En. destruct k; cbn [Builder.step]; rewrite ?Enn, ?Ein, ?Eact; cbn [bind fst snd]; rewrite ?Est; try reflexivity.
      * destruct frs; [discriminate|]. now rewrite (Efst ltac:(discriminate)).
      * destruct frs; [now destruct (Hk eq_refl)|]. cbn in T. inversion T as [|? ? T1 T2]; subst. cbn in T1. destruct (zlen cs <=? _) eqn:?; [lia|]. rewrite Ha. now rewrite (Efst ltac:(discriminate)).
      * destruct frs; [now destruct (Hk eq_refl)|]. rewrite Ha. now rewrite (Efst ltac:(discriminate)).
      * destruct frs; [discriminate|]. now rewrite (Efst ltac:(discriminate)).
      * destruct frs; [discriminate|]. now rewrite (Efst ltac:(discriminate)).
    + cbn [returned snd fst]. rewrite <- (zlen_upd cs (Z.to_nat i) (returned r)).
      assert (Enth : forall j c0, nthZ (upd cs (Z.to_nat i) (returned r)) j = Some c0 -> j = i /\ c0 = returned r \/ j <> i /\ nthZ cs j = Some c0).
      { intros j c0. rewrite nthZ_upd by lia. rewrite Z2Nat.id by lia. destruct (j =? i) eqn:Ej; [intros [= <-]; left; split; [lia|reflexivity]|right; split; [lia|assumption]]. }
      apply (h_tuple_open rc sizes _ i cols rows fs (Some (i, l ++ ext)) frs'); rewrite ?zlen_upd; auto.
      * intros j c0 col0 H1 H2. rewrite filled_some. destruct (Enth _ _ H1) as [[-> ->]|[Hj H1']].
        -- rewrite Z.eqb_refl. rewrite Ecol in H2. injection H2 as <-. rewrite E, filled_some, Z.eqb_refl in Hr0. rewrite <- !app_assoc in *. exact Hr0.
        -- pose proof (Hh _ _ _ H1' H2) as Hh'. rewrite E, filled_some, En in Hh'. destruct (i =? j) eqn:?; [lia|]. destruct (j =? i) eqn:?; [lia|]. exact Hh'.
      * pose proof Hr as Hr'. rewrite E in Hr'. unfold all in Hr' |- *. apply Forall_app in Hr' as [R1 R2]. apply Forall_app. split; [exact R1|]. inversion R2; subst. constructor; [exact Hi|constructor].
  - destruct G as [m Er].
    assert (Ein : nth_apply (fun c => let* r := step c k in Ok (c, r)) cs i = Err m) by (rewrite (nth_apply_eq _ _ _ _ Ec), Er; reflexivity).
    assert (Eact : nth_apply (fun c => Ok (active c)) cs i = Ok (active c)) by (now rewrite (nth_apply_eq _ _ _ _ Ec)).
    rewrite En. destruct k; cbn [Builder.step]; rewrite ?Enn, ?Ein, ?Eact; cbn [bind fst snd]; try (exists m; reflexivity).
    + destruct frs; [now destruct (Hk eq_refl)|]. destruct (zlen cs <=? _); [eauto|]. rewrite Ha. eexists; reflexivity.
    + destruct frs; [now destruct (Hk eq_refl)|]. rewrite Ha. eexists; reflexivity.
Qed.

Lemma good_tuple_open : good b es (FTuple (zlen cs) fs now :: frs).
Proof.
  intros k.
  assert (HK : (frs = [] /\ ((exists i, k = CIndex i) \/ k = CEndTuple)) \/ (frs = [] -> match k with CIndex _ | CEndTuple => False | _ => True end)).
  { clear. destruct frs; [|right; discriminate]. destruct k; try (right; intros _; exact I); left; split; eauto. }
  destruct HK as [[Ef [[i ->]| ->]]|HK].
  - rewrite Ef. cbn [advance own]. intros T. rewrite app_nil_r. destruct (tuple_index i Ef) as (r & E1 & E2 & E3); [cbn in T; now inversion T|]. exists r. auto.
  - rewrite Ef. cbn [advance own]. destruct (once Z.eqb (all fs now)) eqn:Eo.
    + intros T. destruct (tuple_end Ef Eo) as (r & E1 & E2 & E3). exists r. auto.
    + replace (inside (FTuple (zlen cs) fs now) (fun l : list entry => start l CEndTuple)) with (@None (list frame)) by (clear; destruct now as [[? ?]|]; reflexivity).
      cbn. now apply tuple_end_twice.
  - assert (EA : advance [] (FTuple (zlen cs) fs now :: frs) k = option_map (fun frs' => ([], frs')) (inside (FTuple (zlen cs) fs now) (fun l => advance l frs k))).
    { clear - HK. cbn [advance]. destruct frs; [|reflexivity]. specialize (HK eq_refl). destruct k; try reflexivity; destruct HK. }
    rewrite EA. clear EA. destruct now_cases as [En|(i & l & En)].
    2:{ replace (inside (FTuple (zlen cs) fs now) (fun l => advance l frs k)) with (inside (FTuple (zlen cs) fs (Some (i, l))) (fun l => advance l frs k)) by (now rewrite En). cbn [inside]. rewrite advance_nil. pose proof (tuple_inside i l k En HK) as HI.
      destruct (advance [] frs k) as [[ext frs']|] eqn:Ea; cbn [option_map fst snd].
      - intros T. destruct (HI T) as (r & E1 & E2 & E3). exists r. rewrite app_nil_r. auto.
      - exact HI. }
    destruct (now_none En) as [Ex Ef]. replace (inside (FTuple (zlen cs) fs now) (fun l => advance l frs k)) with (@None (list frame)) by (now rewrite En). cbn [inside option_map]. specialize (HK Ef). rewrite Ex. destruct k; cbn [Builder.step]; try (now destruct HK); eexists; reflexivity.
Qed.
End Open.
End Tuple.
