(** setidentities labels every node with the ways to reach its rows. *)
From Coq Require Import DecimalString.
From Verif Require Import Base BaseLemmas Content SpecArray OmapLemmas PCore Merge Identities SpecIdentities PIdentities PIdentities2 PIdentities3.
Local Open Scope string_scope.
Local Open Scope list_scope.
Local Open Scope Z_scope.

Definition Good (c : content) (idn : idents) (t : ids) : Prop :=
  forall np d, subnode c np = Some d ->
  match ident_at t np with
  | Some J =>
      wf J /\ ilen J = length_ d /\ width J = width idn + lists_on c np /\
      fieldloc J = fieldloc idn ++ route c np (width idn) /\
      (forall j, 0 <= j < length_ d -> unset (identity J j) \/
         exists i p, 0 <= i < ilen idn /\ descend c np i p = Some j /\ identity J j = identity idn i ++ p) /\
      (forall i p j, descend c np i p = Some j -> 0 <= i < ilen idn -> ~ unset (identity idn i) ->
         0 <= j < length_ d /\ identity J j = identity idn i ++ p)
  | None => exists np1 k np2 d', np = np1 ++ k :: np2 /\ subnode c np1 = Some d' /\ shared d' k
  end.

Definition onestep (c : content) (k : Z) (c' : content) (idn Q : idents) : Prop :=
  wf Q /\ ilen Q = length_ c' /\ width Q = width idn + step_width c /\
  fieldloc Q = fieldloc idn ++ step_field c k (width idn) /\
  (forall r, 0 <= r < length_ c' -> unset (identity Q r) \/
     exists i s, 0 <= i < ilen idn /\ into c k i s = Some (r, []) /\ identity Q r = identity idn i ++ s) /\
  (forall i s r, into c k i s = Some (r, []) -> 0 <= i < ilen idn -> ~ unset (identity idn i) ->
     0 <= r < length_ c' /\ identity Q r = identity idn i ++ s).

Lemma within_split a b p r p' : within a b p = Some (r, p') -> exists s, p = s ++ p' /\ within a b s = Some (r, []).
Proof.
  unfold within. destruct p as [|q p]; [discriminate|]. destruct ((0 <=? q) && (q <? b - a)) eqn:E; [|discriminate].
  intros [= <- <-]. exists [q]. split; [reflexivity|]. now rewrite E.
Qed.
Lemma within_app a b s r p : within a b s = Some (r, []) -> within a b (s ++ p) = Some (r, p).
Proof.
  unfold within. destruct s as [|q s]; [discriminate|]. cbn [app]. destruct ((0 <=? q) && (q <? b - a)); [|discriminate].
  intros [= <- ->]. reflexivity.
Qed.
Lemma into_split c k i p r p' : into c k i p = Some (r, p') -> exists s, p = s ++ p' /\ into c k i s = Some (r, []).
Proof.
  destruct c; cbn [into]; try discriminate; repeat match goal with
  | |- context [match nthZ ?l ?j with _ => _ end] => destruct (nthZ l j); try discriminate
  | |- context [if ?b then _ else _] => destruct b; try discriminate
  end; first [apply within_split | intros [= <- <-]; exists []; split; reflexivity].
Qed.
Lemma into_app c k i s r p : into c k i s = Some (r, []) -> into c k i (s ++ p) = Some (r, p).
Proof.
  destruct c; cbn [into]; try discriminate; repeat match goal with
  | |- context [match nthZ ?l ?j with _ => _ end] => destruct (nthZ l j); try discriminate
  | |- context [if ?b then _ else _] => destruct b; try discriminate
  end; first [apply within_app | intros [= <- ->]; reflexivity].
Qed.
Lemma unset_app r s : 1 <= zlen r -> unset (r ++ s) <-> unset r.
Proof. intros H. unfold unset. rewrite nthZ_app. destruct (Z.ltb_spec 0 (zlen r)); [reflexivity|lia]. Qed.

Definition bare (t : ids) : Prop := forall np, ident_at t np = None.

Lemma glue c idn ts :
  wf idn -> ilen idn = length_ c ->
  (forall k c', child c k = Some c' -> exists tk, nthZ ts k = Some tk /\
     ((shared c k /\ bare tk) \/ exists Q, onestep c k c' idn Q /\ Good c' Q tk)) ->
  Good c idn (Node (Some idn) ts).
Proof.
  intros Hwf Hlen Hk np d Hd. destruct np as [|k np]; cbn [ident_at subnode] in *.
  - injection Hd as <-. split; [exact Hwf|]. split; [exact Hlen|]. cbn [lists_on route]. split; [lia|]. split; [now rewrite app_nil_r|]. split.
    + intros j Hj. right. exists j, []. cbn [descend]. split; [lia|]. split; [reflexivity|]. now rewrite app_nil_r.
    + intros i p j. cbn [descend]. destruct p; [|discriminate]. intros [= ->] Hi _. split; [lia|]. now rewrite app_nil_r.
  - destruct (child c k) as [c'|] eqn:Ec; [|discriminate]. destruct (Hk k c' Ec) as (tk & Et & H). rewrite Et.
    destruct H as [(Hsh & Hbare)|(Q & (Qwf & Qlen & Qw & Qf & Qs & Qc) & HG)].
    + rewrite Hbare. exists [], k, np, c. split; [reflexivity|]. split; [reflexivity|exact Hsh].
    + specialize (HG np d Hd). destruct (ident_at tk np) as [J|].
      * destruct HG as (Jwf & Jlen & Jw & Jf & Js & Jc). split; [exact Jwf|]. split; [exact Jlen|]. cbn [lists_on route descend]. rewrite Ec.
        split; [lia|]. split; [rewrite Jf, Qf, Qw, <- app_assoc; reflexivity|]. split.
        -- intros j Hj. destruct (Js j Hj) as [Hu|(r & p & Hr & Hdes & Eq)]; [left; exact Hu|].
           destruct (Qs r) as [Hu|(i & s & Hi & Hin & Eq2)]; [lia| |].
           ++ left. rewrite Eq. apply unset_app; [apply identity_len1; assumption|exact Hu].
           ++ right. exists i, (s ++ p). split; [exact Hi|]. rewrite (into_app _ _ _ _ _ p Hin). split; [exact Hdes|]. rewrite Eq, Eq2. now rewrite <- app_assoc.
        -- intros i p j Hdes Hi Hnu. destruct (into c k i p) as [[r p']|] eqn:Ein; [|discriminate].
           destruct (into_split _ _ _ _ _ _ Ein) as (s & -> & Hin). destruct (Qc i s r Hin Hi Hnu) as (Hr & Eq).
           destruct (Jc r p' j Hdes) as (Hj & Ej); [lia| |].
           { rewrite Eq, unset_app; [exact Hnu|]. apply identity_len1; assumption. }
           split; [exact Hj|]. rewrite Ej, Eq. now rewrite <- app_assoc.
      * destruct HG as (np1 & k' & np2 & d' & -> & Hd' & Hsh). exists (k :: np1), k', np2, d'. split; [reflexivity|]. cbn [subnode]. rewrite Ec. split; assumption.
Qed.

Lemma identity_new loc w n b j : identity (newI loc w n b) j = row w b j.
Proof. unfold identity, row, newI; cbn [offset width ibuf]. f_equal; lia. Qed.
Lemma Inv_onestep c k c' idn W b :
  1 <= width idn -> 0 <= length_ c' -> W = width idn + step_width c -> 1 <= W -> step_field c k (width idn) = [] ->
  (forall i s r, into c k i s = Some (r, []) -> 0 <= i < ilen idn) ->
  Inv (length_ c') W (identity idn) (fun i j s => into c k i s = Some (j, [])) b ->
  onestep c k c' idn (newI (fieldloc idn) W (length_ c') b).
Proof.
  intros Hw Hn -> HW Hf HR (L & S & C). split.
  { unfold wf, newI; cbn [offset width ilen ibuf]. lia. }
  split; [reflexivity|]. split; [reflexivity|]. split; [cbn [fieldloc newI]; now rewrite Hf, app_nil_r|]. split.
  - intros r Hr. rewrite identity_new. destruct (S r Hr) as [E|(i & s & Hin & E)].
    + left. unfold unset. rewrite E. apply nthZ_repeat. lia.
    + right. exists i, s. split; [eapply HR; exact Hin|]. split; assumption.
  - intros i s r Hin Hi Hnu. rewrite identity_new. destruct (C _ _ _ Hin) as (Hr & E). split; [exact Hr|apply E, Hnu].
Qed.

(** ** no identities *)
Lemma each_ok (f : Z -> content -> res ids) cs : forall j0 (Q : Z -> content -> ids -> Prop),
  (forall k c, nthZ cs k = Some c -> exists t, f (j0 + k) c = Ok t /\ Q (j0 + k) c t) ->
  exists ts, each f j0 cs = Ok ts /\ zlen ts = zlen cs /\
    forall k c, nthZ cs k = Some c -> exists t, nthZ ts k = Some t /\ Q (j0 + k) c t.
Proof.
  induction cs as [|c cs IH]; intros j0 Q H; cbn [each].
  - exists []. split; [reflexivity|]. split; [reflexivity|]. intros k c. rewrite nthZ_nil. discriminate.
  - destruct (H 0 c) as (t & Et & HQ); [reflexivity|]. rewrite Z.add_0_r in Et, HQ. rewrite Et. cbn [bind].
    destruct (IH (j0 + 1) Q) as (ts & Ets & Lts & Hts).
    { intros k c' Hk. pose proof (nthZ_Some _ _ _ Hk). destruct (H (k + 1) c') as (t' & Et' & HQ').
      - rewrite nthZ_cons. destruct (Z.eqb_spec (k+1) 0); [lia|]. now replace (k + 1 - 1) with k by lia.
      - exists t'. replace (j0 + 1 + k) with (j0 + (k + 1)) by lia. split; assumption. }
    rewrite Ets. cbn [bind]. exists (t :: ts). split; [reflexivity|]. split; [rewrite !zlen_cons; lia|].
    intros k c' Hk. rewrite nthZ_cons in Hk. destruct (Z.eqb_spec k 0) as [->|Hk0].
    + injection Hk as <-. exists t. rewrite Z.add_0_r. split; [reflexivity|exact HQ].
    + destruct (Hts (k - 1) c' Hk) as (t' & Et' & HQ'). exists t'. replace (j0 + k) with (j0 + 1 + (k - 1)) by lia.
      split; [|exact HQ']. rewrite nthZ_cons. destruct (Z.eqb_spec k 0); [lia|exact Et'].
Qed.

Lemma bare_node ts : (forall k t, nthZ ts k = Some t -> bare t) -> bare (Node None ts).
Proof.
  intros H [|k np]; [reflexivity|]. cbn [ident_at]. destruct (nthZ ts k) as [t|] eqn:E; [|reflexivity]. apply (H _ _ E).
Qed.
Lemma bare_one t : bare t -> bare (Node None [t]).
Proof.
  intros H. apply bare_node. intros k t'. rewrite nthZ_cons. destruct (k =? 0); [intros [= <-]; exact H|]. rewrite nthZ_nil. discriminate.
Qed.
Lemma set_none c : exists t, setidentities c None = Ok t /\ bare t.
Proof.
  induction c using content_ind'; cbn [setidentities];
    try (exists (Node None []); split; [reflexivity|]; apply bare_node; intros k t; rewrite nthZ_nil; discriminate);
    try (destruct IHc as (t & -> & Hb); cbn [bind]; exists (Node None [t]); split; [reflexivity|apply bare_one, Hb]).
  all: rewrite Forall_forall in H; destruct (each_ok (fun _ c => setidentities c None) cs 0 (fun _ _ t => bare t)) as (ts & -> & L & Hts);
    [intros k c Hk; destruct (H c) as (t & Et & Hb); [eapply nthZ_In; exact Hk|]; exists t; split; assumption|];
    cbn [bind]; exists (Node None ts); (split; [reflexivity|]); apply bare_node; intros k t Hk;
    destruct (nthZ_lt cs k) as (c & Hc); [apply nthZ_Some in Hk; lia|]; destruct (Hts k c Hc) as (t' & Ht' & Hb); congruence.
Qed.

(** ** what a valid array guarantees *)
Lemma sublist_ok vs a b v : sublist vs a b = Some v -> a = b \/ 0 <= a <= b /\ b <= zlen vs.
Proof.
  unfold sublist. destruct (Z.eqb_spec a b); [left; assumption|].
  destruct (Z.leb_spec 0 a), (Z.leb_spec a b), (Z.leb_spec b (zlen vs)); try discriminate. right. lia.
Qed.
Lemma den_nonneg c vs : den c = Some vs -> 0 <= length_ c.
Proof. intros H. rewrite (den_length _ _ H). apply zlen_nonneg. Qed.

Definition Set_ok (c : content) : Prop :=
  forall deep idn vs, den c = Some vs -> tidy deep c = true -> wf idn -> ilen idn = length_ c ->
    (deep = false -> width idn = 1) ->
    exists t, setidentities c (Some idn) = Ok t /\ Good c idn t.

Lemma one_child c c' t idn :
  (forall k d, child c k = Some d -> k = 0 /\ d = c') ->
  wf idn -> ilen idn = length_ c ->
  ((shared c 0 /\ bare t) \/ exists Q, onestep c 0 c' idn Q /\ Good c' Q t) ->
  Good c idn (Node (Some idn) [t]).
Proof.
  intros Hc Hwf Hlen H. apply glue; try assumption. intros k d Hd. apply Hc in Hd as (-> & ->). exists t. split; [reflexivity|exact H].
Qed.
Lemma child0 (c' : content) k d : (if k =? 0 then Some c' else None) = Some d -> k = 0 /\ d = c'.
Proof. destruct (Z.eqb_spec k 0); [intros [= <-]; auto|discriminate]. Qed.

Lemma neqb_same a : negb (a =? a) = false.
Proof. now rewrite Z.eqb_refl. Qed.

Lemma alloc_table w n : 0 <= n -> 1 <= w -> zlen (alloc (w * n)) = n * w.
Proof. intros. rewrite zlen_alloc; nia. Qed.

Lemma set_ListA starts stops c : Set_ok c -> Set_ok (ListA starts stops c).
Proof.
  intros IH deep idn vs Hd Ht Hwf Hlen Hw. cbn [tidy] in Ht. cbn [den] in Hd. destruct (den c) as [ws|] eqn:Ec; [|discriminate].
  destruct (Z.leb_spec (zlen starts) (zlen stops)) as [Hss|]; [|discriminate].
  pose proof (den_length _ _ Ec) as Lc. pose proof (den_nonneg _ _ Ec) as Nc. cbn [length_] in Hlen.
  cbn [setidentities length_]. rewrite Hlen, neqb_same.
  destruct (from_ListArray_ok idn starts stops c (length_ c) (alloc ((width idn + 1) * length_ c))) as (out & E & H); try assumption.
  - intros i a b Ha Hb. rewrite Lc. destruct (omap_nth _ _ _ i (a, b) Hd) as (_ & v & Hv); [rewrite nthZ_combine, Ha, Hb; reflexivity|].
    cbn [fst snd] in Hv. eapply sublist_ok; exact Hv.
  - apply alloc_table; [assumption|]. destruct Hwf as (_ & ? & _). lia.
  - rewrite E. cbn [bind]. destruct out as [b|]; cbn [option_map].
    + assert (HO : onestep (ListA starts stops c) 0 c idn (newI (fieldloc idn) (width idn + 1) (length_ c) b)).
      { apply Inv_onestep; try assumption; try reflexivity; try (destruct Hwf as (_ & ? & _); lia).
        intros i s r Hin. apply into_ListA in Hin as (a & e & q & Ha & _). apply nthZ_Some in Ha. lia. }
      destruct (IH true (newI (fieldloc idn) (width idn + 1) (length_ c) b) ws Ec Ht) as (t & Et & HG); [apply HO|apply HO|discriminate|].
      rewrite Et. cbn [bind]. exists (Node (Some idn) [t]). split; [reflexivity|]. apply (one_child _ c); try assumption; [intros k d; apply child0|].
      right. eexists; split; eassumption.
    + destruct (set_none c) as (t & Et & Hb). rewrite Et. cbn [bind]. exists (Node (Some idn) [t]). split; [reflexivity|].
      apply (one_child _ c); try assumption; [intros k d; apply child0|]. left. split; assumption.
Qed.

Lemma set_ListOffset offsets c : Set_ok c -> Set_ok (ListOffset offsets c).
Proof.
  intros IH deep idn vs Hd Ht Hwf Hlen Hw. cbn [tidy] in Ht. apply andb_true_iff in Ht as (Hb & Ht).
  cbn [den] in Hd. destruct (den c) as [ws|] eqn:Ec; [|discriminate].
  destruct (Z.leb_spec 1 (zlen offsets)) as [H1|]; [|discriminate].
  pose proof (den_length _ _ Ec) as Lc. pose proof (den_nonneg _ _ Ec) as Nc. cbn [length_] in Hlen.
  cbn [setidentities length_]. rewrite Hlen, neqb_same.
  destruct (from_ListOffsetArray_ok idn offsets c (length_ c) (alloc ((width idn + 1) * length_ c))) as (b & E & H); try assumption.
  - destruct (nthZ offsets 0) as [a0|] eqn:E0; [|discriminate]. destruct (nthZ offsets (zlen offsets - 1)) as [e0|] eqn:E1; [|discriminate].
    apply andb_true_iff in Hb as (Hb0 & Hb1). split; [exact H1|]. split.
    + intros i a b Ha Hb. destruct (omap_nth _ _ _ i (a, b) Hd) as (_ & v & Hv); [rewrite nthZ_pairs, Ha, Hb; reflexivity|].
      cbn [fst snd] in Hv. apply sublist_ok in Hv. lia.
    + split; [intros a; rewrite E0; intros [= <-]; lia|intros b; rewrite E1; intros [= <-]; lia].
  - apply alloc_table; [assumption|]. destruct Hwf as (_ & ? & _). lia.
  - rewrite E. cbn [bind].
    assert (HO : onestep (ListOffset offsets c) 0 c idn (newI (fieldloc idn) (width idn + 1) (length_ c) b)).
    { apply Inv_onestep; try assumption; try reflexivity; try (destruct Hwf as (_ & ? & _); lia).
      intros i s r Hin. cbn [into] in Hin. destruct (nthZ offsets i) eqn:Ea; [|discriminate]. destruct (nthZ offsets (i+1)) eqn:Eb; [|discriminate].
      apply nthZ_Some in Ea, Eb. lia. }
    destruct (IH true (newI (fieldloc idn) (width idn + 1) (length_ c) b) ws Ec Ht) as (t & Et & HG); [apply HO|apply HO|discriminate|].
    rewrite Et. cbn [bind]. exists (Node (Some idn) [t]). split; [reflexivity|]. apply (one_child _ c); try assumption; [intros k d; apply child0|].
    right. eexists; split; eassumption.
Qed.

Lemma set_Regular size zl c : Set_ok c -> Set_ok (Regular size zl c).
Proof.
  intros IH deep idn vs Hd Ht Hwf Hlen Hw. cbn [tidy] in Ht. apply andb_true_iff in Ht as (Hb & Ht).
  pose proof (den_nonneg _ _ Hd) as Nr.
  cbn [den] in Hd. destruct (den c) as [ws|] eqn:Ec; [|discriminate].
  pose proof (den_length _ _ Ec) as Lc. pose proof (den_nonneg _ _ Ec) as Nc.
  assert (Hs : 0 <= size) by (destruct (Z.ltb_spec 0 size); [lia|]; destruct (Z.eqb_spec size 0); [lia|discriminate]).
  change (setidentities (Regular size zl c) (Some idn)) with
    (if negb (length_ (Regular size zl c) =? ilen idn) then Err same_length_error else
     let* buf := awkward_Identities_from_RegularArray (alloc ((width idn + 1) * length_ c)) (idata idn) size
                        (length_ c) (length_ (Regular size zl c)) (width idn) in
     let* t := setidentities c (Some (newI (fieldloc idn) (width idn + 1) (length_ c) buf)) in
     Ok (Node (Some idn) [t])).
  rewrite Hlen, neqb_same.
  destruct (from_RegularArray_ok idn size zl c (length_ (Regular size zl c)) (alloc ((width idn + 1) * length_ c))) as (b & E & H); try assumption; try reflexivity.
  - destruct (Z.eqb_spec size 0); [left; assumption|right; cbn [orb] in Hb; apply Z.eqb_eq in Hb; exact Hb].
  - apply alloc_table; [assumption|]. destruct Hwf as (_ & ? & _). lia.
  - rewrite E. cbn [bind].
    assert (HO : onestep (Regular size zl c) 0 c idn (newI (fieldloc idn) (width idn + 1) (length_ c) b)).
    { apply Inv_onestep; try assumption; try reflexivity; try (destruct Hwf as (_ & ? & _); lia).
      intros i s r Hin. unfold into in Hin. rewrite <- Hlen in Hin. destruct (Z.leb_spec 0 i), (Z.ltb_spec i (ilen idn)); try discriminate. lia. }
    destruct (IH true (newI (fieldloc idn) (width idn + 1) (length_ c) b) ws Ec Ht) as (t & Et & HG); [apply HO|apply HO|discriminate|].
    rewrite Et. cbn [bind]. exists (Node (Some idn) [t]). split; [reflexivity|]. apply (one_child _ c); try assumption; [intros k d; apply child0|].
    right. eexists; split; eassumption.
Qed.

Lemma set_index (X : content) index c :
  X = Indexed index c \/ X = IndexedOption index c -> Set_ok c -> Set_ok X.
Proof.
  intros HX IH deep idn vs Hd Ht Hwf Hlen Hw.
  assert (Hok : exists ws, den c = Some ws /\ forall i j, nthZ index i = Some j -> j < zlen ws).
  { destruct HX as [-> | ->]; cbn [den] in Hd; destruct (den c) as [ws|]; try discriminate; exists ws; (split; [reflexivity|]); intros i j Hj;
      destruct (omap_nth _ _ _ i j Hd Hj) as (_ & v & Hv).
    - apply nthZ_Some in Hv. lia.
    - cbv beta in Hv. destruct (Z.ltb_spec j 0); [pose proof (zlen_nonneg ws); lia|]. apply nthZ_Some in Hv. lia. }
  destruct Hok as (ws & Ec & Hok).
  assert (HL : length_ X = zlen index) by (destruct HX as [-> | ->]; reflexivity).
  assert (HT : tidy deep c = true) by (destruct HX as [-> | ->]; exact Ht).
  assert (HI : forall i s, into X 0 i s = into (Indexed index c) 0 i s) by (intros; destruct HX as [-> | ->]; reflexivity).
  pose proof (den_length _ _ Ec) as Lc. pose proof (den_nonneg _ _ Ec) as Nc.
  assert (HS : setidentities X (Some idn) =
          (if negb (zlen index =? ilen idn) then Err same_length_error else
          let* out := awkward_Identities_from_IndexedArray (alloc (width idn * length_ c)) (idata idn) index
                        (length_ c) (zlen index) (width idn) in
          let* t := setidentities c (option_map (newI (fieldloc idn) (width idn) (length_ c)) out) in
          Ok (Node (Some idn) [t]))) by (destruct HX as [-> | ->]; reflexivity).
  rewrite HS. rewrite HL in Hlen. rewrite Hlen, neqb_same. clear HS.
  assert (HC : forall k d, child X k = Some d -> k = 0 /\ d = c) by (intros k d; destruct HX as [-> | ->]; apply child0).
  assert (Hsw : step_width X = 0) by (destruct HX as [-> | ->]; reflexivity).
  assert (Hsf : step_field X 0 (width idn) = []) by (destruct HX as [-> | ->]; reflexivity).
  destruct (from_IndexedArray_ok idn index c (length_ c) (alloc (width idn * length_ c))) as (out & E & H); try assumption.
  - intros i j Hj. rewrite Lc. eapply Hok; exact Hj.
  - apply alloc_table; [assumption|]. destruct Hwf as (_ & ? & _). lia.
  - rewrite E. cbn [bind]. destruct out as [b|]; cbn [option_map].
    + assert (HO : onestep X 0 c idn (newI (fieldloc idn) (width idn) (length_ c) b)).
      { apply Inv_onestep; try assumption; try (destruct Hwf as (_ & ? & _); lia).
        - intros i s r Hin. rewrite HI in Hin. apply into_Indexed in Hin as (Hin & _). apply nthZ_Some in Hin. lia.
        - eapply Inv_ext; [|exact H]. intros i j s. now rewrite HI. }
      destruct (IH deep (newI (fieldloc idn) (width idn) (length_ c) b) ws Ec HT) as (t & Et & HG); [apply HO|apply HO|exact Hw|].
      rewrite Et. cbn [bind]. exists (Node (Some idn) [t]). split; [reflexivity|]. apply (one_child _ c); try assumption; [lia|].
      right. eexists; split; eassumption.
    + destruct (set_none c) as (t & Et & Hb). rewrite Et. cbn [bind]. exists (Node (Some idn) [t]). split; [reflexivity|].
      apply (one_child _ c); try assumption; [lia|]. left. split; [|assumption].
      destruct H as (i1 & p1 & i2 & p2 & r & H1 & H2 & H3). exists i1, p1, i2, p2, r. rewrite !HI. auto.
Qed.

Lemma set_masked (X : content) c m :
  (forall deep, tidy deep X = negb deep && tidy deep c) -> (forall k, child X k = if k =? 0 then Some c else None) ->
  (forall i p, into X 0 i p = if (0 <=? i) && (i <? length_ X) then Some (i, p) else None) ->
  length_ X = m -> (forall vs, den X = Some vs -> exists ws, den c = Some ws /\ m <= zlen ws) ->
  step_width X = 0 -> (forall w, step_field X 0 w = []) ->
  (forall idn, setidentities X (Some idn) =
     if negb (length_ X =? ilen idn) then Err same_length_error else
     let* sub := masked_sub idn (length_ c) in
     let* t := setidentities c (Some sub) in
     Ok (Node (Some idn) [t])) ->
  Set_ok c -> Set_ok X.
Proof.
  intros HT HC HI HL HD Hsw Hsf HS IH deep idn vs Hd Ht Hwf Hlen Hw.
  rewrite HT in Ht. apply andb_true_iff in Ht as (Hdeep & Ht). destruct deep; [discriminate|]. specialize (Hw eq_refl).
  destruct (HD _ Hd) as (ws & Ec & Hm). pose proof (den_length _ _ Ec) as Lc. pose proof (den_nonneg _ _ Ec) as Nc.
  rewrite HS, Hlen, neqb_same. unfold masked_sub.
  destruct (extend_ok idn (length_ c) (alloc (width idn * length_ c)) (fun i j s => into X 0 i s = Some (j, []))) as (b & E & H); try assumption.
  - lia.
  - rewrite alloc_table by lia. lia.
  - intros i j s. rewrite HI, <- Hlen. destruct (Z.leb_spec 0 i), (Z.ltb_spec i (ilen idn)); cbn [andb]; split; try discriminate; try lia.
    + intros [= -> ->]. auto.
    + intros (_ & -> & ->). reflexivity.
  - rewrite E. cbn [bind].
    assert (HO : onestep X 0 c idn (newI (fieldloc idn) (width idn) (length_ c) b)).
    { apply Inv_onestep; try assumption; try lia.
      - apply Hsf.
      - intros i s r. rewrite HI, <- Hlen. destruct (Z.leb_spec 0 i), (Z.ltb_spec i (ilen idn)); cbn [andb]; try discriminate. lia.
      - rewrite Hw. exact H. }
    destruct (IH false (newI (fieldloc idn) (width idn) (length_ c) b) ws Ec Ht) as (t & Et & HG); [apply HO|apply HO|intros _; exact Hw|].
    rewrite Et. cbn [bind]. exists (Node (Some idn) [t]). split; [reflexivity|]. apply (one_child _ c); try assumption.
    + intros k d. rewrite HC. apply child0.
    + right. eexists; split; eassumption.
Qed.

Lemma fieldname_ok keys (cs : list content) k c : keys_ok keys (zlen cs) = true -> nthZ cs k = Some c ->
  fieldname keys k = Ok (field_label keys k).
Proof.
  intros Hk Hc. apply nthZ_Some in Hc. unfold fieldname, field_label. destruct keys as [ks|].
  - cbn [keys_ok] in Hk. apply Z.eqb_eq in Hk. destruct (nthZ_lt ks k) as (s & Es); [lia|]. rewrite Es. apply rd_Ok. exact Es.
  - apply rd_Ok. cbn [record_keys]. rewrite nthZ_map, nthZ_zseq by lia. cbn [option_map]. do 2 f_equal; lia.
Qed.

Lemma set_Record keys len cs : Forall Set_ok cs -> Set_ok (Record keys len cs).
Proof.
  intros IH deep idn vs Hd Ht Hwf Hlen Hw. cbn [tidy] in Ht. rewrite forallb_forall in Ht. rewrite Forall_forall in IH.
  cbn [den] in Hd. destruct (omap den cs) as [vss|] eqn:Ec; [|discriminate]. destruct ((0 <=? len) && keys_ok keys (zlen cs)) eqn:Ek; [|discriminate].
  apply andb_true_iff in Ek as (_ & Ek). cbn [length_] in Hlen. cbn [setidentities length_]. rewrite Hlen, neqb_same.
  match goal with |- context [each ?F 0 cs] => set (f := F) end.
  set (Qk := fun k => withfieldloc idn (fieldloc idn ++ [(width idn - 1, field_label keys k)])).
  destruct (each_ok f cs 0 (fun k c t => Good c (Qk k) t)) as (ts & -> & L & Hts).
  - intros k c Hk. rewrite Z.add_0_l. unfold f. rewrite (fieldname_ok keys cs k c Ek Hk). cbn [bind]. apply nthZ_In in Hk as Hin.
    specialize (Ht c Hin). apply andb_true_iff in Ht as (Hl & Ht). apply Z.eqb_eq in Hl.
    destruct (omap_nth _ _ _ k c Ec Hk) as (_ & v & Hv). apply (IH c Hin deep (Qk k) v Hv Ht); try assumption. cbn [Qk withfieldloc ilen]. lia.
  - cbn [bind]. exists (Node (Some idn) ts). split; [reflexivity|]. apply glue; try assumption. intros k c Hc. cbn [child] in Hc.
    destruct (Hts k c Hc) as (t & Et & HG). rewrite Z.add_0_l in HG. exists t. split; [exact Et|]. right. exists (Qk k). split; [|exact HG].
    apply nthZ_In in Hc as Hin. specialize (Ht c Hin). apply andb_true_iff in Ht as (Hl & _). apply Z.eqb_eq in Hl.
    split; [exact Hwf|]. split; [cbn [Qk withfieldloc ilen]; lia|]. split; [cbn [step_width Qk withfieldloc width]; lia|]. split; [reflexivity|].
    change (forall r, identity (Qk k) r = identity idn r) with (forall r, identity idn r = identity idn r). split.
    + intros r Hr. right. exists r, []. split; [lia|]. rewrite app_nil_r. split; [|reflexivity]. unfold into. cbn [length_].
      destruct (Z.leb_spec 0 r), (Z.ltb_spec r len); try lia. reflexivity.
    + intros i s r. unfold into. cbn [length_]. destruct ((0 <=? i) && (i <? len)); [|discriminate]. intros [= -> ->] Hi _. rewrite app_nil_r. split; [lia|reflexivity].
Qed.

Lemma set_Union tags index cs : Forall Set_ok cs -> Set_ok (Union tags index cs).
Proof.
  intros IH deep idn vs Hd Ht Hwf Hlen Hw. cbn [tidy] in Ht. rewrite forallb_forall in Ht. rewrite Forall_forall in IH.
  cbn [den] in Hd. destruct (omap den cs) as [vss|] eqn:Ec; [|discriminate].
  destruct (Z.leb_spec 1 (zlen cs)) as [Hcs|]; [|discriminate]. destruct (Z.leb_spec (zlen tags) (zlen index)) as [Hti|]; [|discriminate]. cbn [andb] in Hd.
  cbn [length_] in Hlen. cbn [setidentities length_]. destruct (Z.ltb_spec (zlen index) (zlen tags)) as [|Hti2]; [lia|]. rewrite Hlen, neqb_same.
  match goal with |- context [each ?F 0 cs] => set (f := F) end.
  destruct (each_ok f cs 0 (fun k c t => (shared (Union tags index cs) k /\ bare t) \/ exists Q, onestep (Union tags index cs) k c idn Q /\ Good c Q t)) as (ts & -> & L & Hts).
  - intros k c Hk. rewrite Z.add_0_l. unfold f. apply nthZ_In in Hk as Hin. specialize (Ht c Hin).
    destruct (omap_nth _ _ _ k c Ec Hk) as (Hvk & v & Hv). pose proof (den_length _ _ Hv) as Lc. pose proof (den_nonneg _ _ Hv) as Nc.
    destruct (from_UnionArray_ok idn tags index cs k (length_ c) (alloc (width idn * length_ c))) as (out & E & H); try assumption.
    + intros i j Hti' Hij. destruct (omap_nth _ _ _ i (k, j) Hd) as (_ & x & Hx); [rewrite nthZ_combine, Hti', Hij; reflexivity|].
      cbn [fst snd] in Hx. rewrite <- Hvk, Hv in Hx. apply nthZ_Some in Hx. lia.
    + apply alloc_table; [assumption|]. destruct Hwf as (_ & ? & _). lia.
    + rewrite E. cbn [bind]. destruct out as [b|]; cbn [option_map].
      * assert (HO : onestep (Union tags index cs) k c idn (newI (fieldloc idn) (width idn) (length_ c) b)).
        { apply Inv_onestep; try assumption; try reflexivity; try (cbn [step_width]; destruct Hwf as (_ & ? & _); lia).
          intros i s r Hin'. apply into_Union in Hin' as (Hin' & _). apply nthZ_Some in Hin'. lia. }
        destruct (IH c Hin deep (newI (fieldloc idn) (width idn) (length_ c) b) v Hv Ht) as (t & Et & HG); [apply HO|apply HO|exact Hw|].
        exists t. split; [exact Et|]. right. eexists; split; eassumption.
      * destruct (set_none c) as (t & Et & Hb). exists t. split; [exact Et|]. left. split; assumption.
  - cbn [bind]. exists (Node (Some idn) ts). split; [reflexivity|]. apply glue; assumption.
Qed.

Lemma set_leaf c : (forall k, child c k = None) ->
  (forall idn, setidentities c (Some idn) = if negb (length_ c =? ilen idn) then Err same_length_error else Ok (Node (Some idn) [])) -> Set_ok c.
Proof.
  intros HC HS deep idn vs Hd Ht Hwf Hlen Hw. rewrite HS, Hlen, neqb_same. eexists; split; [reflexivity|]. apply glue; try assumption.
  intros k c'. rewrite HC. discriminate.
Qed.

Theorem setidentities_ok c : Set_ok c.
Proof.
  induction c using content_ind'.
  - apply set_leaf; reflexivity.
  - apply set_leaf; reflexivity.
  - apply set_ListA; assumption.
  - apply set_ListOffset; assumption.
  - apply set_Regular; assumption.
  - eapply set_index; [left; reflexivity|assumption].
  - eapply set_index; [right; reflexivity|assumption].
  - eapply (set_masked _ c (zlen mask)); try reflexivity; [|assumption].
    intros vs. cbn [den]. destruct (den c) as [ws|]; [|discriminate]. destruct (Z.leb_spec (zlen mask) (zlen ws)); [|discriminate]. intros _. exists ws. auto.
  - eapply (set_masked _ c len); try reflexivity; [|assumption].
    intros vs. cbn [den]. destruct (den c) as [ws|]; [|discriminate]. destruct (Z.leb_spec 0 len); [|discriminate].
    destruct (Z.leb_spec len (zlen ws)); [|discriminate]. intros _. exists ws. auto.
  - eapply (set_masked _ c (length_ c)); try reflexivity; [|assumption].
    intros vs. cbn [den]. intros H. exists vs. split; [exact H|]. rewrite (den_length _ _ H). lia.
  - apply set_Record; assumption.
  - apply set_Union; assumption.
Qed.
