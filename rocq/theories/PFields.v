(** Proofs about getitem_fields. *)
From Verif Require Import Base BaseLemmas OmapLemmas Content KCore Core KOption Option SpecArray SpecForm SpecOption PCore PCarry PList POption PAxis PPromote PMergeR PMerge PTidy PLift PForm PNat PGetitem1.
From Verif Require Import Getitem SpecGetitem PField Fields SpecFields.
From Coq Require Import String.
From Coq Require Import List.
Import ListNotations.
Local Open Scope Z_scope.

Lemma columns_spec names cs keys : keys_ok names (zlen cs) = true -> has_fields keys (FRecord names (map form_of cs)) = true ->
  exists js cs', mapres (record_column names cs) keys = Ok cs' /\ omap (nthZ cs) js = Some cs' /\
    Forall2 (fun key j => forall vals, zlen vals = zlen cs -> proj key (mkrow names vals) = nthZ vals j) keys js.
Proof.
  intros Hk. unfold has_fields. induction keys as [|key keys IH]; cbn [forallb]; intros Hf.
  - exists [], []. repeat split; constructor.
  - apply andb_prop in Hf. destruct Hf as [Hf Hfs]. destruct (IH Hfs) as (js & cs' & E & Ej & HF).
    destruct (fieldindex_spec names key cs Hk Hf) as (j & Ei & Hj & Hp). destruct (nthZ_lt cs j Hj) as [x Hx].
    exists (j :: js), (x :: cs'). cbn [mapres omap]. unfold record_column at 1. rewrite Ei. cbn [bind]. rewrite (proj2 (rd_Ok _ _ _) Hx). cbn [bind]. rewrite E, Hx, Ej.
    repeat split. constructor; assumption.
Qed.

Lemma omap_comp {A B C} (f : A -> option B) (g : B -> option C) l ys : omap f l = Some ys -> omap (fun x => match f x with Some y => g y | None => None end) l = omap g ys.
Proof.
  revert ys; induction l as [|x l IH]; cbn [omap]; intros ys H; [injection H as <-; reflexivity|].
  destruct (f x); [|discriminate]. destruct (omap f l); [|discriminate]. injection H as <-. cbn [omap]. now rewrite (IH _ eq_refl).
Qed.

(** the row of the selected columns *)
Lemma select_row names keys js n row row' :
  Forall2 (fun key j => forall vals, zlen vals = n -> proj key (mkrow names vals) = nthZ vals j) keys js -> zlen row = n -> omap (nthZ row) js = Some row' ->
  select keys (mkrow names row) = Some (mkrow (match names with Some _ => Some keys | None => None end) row').
Proof.
  intros HF Hn Hr. destruct names as [ks|]; cbn [mkrow select] in *.
  - assert (G : omap (fun key => option_map (pair key) (proj key (VRec (combine ks row)))) keys = Some (combine keys row')); [|now rewrite G].
    revert row' Hr. induction HF as [|key j keys js Hp _ IH]; cbn [omap]; intros row' Hr; [injection Hr as <-; reflexivity|].
    rewrite (Hp row Hn). destruct (nthZ row j) as [y|]; [|discriminate]. destruct (omap (nthZ row) js) as [t|]; [|discriminate]. injection Hr as <-.
    rewrite (IH _ eq_refl). reflexivity.
  - assert (G : omap (fun key => proj key (VTuple row)) keys = Some row'); [|now rewrite G].
    revert row' Hr. induction HF as [|key j keys js Hp _ IH]; cbn [omap]; intros row' Hr; [injection Hr as <-; reflexivity|].
    rewrite (Hp row Hn). destruct (nthZ row j) as [y|]; [|discriminate]. destruct (omap (nthZ row) js) as [t|]; [|discriminate]. injection Hr as <-.
    rewrite (IH _ eq_refl). reflexivity.
Qed.

(** columns picked out of columns *)
Lemma omap_pick2 {A B} (f : A -> option B) cs vss js cs' : omap f cs = Some vss -> omap (nthZ cs) js = Some cs' -> exists vss', omap f cs' = Some vss' /\ omap (nthZ vss) js = Some vss'.
Proof.
  intros H. revert cs'; induction js as [|j js IH]; cbn [omap]; intros cs' E; [injection E as <-; exists []; split; reflexivity|].
  destruct (nthZ cs j) as [x|] eqn:Ex; [|discriminate]. destruct (omap (nthZ cs) js) as [t|]; [|discriminate]. injection E as <-.
  destruct (IH _ eq_refl) as (vss' & A1 & A2). destruct (omap_nth _ _ _ _ _ H Ex) as (E1 & y & Ey). rewrite Ey in E1. exists (y :: vss'). cbn [omap]. rewrite Ey, A1, <- E1, A2. split; reflexivity.
Qed.

Lemma fields_den keys c : forall vs, has_records (form_of c) = true -> has_fields keys (form_of c) = true -> den c = Some vs ->
  exists c' ws, getitem_fields keys c = Ok c' /\ omap (select keys) vs = Some ws /\ den c' = Some ws.
Proof.
  pose (R := fun x y => select keys x = Some y).
  assert (RL : forall l l', Forall2 R l l' -> R (VList l) (VList l')) by (intros l l' H; unfold R in *; cbn [select]; apply F2_omap in H; now rewrite H).
  assert (RN : R VNone VNone) by reflexivity.
  assert (HFL : forall f, has_fields keys (FList f) = has_fields keys f) by reflexivity.
  assert (HFO : forall f, has_fields keys (FOption f) = has_fields keys f) by reflexivity.
  induction c using content_ind'; intros vs Hr Hf Hd; cbn [form_of has_records] in Hr; try discriminate Hr; cbn [form_of] in Hf; rewrite ?HFL, ?HFO in Hf.
  all: cbn [getitem_fields].
  all: try (destruct (content_inv1 _ _ Hd) as [ws Hws]; cbn [below] in Hws; destruct (IHc ws Hr Hf Hws) as (next & us & -> & Hus & Hn); cbn [bind]; apply F2_omap in Hus; fold R in Hus).
  - destruct (lista_lift R RL _ _ _ _ _ _ _ Hws Hn Hus Hd) as (vs' & Hd' & HF). rewrite (mkListA_den _ _ _ _ Hd'). apply F2_omap in HF. eauto.
  - destruct (listoffset_lift R RL _ _ _ _ _ _ Hws Hn Hus Hd) as (vs' & Hd' & HF). rewrite (mkListOffset_den _ _ _ Hd'). apply F2_omap in HF. eauto.
  - assert (Hd2 : den (Regular size (length_ (Regular size zl c)) c) = Some vs).
    { pose proof (den_length _ _ Hd) as HL. destruct (regular_inv _ _ _ _ Hd) as (ws' & segs & Ec & Hs & -> & _ & _ & Hz & _). destruct (Z.eqb_spec size 0) as [->|Hne].
      - rewrite HL, zlen_map. rewrite <- (Hz eq_refl). exact Hd.
      - cbn [den] in *. rewrite Ec in *. destruct (Z.ltb_spec 0 size); [exact Hd|lia]. }
    destruct (regular_lift R RL _ _ _ _ _ _ _ Hws Hn Hus Hd2) as (vs' & Hd' & HF). rewrite (mkRegular_den _ _ _ _ Hd'). apply F2_omap in HF. eauto.
  - destruct (indexed_lift R _ _ _ _ _ _ Hws Hn Hus Hd) as (vs' & Hd' & HF). apply F2_omap in HF. destruct (simplify_den _ _ Hd' eq_refl) as (r & -> & Hr' & _). eauto.
  - destruct (indexedoption_lift R RN _ _ _ _ _ _ Hws Hn Hus Hd) as (vs' & Hd' & HF). apply F2_omap in HF. destruct (simplify_den _ _ Hd' eq_refl) as (r & -> & Hr' & _). eauto.
  - destruct (bytemasked_lift R RN _ _ _ _ _ _ _ Hws Hn Hus Hd) as (vs' & Hd' & HF). apply F2_omap in HF. rewrite (mkByteMasked_den _ _ _ _ Hd'). cbn [bind]. destruct (simplify_den _ _ Hd' eq_refl) as (r & -> & Hr' & _). eauto.
  - destruct (bitmasked_lift R RN _ _ _ _ _ _ _ _ _ Hws Hn Hus Hd) as (vs' & Hd' & HF). apply F2_omap in HF. rewrite (mkBitMasked_den _ _ _ _ _ _ Hd'). cbn [bind]. destruct (simplify_den _ _ Hd' eq_refl) as (r & -> & Hr' & _). eauto.
  - apply F2_omap in Hus. change (den (Unmasked c)) with (den c) in Hd. rewrite Hws in Hd. injection Hd as <-. assert (Hd' : den (Unmasked next) = Some us) by exact Hn. destruct (simplify_den _ _ Hd' eq_refl) as (r & -> & Hr' & _). eauto.
  - destruct (record_cols _ _ _ _ Hd) as (vss & Hc & Hlen & Hk & Hz & Hrow). rename keys0 into names.
    destruct (columns_spec names cs keys Hk Hf) as (js & cs' & -> & Ej & HF). cbn [bind].
    destruct (omap_pick2 den cs vss js cs' Hc Ej) as (vss' & Ev & Ejv).
    assert (HK : keys_ok (match names with Some _ => Some keys | None => None end) (zlen cs') = true).
    { destruct names; cbn [keys_ok]; [|reflexivity]. rewrite (omap_zlen _ _ _ Ej). apply Z.eqb_eq. exact (F2_zlen _ _ _ HF). }
    set (row i := option_map (mkrow (match names with Some _ => Some keys | None => None end)) (omap (fun vs => nthZ vs i) vss')).
    assert (HR : forall i v, option_map (mkrow names) (omap (fun vs => nthZ vs i) vss) = Some v -> exists w, row i = Some w /\ select keys v = Some w).
    { intros i v Hv. destruct (omap (fun vs => nthZ vs i) vss) as [r|] eqn:Er; [|discriminate]. injection Hv as <-.
      destruct (omap_pick2 _ vss r js vss' Er Ejv) as (r' & E1 & E2). unfold row. rewrite E1. eexists. split; [reflexivity|].
      apply (select_row names keys js (zlen cs) r r'); [exact HF| |exact E2]. rewrite (omap_zlen _ _ _ Er). exact (omap_zlen _ _ _ Hc). }
    assert (G : forall is us, omap (fun i => option_map (mkrow names) (omap (fun vs => nthZ vs i) vss)) is = Some us -> exists ws, omap row is = Some ws /\ omap (select keys) us = Some ws).
    { induction is as [|i is IHi]; cbn [omap]; intros us Hu; [injection Hu as <-; exists []; split; reflexivity|].
      destruct (option_map _ _) as [v|] eqn:E1 in Hu; [|discriminate]. destruct (omap _ is) as [us'|] in Hu, IHi; [|discriminate]. injection Hu as <-.
      destruct (IHi _ eq_refl) as (ws & A1 & A2). destruct (HR _ _ E1) as (w & B1 & B2). exists (w :: ws). cbn [omap]. rewrite A1, B1, A2, B2. split; reflexivity. }
    destruct (G _ _ Hrow) as (ws & A1 & A2). eexists. exists ws. split; [reflexivity|]. split; [exact A2|]. cbn [den]. rewrite Ev, HK.
    destruct (Z.leb_spec 0 len); [|lia]. cbn [andb]. exact A1.
Qed.

(** ** fields of a selection of fields *)
From Verif Require Import PFillna PVirtual.
Lemma has_field_bare key f : has_field key (bare f) = has_field key f.
Proof. induction f; cbn [bare has_field]; auto. now rewrite zlen_map. Qed.
Lemma has_field_simplify key c c' : simplify_optiontype c = Ok c' -> has_field key (form_of c') = has_field key (form_of c).
Proof. intros E. rewrite <- has_field_bare, (bare_simplify _ _ E). apply has_field_bare. Qed.
Lemma mapres_len {A B} (f : A -> res B) l ys : mapres f l = Ok ys -> zlen ys = zlen l.
Proof. revert ys; induction l as [|x l IH]; cbn [mapres]; intros ys E; [injection E as <-; reflexivity|]. binv E. binv E. injection E as <-. rewrite !zlen_cons. f_equal. auto. Qed.
Lemma fields_has_field keys key c : forall c', getitem_fields keys c = Ok c' -> has_named (form_of c) = true -> In key keys -> has_field key (form_of c') = true.
Proof.
  intros c' E Hn Hin. revert c' E. induction c using content_ind'; intros c' E; cbn [form_of has_named] in Hn; try discriminate Hn; cbn [getitem_fields] in E.
  all: try (binv E; specialize (IHc Hn _ E0)).
  - unfold mkListA in E. repeat (destruct (_ <? _) in E; [discriminate|]). injection E as <-. exact IHc.
  - unfold mkListOffset in E. repeat (destruct (_ =? _) in E; [discriminate|]). injection E as <-. exact IHc.
  - unfold mkRegular in E. repeat (destruct (_ <? _) in E; [discriminate|]). injection E as <-. exact IHc.
  - rewrite (has_field_simplify _ _ _ E). exact IHc.
  - rewrite (has_field_simplify _ _ _ E). exact IHc.
  - binv E. rewrite (has_field_simplify _ _ _ E). unfold mkByteMasked in E1. destruct (_ <? _) in E1; [discriminate|]. injection E1 as <-. exact IHc.
  - binv E. rewrite (has_field_simplify _ _ _ E). unfold mkBitMasked in E1. repeat (destruct (_ <? _) in E1; [discriminate|]). injection E1 as <-. exact IHc.
  - rewrite (has_field_simplify _ _ _ E). exact IHc.
  - destruct keys0; [|discriminate]. binv E. injection E as <-. cbn [form_of has_field]. rewrite zlen_map, (mapres_len _ _ _ E0), Z.eqb_refl. cbn [andb].
    apply existsb_exists. exists key. split; [exact Hin|apply String.eqb_refl].
Qed.

Fixpoint named (v : value) : Prop :=
  match v with VNone => True | VList l => fold_right and True (map named l) | VRec _ => True | _ => False end.
Lemma named_list l : Forall named l -> named (VList l).
Proof. cbn [named]. induction 1; cbn [map fold_right]; auto. Qed.
Lemma F2_diag {A} (P : A -> Prop) l l' : Forall2 (fun x (_ : A) => P x) l l' -> Forall P l.
Proof. induction 1; constructor; auto. Qed.
Lemma F2_same {A} (P : A -> Prop) l : Forall P l -> Forall2 (fun x (_ : A) => P x) l l.
Proof. induction 1; constructor; auto. Qed.
Lemma den_named c : forall vs, has_named (form_of c) = true -> den c = Some vs -> Forall named vs.
Proof.
  pose (R := fun x (_ : value) => named x).
  assert (RL : forall l l', Forall2 R l l' -> R (VList l) (VList l')) by (intros l l' H; apply (F2_diag named) in H; apply named_list; exact H).
  assert (RN : R VNone VNone) by exact Logic.I.
  induction c using content_ind'; intros vs Hf Hd; cbn [form_of has_named] in Hf; try discriminate Hf.
  all: try (destruct (content_inv1 _ _ Hd) as [ws Hws]; cbn [below] in Hws; pose proof (F2_same named _ (IHc ws Hf Hws)) as HF; fold R in HF).
  - destruct (lista_lift R RL _ _ _ _ _ _ _ Hws Hws HF Hd) as (vs' & _ & G). exact (F2_diag named _ _ G).
  - destruct (listoffset_lift R RL _ _ _ _ _ _ Hws Hws HF Hd) as (vs' & _ & G). exact (F2_diag named _ _ G).
  - destruct (regular_lift R RL _ _ _ _ _ _ _ Hws Hws HF Hd) as (vs' & _ & G). exact (F2_diag named _ _ G).
  - destruct (indexed_lift R _ _ _ _ _ _ Hws Hws HF Hd) as (vs' & _ & G). exact (F2_diag named _ _ G).
  - destruct (indexedoption_lift R RN _ _ _ _ _ _ Hws Hws HF Hd) as (vs' & _ & G). exact (F2_diag named _ _ G).
  - destruct (bytemasked_lift R RN _ _ _ _ _ _ _ Hws Hws HF Hd) as (vs' & _ & G). exact (F2_diag named _ _ G).
  - destruct (bitmasked_lift R RN _ _ _ _ _ _ _ _ _ Hws Hws HF Hd) as (vs' & _ & G). exact (F2_diag named _ _ G).
  - change (den (Unmasked c)) with (den c) in Hd. auto.
  - destruct keys; [|discriminate]. destruct (record_cols _ _ _ _ Hd) as (vss & _ & _ & _ & _ & Hr). clear - Hr. revert vs Hr. induction (zseq 0 len) as [|i is IH]; cbn [omap]; intros vs Hr; [injection Hr as <-; constructor|].
    destruct (omap _ vss) as [r|]; [|discriminate]. cbn [option_map] in Hr. destruct (omap _ is); [|discriminate]. injection Hr as <-. constructor; [exact Logic.I|auto].
Qed.

Lemma proj_select keys key v : In key keys -> named v -> forall w, select keys v = Some w -> proj key w = proj key v.
Proof.
  intros Hin. induction v using value_ind'; cbn [named]; intros Hn w Hs; try contradiction; cbn [select] in Hs.
  - injection Hs as <-. reflexivity.
  - destruct (omap (select keys) l) as [l'|] eqn:El; [|discriminate]. injection Hs as <-. cbn [proj]. f_equal. revert l' El Hn. induction H as [|x l Hx _ IH]; cbn [omap map fold_right]; intros l' El Hn; [injection El as <-; reflexivity|].
    destruct (select keys x) as [y|] eqn:Ex; [|discriminate]. destruct (omap (select keys) l) as [t|]; [|discriminate]. injection El as <-. destruct Hn as [N1 N2]. cbn [omap]. rewrite (Hx N1 _ eq_refl), (IH _ eq_refl N2). reflexivity.
  - destruct (omap _ keys) as [fs'|] eqn:Ef; [|discriminate]. injection Hs as <-. clear H. revert fs' Ef. induction keys as [|k keys IH]; [destruct Hin|]. cbn [omap]. intros fs' Ef.
    destruct (proj k (VRec r)) as [x|] eqn:Ex; [|discriminate]. cbn [option_map] in Ef. destruct (omap _ keys) as [t|]; [|discriminate]. injection Ef as <-.
    cbn [proj find fst]. destruct (String.eqb_spec k key) as [->|Hne]; [cbn [option_map snd]; symmetry; exact Ex|]. destruct Hin as [->|Hin]; [contradiction|]. exact (IH Hin _ eq_refl).
Qed.
