(** Proofs about JSON: there and back. *)
From Coq Require Import String DecimalString DecimalNat DecimalFacts Decimal.
From Verif Require Import Base BaseLemmas OmapLemmas Content KCore Core KOption Option KReduce Merge Builder SpecArray SpecBuilder PCore PAt PValid PForm PFillna
  PBuilder PBuilderSpec Getitem Types SpecTypes PTypes PTypes2 Json SpecJson PJson.
Local Open Scope string_scope.
Local Open Scope list_scope.
Local Open Scope Z_scope.

(** ** The keys of tuples *)
Lemma zlen_decimals n : 0 <= n -> zlen (decimals n) = n.
Proof. intros H. unfold decimals. rewrite zlen_map, zlen_zseq by lia. lia. Qed.
Lemma decimal_inj a b : NilZero.string_of_uint (Nat.to_uint a) = NilZero.string_of_uint (Nat.to_uint b) -> a = b.
Proof.
  intros E. assert (HN : forall n, Nat.to_uint n <> Nil).
  { intros n H. pose proof (Unsigned.to_of (Nat.to_uint n)) as G. rewrite Unsigned.of_to in G. rewrite H in G. cbn in G. discriminate. }
  apply (f_equal NilZero.uint_of_string) in E. rewrite !NilZero.usu in E by apply HN. injection E as E. apply (f_equal Nat.of_uint) in E. now rewrite !Unsigned.of_to in E.
Qed.
Lemma NoDup_zseq a n : NoDup (zseq a n).
Proof.
  assert (G : forall k a, NoDup (zseq_nat a k) /\ forall x, In x (zseq_nat a k) -> a <= x).
  { induction k as [|k IH]; intros b; cbn [zseq_nat]; [split; [constructor|intros x []]|]. destruct (IH (b + 1)) as [H1 H2]. split; [constructor; [|exact H1]; intros Hin; apply H2 in Hin; lia|].
    intros x [<-|Hx]; [lia|apply H2 in Hx; lia]. }
  apply (G _ a).
Qed.
Lemma NoDup_decimals n : NoDup (decimals n).
Proof.
  unfold decimals. assert (H : forall l, NoDup l -> Forall (fun i => 0 <= i) l -> NoDup (map (fun i => NilZero.string_of_uint (Nat.to_uint (Z.to_nat i))) l)).
  { induction l as [|x l IH]; intros HN HF; [constructor|]. inversion HN; subst. inversion HF; subst. cbn [map]. constructor; [|auto]. intros Hin. apply in_map_iff in Hin. destruct Hin as (y & E & Hy).
    apply decimal_inj in E. rewrite Forall_forall in H4. specialize (H4 y Hy). assert (x = y) by lia. subst. contradiction. }
  apply H; [apply NoDup_zseq|]. apply Forall_forall. intros x Hx. apply In_zseq in Hx. lia.
Qed.

(** ** Columns of one type *)
Section Back.
Variables (isnan isinf signbit : Z -> bool) (quiet_nan infinity minus_infinity : Z).
Variable o : options.
Variable reread : Z -> Z.
Variable rc : Z -> Z.
Notation document := (document isnan isinf signbit o).
Notation showable := (showable isnan isinf signbit o).
Notation datum := (datum quiet_nan infinity minus_infinity o).
Notation covered_document := (covered_document quiet_nan infinity minus_infinity o).
Notation real_back := (real_back isnan isinf signbit quiet_nan infinity minus_infinity o reread).
Notation back := (back isnan isinf signbit quiet_nan infinity minus_infinity o reread).
Notation special := (special isnan isinf signbit o).
Notation named := (named quiet_nan infinity minus_infinity o).

Fixpoint again (d : json) : json :=
  match d with
  | JReal r => JReal (reread r)
  | JList l => JList (map again l)
  | JObject fs => JObject (map (fun f => (fst f, again (snd f))) fs)
  | d => d
  end.
Lemma again_text d : map (reread_token reread) (text d) = text (again d).
Proof.
  induction d using json_ind'; try reflexivity; cbn [text again map reread_token]; rewrite map_app; cbn [map reread_token]; f_equal; f_equal.
  - induction H as [|d l Hd _ IH]; [reflexivity|]. cbn [flat_map map]. now rewrite map_app, Hd, IH.
  - induction H as [|d l Hd _ IH]; [reflexivity|]. cbn [flat_map map fst snd]. rewrite map_app. cbn [map reread_token]. now rewrite Hd, IH.
Qed.
Lemma special_named r s : special r = Some s -> named s <> None.
Proof.
  unfold SpecJson.special, SpecJson.named. destruct (nan_string o) as [a|], (infinity_string o) as [b|], (minus_infinity_string o) as [c|]; destruct (isnan r), (isinf r), (signbit r); intros H; try discriminate; injection H as <-;
    rewrite ?String.eqb_refl; repeat (match goal with |- context [if ?x then _ else _] => destruct x end); discriminate.
Qed.

Fixpoint ent (v : value) : entry :=
  match v with
  | VNone => ENull
  | VBool b => EBool b
  | VInt z => EInt z
  | VReal r => EReal (real_back r)
  | VList l => EList (map ent l)
  | VTuple l => ERecord (combine (decimals (zlen l)) (map (fun v => [ent v]) l))
  | VRec fs => ERecord (map (fun f => (fst f, [ent (snd f)])) fs)
  end.
Lemma map_combine {A B C} (f : B -> C) (ks : list A) l : map (fun x => (fst x, f (snd x))) (combine ks l) = combine ks (map f l).
Proof. revert l; induction ks as [|k ks IH]; intros [|x l]; cbn; [reflexivity..|]. now rewrite IH. Qed.
Lemma ent_datum v : datum (again (document v)) = ent v.
Proof.
  induction v as [z|b|r| |l IH|fs IH|l IH] using value_ind'; cbn [SpecJson.document again SpecJson.datum ent]; try reflexivity.
  - unfold real_document, SpecJson.real_back. destruct (special r); reflexivity.
  - rewrite !map_map. f_equal. apply map_ext_Forall. exact IH.
  - rewrite !map_map. f_equal. apply map_ext_Forall. eapply Forall_impl; [|exact IH]. cbn. intros f ->. reflexivity.
  - rewrite map_combine. rewrite map_map. rewrite (map_combine (fun d => [datum d])). rewrite map_map. f_equal. f_equal. apply map_ext_Forall. eapply Forall_impl; [|exact IH]. cbn. intros v ->. reflexivity.
Qed.
Lemma covered_back v : showable v -> covered_document (again (document v)).
Proof.
  induction v as [z|b|r| |l IH|fs IH|l IH] using value_ind'; cbn [SpecJson.document again SpecJson.covered_document SpecJson.showable]; intros H; try exact H; try exact I.
  - unfold real_document. destruct (special r) as [s|] eqn:E; [|exact I]. cbn. eapply special_named. exact E.
  - apply fold_and in H. apply fold_and. rewrite !Forall_map. rewrite Forall_forall in *. intros x Hx. apply IH; auto.
  - apply (fold_and (fun f => showable (snd f))) in H. apply (fold_and (fun f : string * json => covered_document (snd f))). rewrite !Forall_map. rewrite Forall_forall in *. intros x Hx. apply IH; auto.
  - apply fold_and in H. apply (fold_and (fun f : string * json => covered_document (snd f))). rewrite map_combine, map_map. apply Forall_forall. intros [k d] Hin. apply in_combine_r in Hin.
    apply in_map_iff in Hin. destruct Hin as (x & <- & Hx). rewrite Forall_forall in *. apply IH; auto.
Qed.
Lemma map_fst_combine {A B} (ks : list A) (l : list B) : zlen ks = zlen l -> map fst (combine ks l) = ks.
Proof.
  revert l; induction ks as [|k ks IH]; intros [|x l] H; [reflexivity|reflexivity| |].
  - rewrite zlen_cons in H. change (zlen (@nil B)) with 0 in H. pose proof (zlen_nonneg ks). lia.
  - rewrite !zlen_cons in H. cbn. rewrite IH by lia. reflexivity.
Qed.
Definition names (keys : option (list string)) (n : Z) : list string := match keys with Some ks => ks | None => decimals n end.
Lemma names_ok keys n : keys_ok keys n = true -> 0 <= n -> match keys with Some ks => NoDup ks | None => True end -> zlen (names keys n) = n /\ NoDup (names keys n).
Proof. destruct keys as [ks|]; cbn; intros H H0 HN; [split; [lia|exact HN]|]. split; [apply zlen_decimals; exact H0|apply NoDup_decimals]. Qed.
Lemma ent_row keys row : ent (mkrow keys row) = ERecord (combine (names keys (zlen row)) (map (fun v => [ent v]) row)).
Proof. destruct keys as [ks|]; cbn [mkrow ent names]; [|reflexivity]. now rewrite (map_combine (fun v => [ent v])). Qed.
Lemma back_row keys row : back (mkrow keys row) = VRec (combine (names keys (zlen row)) (map back row)).
Proof. destruct keys as [ks|]; cbn [mkrow SpecJson.back names]; [|reflexivity]. now rewrite (map_combine back). Qed.
Lemma once_back t v : faithful t -> has_type t v -> keys_once (again (document v)).
Proof.
  revert v. induction t using ty_ind'; intros v Hf Hv.
  - contradiction.
  - destruct dt, v; try contradiction; cbn; try exact I. unfold real_document. match goal with |- context [special ?x] => destruct (special x) end; exact I.
  - destruct Hv as (l & -> & Hl). cbn [SpecJson.document again keys_once]. apply fold_and. rewrite !Forall_map. eapply Forall_impl; [|exact Hl]. intros x Hx. apply IHt; assumption.
  - destruct Hv as (l & -> & _ & Hl). cbn [SpecJson.document again keys_once]. apply fold_and. rewrite !Forall_map. eapply Forall_impl; [|exact Hl]. intros x Hx. apply IHt; assumption.
  - destruct Hv as [->|Hv]; [exact I|]. apply IHt; assumption.
  - destruct Hv as (row & -> & Hk & Hr). cbn [faithful] in Hf. destruct Hf as [HN Hf]. apply fold_and in Hf. apply row_of_In in Hr. destruct Hr as [HL Hr].
    destruct (names_ok keys (zlen ts) Hk (zlen_nonneg _) HN) as [NL ND].
    assert (E : again (document (mkrow keys row)) = JObject (combine (names keys (zlen row)) (map (fun v => again (document v)) row))).
    { destruct keys as [ks|]; cbn [mkrow SpecJson.document again names]; [|now rewrite map_combine, map_map]. rewrite map_map. cbn [fst snd]. now rewrite (map_combine (fun v => again (document v))). }
    rewrite E. cbn [keys_once]. rewrite HL. split; [rewrite map_fst_combine by (rewrite zlen_map; lia); exact ND|]. apply (fold_and (fun f : string * json => keys_once (snd f))). apply Forall_forall.
    intros [k d] Hin. apply in_combine_r in Hin. apply in_map_iff in Hin. destruct Hin as (x & <- & Hx). destruct (In_nthZ _ _ Hx) as [j Ej]. pose proof (nthZ_Some _ _ _ Ej). destruct (nthZ_lt ts j) as [t Et]; [lia|].
    rewrite Forall_forall in H, Hf. cbn [snd]. eapply H; [eapply nthZ_In; exact Et|apply Hf; eapply nthZ_In; exact Et|eapply Hr; eassumption].
  - contradiction.
Qed.

(** parts of columns *)
Definition vitems (v : value) : list value := match v with VList l => l | _ => [] end.
Definition vfields (v : value) : list (string * value) := match v with VRec fs => fs | VTuple l => combine (decimals (zlen l)) l | _ => [] end.
Definition at_key (k : string) (v : value) : list value := flat_map (fun f => if String.eqb (fst f) k then [snd f] else []) (vfields v).
Lemma items_ent vs : items_of (map ent vs) = map ent (flat_map vitems vs).
Proof. unfold items_of. induction vs as [|v vs IH]; [reflexivity|]. cbn [map flat_map]. rewrite map_app, IH. destruct v; reflexivity. Qed.
Lemma field_ent k vs : field_of k (map ent vs) = map ent (flat_map (at_key k) vs).
Proof.
  assert (G : forall fs : list (string * value), filled String.eqb k (map (fun f => (fst f, [ent (snd f)])) fs) = map ent (flat_map (fun f => if String.eqb (fst f) k then [snd f] else []) fs)).
  { induction fs as [|f fs IH]; [reflexivity|]. cbn [map filled flat_map fst snd]. rewrite map_app. unfold filled in IH. rewrite IH. destruct (fst f =? k)%string; reflexivity. }
  unfold field_of. induction vs as [|v vs IH]; [reflexivity|]. cbn [map flat_map]. rewrite map_app, IH. f_equal. unfold at_key. destruct v; cbn [ent vfields]; try reflexivity; [apply G|].
  rewrite <- (map_combine (fun v => [ent v])). apply G.
Qed.
Lemma keys_ent vs : keys_of (map ent vs) = distinct (flat_map (fun v => map fst (vfields v)) vs).
Proof.
  unfold keys_of. f_equal. induction vs as [|v vs IH]; [reflexivity|]. cbn [map flat_map]. rewrite IH. f_equal. destruct v; cbn [ent vfields]; try reflexivity; [now rewrite map_map|].
  rewrite !map_fst_combine; [reflexivity| |]; rewrite ?zlen_map, zlen_decimals by apply zlen_nonneg; reflexivity.
Qed.
Definition add_key (acc : list string) (k : string) : list string := if existsb (String.eqb k) acc then acc else acc ++ [k].
Lemma add_all ks : forall acc, NoDup (acc ++ ks) -> fold_left add_key ks acc = acc ++ ks.
Proof.
  induction ks as [|k ks IH]; intros acc H; cbn [fold_left]; [now rewrite app_nil_r|]. unfold add_key at 2. destruct (existsb (String.eqb k) acc) eqn:E.
  - apply existsb_exists in E. destruct E as (k' & Hk & E). apply String.eqb_eq in E. subst k'. apply NoDup_remove_2 in H. exfalso. apply H. apply in_or_app. auto.
  - rewrite IH; rewrite <- app_assoc; [reflexivity|exact H].
Qed.
Lemma add_none ks acc : incl ks acc -> fold_left add_key ks acc = acc.
Proof.
  induction ks as [|k ks IH]; intros H; cbn [fold_left]; [reflexivity|]. unfold add_key at 2. replace (existsb (String.eqb k) acc) with true; [apply IH; intros x Hx; apply H; right; exact Hx|].
  symmetry. apply existsb_exists. exists k. split; [apply H; left; reflexivity|apply String.eqb_refl].
Qed.
Lemma distinct_same K ls : NoDup K -> Forall (fun l => l = [] \/ l = K) ls -> In K ls -> distinct (concat ls) = K.
Proof.
  intros HN HF Hin. change (distinct (concat ls)) with (fold_left add_key (concat ls) []).
  assert (G : forall ls acc, Forall (fun l => l = [] \/ l = K) ls -> acc = [] \/ acc = K -> (acc = K \/ In K ls) -> fold_left add_key (concat ls) acc = K).
  { clear ls HF Hin. induction ls as [|l ls IH]; intros acc HF Ha Hin; cbn [concat]; [destruct Hin as [->|[]]; reflexivity|]. rewrite fold_left_app. inversion HF; subst.
    assert (E : acc = K /\ fold_left add_key l acc = K \/ acc = [] /\ fold_left add_key l acc = l).
    { destruct Ha as [->| ->].
      - destruct H1 as [->| ->]; [right; auto|]. right. split; [reflexivity|]. apply (add_all K []). exact HN.
      - left. split; [reflexivity|]. apply add_none. destruct H1 as [->| ->]; [intros x []|apply incl_refl]. }
    destruct E as [[-> ->]|[-> ->]].
    - apply IH; auto.
    - apply IH; [assumption|exact H1|]. destruct Hin as [<-|[Hl|Hin]]; [|left; exact Hl|right; exact Hin]. destruct H1 as [->| ->]; auto. }
  apply G; auto.
Qed.
Lemma at_key_nth K (row : list value) j k v : NoDup K -> zlen K = zlen row -> nthZ K j = Some k -> nthZ row j = Some v ->
  flat_map (fun f : string * value => if String.eqb (fst f) k then [snd f] else []) (combine K row) = [v].
Proof.
  revert row j; induction K as [|a K IH]; intros [|b row] j HN HL Ek Ev; try (rewrite nthZ_nil in *; discriminate). rewrite !zlen_cons in HL. inversion HN; subst.
  rewrite nthZ_cons in Ek. rewrite nthZ_cons in Ev. cbn [combine flat_map fst snd]. destruct (Z.eqb_spec j 0).
  - injection Ek as <-. injection Ev as <-. rewrite String.eqb_refl. cbn [app]. f_equal. clear -H1. revert row; induction K as [|k K IH]; intros [|v row]; try reflexivity. cbn [combine flat_map fst snd].
    destruct (String.eqb_spec k a) as [->|]; [exfalso; apply H1; left; reflexivity|]. cbn [app]. apply IH. intros Hin. apply H1. right. exact Hin.
  - destruct (String.eqb_spec a k) as [->|]; [exfalso; apply H1; eapply nthZ_In; exact Ek|]. cbn [app]. eapply IH; try eassumption. lia.
Qed.
Lemma filled_nth {A B} (g : string -> A -> B) K (row : list A) j k v : NoDup K -> zlen K = zlen row -> nthZ K j = Some k -> nthZ row j = Some v ->
  flat_map (fun f : string * A => if String.eqb (fst f) k then [g (fst f) (snd f)] else []) (combine K row) = [g k v].
Proof.
  revert row j; induction K as [|a K IH]; intros [|b row] j HN HL Ek Ev; try (rewrite nthZ_nil in *; discriminate). rewrite !zlen_cons in HL. inversion HN; subst.
  rewrite nthZ_cons in Ek. rewrite nthZ_cons in Ev. cbn [combine flat_map fst snd]. destruct (Z.eqb_spec j 0).
  - injection Ek as <-. injection Ev as <-. rewrite String.eqb_refl. cbn [app]. f_equal. clear -H1. revert row; induction K as [|k K IH]; intros [|v row]; try reflexivity. cbn [combine flat_map fst snd].
    destruct (String.eqb_spec k a) as [->|]; [exfalso; apply H1; left; reflexivity|]. cbn [app]. apply IH. intros Hin. apply H1. right. exact Hin.
  - destruct (String.eqb_spec a k) as [->|]; [exfalso; apply H1; eapply nthZ_In; exact Ek|]. cbn [app]. eapply IH; try eassumption. lia.
Qed.
Lemma vfields_row keys row : vfields (mkrow keys row) = combine (names keys (zlen row)) row.
Proof. destruct keys; reflexivity. Qed.

Definition maybe (t : ty) (v : value) : Prop := v = VNone \/ has_type t v.
Lemma column t : faithful t -> forall vs, Forall (maybe t) vs -> forall v, In v vs -> value_of rc (map ent vs) (ent v) = back v.
Proof.
  induction t using ty_ind'; intros Hf vs Hvs v Hin; pose proof Hvs as Hall; rewrite Forall_forall in Hvs; destruct (Hvs v Hin) as [->|Hv]; try reflexivity.
  - contradiction.
  - destruct dt, v; try contradiction; try reflexivity. cbn [ent value_of SpecJson.back]. replace (has_real (map ent vs)) with false; [reflexivity|]. symmetry. unfold has_real.
    apply not_true_is_false. intros HE. apply existsb_exists in HE. destruct HE as (e & He & Hr). apply in_map_iff in He. destruct He as (w & <- & Hw). destruct (Hvs w Hw) as [->|Hw']; [discriminate|]. destruct w; try contradiction; discriminate.
  - destruct Hv as (l & -> & Hl). cbn [ent value_of SpecJson.back]. rewrite items_ent, map_map. f_equal. apply map_ext_in. intros x Hx. apply (IHt Hf); [|apply in_flat_map; exists (VList l); auto].
    apply Forall_forall. intros y Hy. apply in_flat_map in Hy. destruct Hy as (w & Hw & Hy). destruct (Hvs w Hw) as [->|(l' & -> & Hl')]; [destruct Hy|]. right. rewrite Forall_forall in Hl'. apply Hl'. exact Hy.
  - destruct Hv as (l & -> & _ & Hl). cbn [ent value_of SpecJson.back]. rewrite items_ent, map_map. f_equal. apply map_ext_in. intros x Hx. apply (IHt Hf); [|apply in_flat_map; exists (VList l); auto].
    apply Forall_forall. intros y Hy. apply in_flat_map in Hy. destruct Hy as (w & Hw & Hy). destruct (Hvs w Hw) as [->|(l' & -> & _ & Hl')]; [destruct Hy|]. right. rewrite Forall_forall in Hl'. apply Hl'. exact Hy.
  - apply (IHt Hf); [|exact Hin]. eapply Forall_impl; [|exact Hall]. intros w [->|[->|Hw]]; [left; reflexivity|left; reflexivity|right; exact Hw].
  - destruct Hv as (row & -> & Hk & Hr). cbn [faithful] in Hf. destruct Hf as [HN Hf]. apply fold_and in Hf. apply row_of_In in Hr. destruct Hr as [HL Hr].
    destruct (names_ok keys (zlen ts) Hk (zlen_nonneg _) HN) as [NL ND]. rewrite ent_row, back_row, HL. set (K := names keys (zlen ts)) in *.
    assert (HRow : forall w, In w vs -> w = VNone \/ exists row', w = mkrow keys row' /\ zlen row' = zlen ts /\ forall i t v, nthZ ts i = Some t -> nthZ row' i = Some v -> has_type t v).
    { intros w Hw. destruct (Hvs w Hw) as [->|(row' & -> & _ & Hr')]; [left; reflexivity|]. right. exists row'. split; [reflexivity|]. apply row_of_In in Hr'. exact Hr'. }
    assert (EK : keys_of (map ent vs) = K).
    { rewrite keys_ent, flat_map_concat_map. apply distinct_same; [exact ND| |].
      - rewrite Forall_map. apply Forall_forall. intros w Hw. destruct (HRow w Hw) as [->|(row' & -> & HL' & _)]; [left; reflexivity|]. right. rewrite vfields_row, HL'. fold K; apply map_fst_combine; lia.
      - apply in_map_iff. exists (mkrow keys row). split; [|exact Hin]. rewrite vfields_row, HL. fold K; apply map_fst_combine; lia. }
    assert (EF : forall j k v, nthZ K j = Some k -> nthZ row j = Some v -> value_of rc (field_of k (map ent vs)) (ent v) = back v).
    { intros j k v Ek Ev. rewrite field_ent. pose proof (nthZ_Some _ _ _ Ek). destruct (nthZ_lt ts j) as [t Et]; [lia|]. rewrite Forall_forall in H, Hf.
      apply (H t (nthZ_In _ _ _ Et) (Hf t (nthZ_In _ _ _ Et))).
      - apply Forall_forall. intros x Hx. apply in_flat_map in Hx. destruct Hx as (w & Hw & Hx). destruct (HRow w Hw) as [->|(row' & -> & HL' & Hr')]; [destruct Hx|]. unfold at_key in Hx. rewrite vfields_row, HL' in Hx. fold K in Hx.
        destruct (nthZ_lt row' j) as [v' Ev']; [lia|]. rewrite (at_key_nth K row' j k v' ND ltac:(lia) Ek Ev') in Hx. destruct Hx as [<-|[]]. right. eapply Hr'; eassumption.
      - apply in_flat_map. exists (mkrow keys row). split; [exact Hin|]. unfold at_key. rewrite vfields_row, HL. fold K. rewrite (at_key_nth K row j k v ND ltac:(lia) Ek Ev). left. reflexivity. }
    cbn [value_of]. rewrite EK. f_equal. apply list_eqZ.
    + rewrite zlen_map, zlen_combine by (rewrite zlen_map; lia). reflexivity.
    + intros j. rewrite nthZ_map, nthZ_combine, nthZ_map. destruct (nthZ K j) as [k|] eqn:Ek; [|reflexivity]. pose proof (nthZ_Some _ _ _ Ek). destruct (nthZ_lt row j) as [v Ev]; [lia|]. rewrite Ev. cbn [option_map]. do 2 f_equal.
      assert (EG : filled String.eqb k (map (fun f : string * list entry => (fst f, map (value_of rc (field_of (fst f) (map ent vs))) (snd f))) (combine K (map (fun v => [ent v]) row))) = [back v]).
      { rewrite <- (map_combine (fun v => [ent v])). rewrite map_map. cbn [fst snd map]. unfold filled. rewrite flat_map_concat_map, map_map. cbn [fst snd]. rewrite <- flat_map_concat_map.
        rewrite <- (EF j k v Ek Ev). apply (filled_nth (fun k v => value_of rc (field_of k (map ent vs)) (ent v)) K row j k v ND); [lia|exact Ek|exact Ev]. }
      rewrite EG. reflexivity.
  - contradiction.
Qed.

(** ** There and back *)
Variable refeq : content -> content -> bool.
Hypothesis Hrefeq : forall a b, refeq a b = true -> a = b.
Lemma round_trip fuel fuel' c vs : den c = Some vs -> faithful (type_of c) -> Forall showable vs -> (vdepths vs < fuel)%nat ->
  exists ts it, tojson isnan isinf signbit fuel o c = Ok ts /\
    do_parse quiet_nan infinity minus_infinity rc refeq (S fuel') o [map (reread_token reread) ts] White = Ok it /\
    item_den it = Some (VList (map back vs)).
Proof.
  intros Hd Hf Hs Hv. exists (text (document (VList vs))). pose proof (den_typed _ _ Hd) as HT.
  destruct (parse_ok quiet_nan infinity minus_infinity o rc refeq Hrefeq fuel' [again (document (VList vs))]) as (it & E1 & E2).
  - constructor; [|constructor]. apply covered_back. cbn [SpecJson.showable]. apply fold_and. exact Hs.
  - constructor; [|constructor]. apply (once_back (YList (type_of c))); [exact Hf|]. exists vs. auto.
  - exists it. split; [apply tojson_text; assumption|]. cbn [map] in E1. rewrite again_text. split; [exact E1|]. rewrite E2. cbn [map]. rewrite ent_datum. unfold values. cbn [map ent value_of]. f_equal. f_equal.
    rewrite map_map. apply map_ext_in. intros v Hin. cbn [items_of flat_map]. rewrite app_nil_r. apply (column (type_of c) Hf); [|exact Hin]. eapply Forall_impl; [|exact HT]. intros w Hw. right. exact Hw.
Qed.
End Back.
