(** ArrayBuilder: what a snapshot shows. *)
From Coq Require Import String.
From Verif Require Import Base BaseLemmas OmapLemmas LoopLemmas Content SpecArray SpecForm SpecMerge KCore Core KOption Option KMerge Merge
  PCore PCarry PAxis PPromote PMergeK PMerge Builder SpecBuilder PBuilder PBuilderStep PBuilderTuple PBuilderRecord PBuilderUnion PBuilderMerge.
Local Open Scope string_scope.
Local Open Scope list_scope.
Local Open Scope Z_scope.

(** ** what a value depends on *)
Lemma filter_filter {A} (p q : A -> bool) l : (forall x, p x = true -> q x = true) -> filter p (filter q l) = filter p l.
Proof.
  intros H. induction l as [|x l IH]; [reflexivity|]. cbn. destruct (q x) eqn:Q; cbn; [now rewrite IH|].
  destruct (p x) eqn:P; [apply H in P; congruence|exact IH].
Qed.
Lemma flat_map_filter {A B} (g : A -> list B) (p : A -> bool) l : (forall x, p x = false -> g x = []) -> flat_map g (filter p l) = flat_map g l.
Proof. intros H. induction l as [|x l IH]; [reflexivity|]. cbn. destruct (p x) eqn:P; cbn; rewrite IH; [reflexivity|]. now rewrite (H _ P). Qed.
Lemma existsb_filter {A} (g p : A -> bool) l : (forall x, p x = false -> g x = false) -> existsb g (filter p l) = existsb g l.
Proof. intros H. induction l as [|x l IH]; [reflexivity|]. cbn. destruct (p x) eqn:P; cbn; rewrite IH; [reflexivity|]. now rewrite (H _ P). Qed.
Lemma items_kind col : items_of col = items_of (filter (has_kind KList) col).
Proof. symmetry. apply flat_map_filter. now intros []. Qed.
Lemma slot_kind n i col : slot_of n i col = slot_of n i (filter (has_kind (KTuple n)) col).
Proof. symmetry. apply flat_map_filter. intros []; try reflexivity. cbn. intros H. now rewrite H. Qed.
Lemma field_kind k col : field_of k col = field_of k (filter (has_kind KRecord) col).
Proof. symmetry. apply flat_map_filter. now intros []. Qed.
Lemma keys_kind col : keys_of col = keys_of (filter (has_kind KRecord) col).
Proof. unfold keys_of. f_equal. symmetry. apply flat_map_filter. now intros []. Qed.

Section Snap.
Variable rc : Z -> Z.
Notation value_of := (value_of rc).

Definition alike (e : entry) (col col' : list entry) : Prop :=
  match ekind e with
  | None | Some KBool | Some KReal => True
  | Some KInt => has_real col = has_real col'
  | Some kd => filter (has_kind kd) col = filter (has_kind kd) col'
  end.
Lemma value_ext e col col' : alike e col col' -> value_of col e = value_of col' e.
Proof.
  unfold alike. destruct e; cbn [ekind SpecBuilder.value_of]; intros H; try reflexivity.
  - now rewrite H.
  - now rewrite (items_kind col), (items_kind col'), H.
  - f_equal. assert (E : forall i, slot_of n i col = slot_of n i col') by (intros i; now rewrite (slot_kind n i col), (slot_kind n i col'), H).
    apply map_ext. intros i. f_equal. f_equal. apply map_ext. intros f. now rewrite E.
  - assert (E : forall i, field_of i col = field_of i col') by (intros i; now rewrite (field_kind i col), (field_kind i col'), H).
    rewrite (keys_kind col), (keys_kind col'), H. f_equal. apply map_ext. intros k. f_equal. f_equal. f_equal. apply map_ext. intros f. now rewrite E.
Qed.
Lemma alike_nonnull e col col' : filter nonnull col = filter nonnull col' -> alike e col col'.
Proof.
  intros H.
  assert (HF : forall kd, filter (has_kind kd) col = filter (has_kind kd) col').
  { intros kd. assert (HP : forall x, has_kind kd x = true -> nonnull x = true) by (intros []; cbn; (discriminate || reflexivity)).
    rewrite <- (filter_filter _ nonnull col HP), <- (filter_filter _ nonnull col' HP), H. reflexivity. }
  unfold alike. destruct (ekind e) as [[]|]; auto. unfold has_real.
  rewrite <- (existsb_filter _ nonnull col), <- (existsb_filter _ nonnull col'), H; [reflexivity| |]; now intros [].
Qed.
Lemma value_nonnull e col col' : filter nonnull col = filter nonnull col' -> value_of col e = value_of col' e.
Proof. intros H. apply value_ext. now apply alike_nonnull. Qed.
Lemma filter_twice {A} (p : A -> bool) l : filter p (filter p l) = filter p l.
Proof. now apply filter_filter. Qed.

(** ** rows of tuples and records *)
Section Rows.
Context {K : Type} (eqb : K -> K -> bool).
Hypothesis Heqb : forall a b, eqb a b = true <-> a = b.
Lemma filled_map (g : K -> list entry -> list value) k (row : list (K * list entry)) : (forall k a b, g k (a ++ b) = g k a ++ g k b) -> (forall k, g k [] = []) ->
  filled eqb k (map (fun f => (fst f, g (fst f) (snd f))) row) = g k (filled eqb k row).
Proof.
  intros Hg Hn. induction row as [|f row IH]; cbn; [now rewrite Hn|]. fold (filled eqb k row). fold (filled eqb k (map (fun f => (fst f, g (fst f) (snd f))) row)). rewrite IH. destruct (eqb (fst f) k) eqn:E.
  - apply Heqb in E. rewrite Hg. now rewrite E.
  - reflexivity.
Qed.
Lemma cells_nonnull k rows col : Forall2 (cell eqb k) rows col -> filter nonnull col = filter nonnull (flat_map (filled eqb k) rows).
Proof. induction 1 as [|row e rows col H F IH]; [reflexivity|]. cbn [flat_map filter]. rewrite filter_app, <- IH. destruct H as [->|[-> ->]]; [|reflexivity]. cbn. destruct (nonnull e); reflexivity. Qed.

Variable inner : K -> list entry.
Definition rowvals (row : list (K * list entry)) := map (fun f => (fst f, map (value_of (inner (fst f))) (snd f))) row.
Lemma rows_at keys rows vss i row : zlen vss = zlen keys ->
  (forall j k vsj, nthZ keys j = Some k -> nthZ vss j = Some vsj -> exists colj, Forall2 (cell eqb k) rows colj /\ forall i e, nthZ colj i = Some e -> nthZ vsj i = Some (value_of (inner k) e)) ->
  nthZ rows i = Some row -> omap (fun vs => nthZ vs i) vss = Some (map (fun k => one (filled eqb k (rowvals row))) keys).
Proof.
  intros Hl H Hi. apply omap_intro; [rewrite zlen_map; lia|]. intros j vsj Hj. destruct (nthZ_lt keys j) as [k Hk]; [apply nthZ_Some in Hj; lia|]. rewrite nthZ_map, Hk. cbn [option_map].
  destruct (H _ _ _ Hk Hj) as (colj & F & HV). destruct (F2_nthZ _ _ _ _ _ F Hi) as (e & He & Hc). rewrite (HV _ _ He). f_equal. unfold rowvals.
  rewrite (filled_map (fun k l => map (value_of (inner k)) l)); [|intros; apply map_app|reflexivity]. destruct Hc as [->|[-> ->]]; reflexivity.
Qed.
End Rows.

Lemma snap_all (P : Z -> content -> Prop) (s : builder -> res content) cs : (forall j c, nthZ cs j = Some c -> exists c', s c = Ok c' /\ P j c') ->
  exists cs', mapres s cs = Ok cs' /\ zlen cs' = zlen cs /\ forall j c', nthZ cs' j = Some c' -> P j c'.
Proof.
  revert P. induction cs as [|c cs IH]; intros P H; cbn [mapres].
  - exists []. split; [reflexivity|]. split; [reflexivity|]. intros j c' Hj. now rewrite nthZ_nil in Hj.
  - destruct (H 0 c) as (c' & E & HP); [reflexivity|]. rewrite E. cbn [bind]. destruct (IH (fun j => P (j + 1))) as (cs' & E' & L & HP').
    { intros j c0 Hj. apply H. rewrite nthZ_cons. apply nthZ_Some in Hj as Hr. destruct (Z.eqb_spec (j + 1) 0); [lia|]. now replace (j + 1 - 1) with j by lia. }
    rewrite E'. cbn [bind]. exists (c' :: cs'). split; [reflexivity|]. split; [rewrite !zlen_cons; lia|].
    intros j c0. rewrite nthZ_cons. destruct (Z.eqb_spec j 0) as [->|]; [now intros [= <-]|]. intros Hj. specialize (HP' _ _ Hj). now replace (j - 1 + 1) with j in HP' by lia.
Qed.
Lemma dens_of (P : Z -> list value -> Prop) cs : (forall j c, nthZ cs j = Some c -> exists vs, den c = Some vs /\ P j vs) ->
  exists vss, dens cs vss /\ forall j vs, nthZ vss j = Some vs -> P j vs.
Proof.
  revert P. induction cs as [|c cs IH]; intros P H.
  - exists []. split; [constructor|]. intros j vs Hj. now rewrite nthZ_nil in Hj.
  - destruct (H 0 c) as (v & E & HP); [reflexivity|]. destruct (IH (fun j => P (j + 1))) as (vss & D & HP').
    { intros j c0 Hj. apply H. rewrite nthZ_cons. apply nthZ_Some in Hj as Hr. destruct (Z.eqb_spec (j + 1) 0); [lia|]. now replace (j + 1 - 1) with j by lia. }
    exists (v :: vss). split; [now constructor|]. intros j c0. rewrite nthZ_cons. destruct (Z.eqb_spec j 0) as [->|]; [now intros [= <-]|]. intros Hj. specialize (HP' _ _ Hj). now replace (j - 1 + 1) with j in HP' by lia.
Qed.

(** the record node made of the columns *)
Lemma record_den {K} (eqb : K -> K -> bool) (Heqb : forall a b, eqb a b = true <-> a = b) (inner : K -> list entry) (okeys : option (list string)) (keys : list K) rows cs (mk : list (K * list entry) -> value) :
  zlen cs = zlen keys -> keys_ok okeys (zlen cs) = true ->
  (forall j k c, nthZ keys j = Some k -> nthZ cs j = Some c -> exists vsj, den c = Some vsj /\ exists colj, Forall2 (cell eqb k) rows colj /\ forall i e, nthZ colj i = Some e -> nthZ vsj i = Some (value_of (inner k) e)) ->
  (forall row, mk row = mkrow okeys (map (fun k => one (filled eqb k (rowvals inner row))) keys)) ->
  den (Record okeys (zlen rows) cs) = Some (map mk rows).
Proof.
  intros Hl Hk H Hmk. cbn [den].
  destruct (dens_of (fun j vsj => forall k, nthZ keys j = Some k -> exists colj, Forall2 (cell eqb k) rows colj /\ forall i e, nthZ colj i = Some e -> nthZ vsj i = Some (value_of (inner k) e)) cs) as (vss & D & HP).
  { intros j c Hj. destruct (nthZ_lt keys j) as [k Ek]; [apply nthZ_Some in Hj; lia|]. destruct (H _ _ _ Ek Hj) as (vsj & E & HH). exists vsj. split; [exact E|]. intros k0 Hk0. rewrite Ek in Hk0. now injection Hk0 as <-. }
  pose proof (F2_zlen _ _ _ D) as HL. rewrite (proj1 (dens_omap _ _) D). rewrite Hk. pose proof (zlen_nonneg rows). destruct (Z.leb_spec 0 (zlen rows)); [|lia]. cbn [andb].
  apply omap_intro; [rewrite zlen_map, zlen_zseq by lia; lia|]. intros i x Hx. pose proof (nthZ_Some _ _ _ Hx) as Hi. rewrite zlen_zseq in Hi by lia. rewrite nthZ_zseq in Hx by lia. injection Hx as <-. rewrite Z.add_0_l.
  destruct (nthZ_lt rows i) as [row Hrow]; [lia|]. rewrite nthZ_map, Hrow. cbn [option_map]. rewrite Hmk.
  rewrite (rows_at eqb Heqb inner keys rows vss i row); [reflexivity|lia| |exact Hrow]. intros j k vsj Ha Hb. eapply HP; eauto.
Qed.

(** lists *)
Lemma lists_den (g : entry -> value) parts : forall (pre post : list value),
  omap (fun ab => sublist (pre ++ map g (concat parts) ++ post) (fst ab) (snd ab)) (pairs (bounds_from (zlen pre) parts)) = Some (map (fun p => VList (map g p)) parts).
Proof.
  induction parts as [|p parts IH]; intros pre post; [reflexivity|].
  change (bounds_from (zlen pre) (p :: parts)) with (zlen pre :: bounds_from (zlen pre + zlen p) parts).
  assert (E : pairs (zlen pre :: bounds_from (zlen pre + zlen p) parts) = (zlen pre, zlen pre + zlen p) :: pairs (bounds_from (zlen pre + zlen p) parts)) by reflexivity.
  rewrite E. cbn [omap fst snd concat map]. rewrite map_app.
  assert (ES : sublist (pre ++ (map g p ++ map g (concat parts)) ++ post) (zlen pre) (zlen pre + zlen p) = Some (VList (map g p))).
  { pose proof (zlen_nonneg pre). pose proof (zlen_nonneg p). unfold sublist. destruct (Z.eqb_spec (zlen pre) (zlen pre + zlen p)).
    - assert (p = []) as -> by (apply zlen_0; lia). reflexivity.
    - rewrite !zlen_app, zlen_map. pose proof (zlen_nonneg (map g (concat parts))). pose proof (zlen_nonneg post).
      destruct (Z.leb_spec 0 (zlen pre)); [|lia]. destruct (Z.leb_spec (zlen pre) (zlen pre + zlen p)); [|lia]. destruct (Z.leb_spec (zlen pre + zlen p) (zlen pre + (zlen p + zlen (map g (concat parts)) + zlen post))); [|lia]. cbn [andb].
      do 2 f_equal. rewrite <- app_assoc. replace (zlen p) with (zlen (map g p)) by apply zlen_map. rewrite slice_app_shift by lia. rewrite Z.sub_diag. replace (zlen pre + zlen (map g p) - zlen pre) with (zlen (map g p)) by lia. apply slice_app. }
  rewrite ES. specialize (IH (pre ++ map g p) post). rewrite zlen_app, zlen_map in IH. rewrite <- !app_assoc in IH. rewrite <- app_assoc. rewrite IH. reflexivity.
Qed.

Variable sizes : list Z.
Hypothesis Hsizes : zlen sizes <= 122.
Notation holds := (holds rc sizes).
Variable refeq : content -> content -> bool.
Hypothesis Hrefeq : forall a b, refeq a b = true -> a = b.
Variable f : nat.
Notation snapshot := (snapshot rc refeq (S f)).

Definition shown (b : builder) (es : list entry) (frs : list frame) : Prop :=
  exists c, snapshot b = Ok c /\ den c = Some (map (value_of (es ++ pending frs)) es) /\ (forall kd, bkind b = Some kd -> ckind c = Some kd).

Lemma pending_kind g frs : exists e, pending (g :: frs) = [e] /\ ekind e = Some (fkind g).
Proof. destruct g as [l|n fs [[i l]|]|fs [[k l]|]]; cbn; eexists; split; reflexivity. Qed.
Lemma has_real_pending frs : has_real (pending frs) = false.
Proof. destruct frs as [|[l|n fs [[i l]|]|fs [[k l]|]] frs]; reflexivity. Qed.
Lemma has_real_app a b : has_real (a ++ b) = has_real a || has_real b.
Proof. apply existsb_app. Qed.

Lemma shown_list c parts l frs begun : shown c (concat parts ++ l) frs -> forall top, (forall x, items_of (map EList parts ++ pending top) = x -> x = (concat parts ++ l) ++ pending frs) -> shown (BList (bounds_from 0 parts) c begun) (map EList parts) top.
Proof.
  intros (c' & E & D & _) top Ht. cbn [Builder.snapshot]. unfold shown. cbn [Builder.snapshot]. rewrite E. cbn [bind]. unfold mkListOffset. rewrite bounds_from_zlen. pose proof (zlen_nonneg parts).
  destruct (Z.eqb_spec (zlen parts + 1) 0); [lia|]. eexists; split; [reflexivity|]. split; [|now intros kd [= <-]]. cbn [den]. rewrite D, bounds_from_zlen. destruct (Z.leb_spec 1 (zlen parts + 1)); [|lia].
  rewrite map_app. etransitivity; [apply (lists_den _ parts [])|]. f_equal. rewrite map_map. apply map_ext. intros p. cbn [SpecBuilder.value_of]. now rewrite (Ht _ eq_refl).
Qed.
Lemma items_map parts : items_of (map EList parts) = concat parts.
Proof. induction parts as [|p parts IH]; [reflexivity|]. cbn. fold (items_of (map EList parts)). now rewrite IH. Qed.
Lemma items_app a b : items_of (a ++ b) = items_of a ++ items_of b.
Proof. apply flat_map_app. Qed.
Lemma slot_map n i rows : slot_of n i (map (ETuple n) rows) = flat_map (filled Z.eqb i) rows.
Proof. induction rows as [|p rows IH]; [reflexivity|]. cbn. fold (slot_of n i (map (ETuple n) rows)). now rewrite IH, Z.eqb_refl. Qed.
Lemma field_map k rows : field_of k (map ERecord rows) = flat_map (filled String.eqb k) rows.
Proof. induction rows as [|p rows IH]; [reflexivity|]. cbn. fold (field_of k (map ERecord rows)). now rewrite IH. Qed.
Lemma keys_map rows : flat_map (fun e => match e with ERecord fs => map fst fs | _ => [] end) (map ERecord rows) = flat_map (map fst) rows.
Proof. induction rows as [|p rows IH]; [reflexivity|]. cbn. now rewrite IH. Qed.

(** contents of tuples and records: column [col] of the closed rows, [more] in the open one *)
Lemma shown_cell {K} (eqb : K -> K -> bool) k rows c col more frs inner : shown c (col ++ more) frs -> Forall2 (cell eqb k) rows col ->
  filter nonnull inner = filter nonnull (flat_map (filled eqb k) rows ++ more ++ pending frs) ->
  exists c', snapshot c = Ok c' /\ exists vs, den c' = Some vs /\ exists col, Forall2 (cell eqb k) rows col /\ forall i e, nthZ col i = Some e -> nthZ vs i = Some (value_of inner e).
Proof.
  intros (c' & E & D & _) F H. exists c'. split; [exact E|]. eexists; split; [exact D|]. exists col. split; [exact F|]. intros i e He. pose proof (nthZ_Some _ _ _ He).
  rewrite nthZ_map, nthZ_app. destruct (Z.ltb_spec i (zlen col)); [|lia]. rewrite He. cbn [option_map]. f_equal. apply value_nonnull. rewrite H, !filter_app, (cells_nonnull _ _ _ _ F), <- app_assoc. reflexivity.
Qed.

Lemma pending_slot n fs now frs next j : (match now with Some f => next = fst f | None => next = -1 /\ frs = [] end) -> slot_of n j (pending (FTuple n fs now :: frs)) = filled Z.eqb j (all fs now) ++ pending (if j =? next then frs else []).
Proof.
  intros Hn. destruct now as [[i l]|]; cbn [pending slot_of flat_map]; rewrite Z.eqb_refl, app_nil_r.
  - cbn [fst] in Hn. subst next. rewrite filled_some, filled_app, filled_one. cbn [fst snd]. rewrite (Z.eqb_sym j i). destruct (i =? j); [now rewrite app_assoc|now rewrite !app_nil_r].
  - unfold all. rewrite app_nil_r. destruct Hn as [_ ->]. destruct (j =? next); now rewrite app_nil_r.
Qed.
Lemma pending_field fs now frs k same : (match now with Some f => same = String.eqb (fst f) k | None => frs = [] end) -> field_of k (pending (FRecord fs now :: frs)) = filled String.eqb k (all fs now) ++ pending (if same then frs else []).
Proof.
  intros Hn. destruct now as [[i l]|]; cbn [pending field_of flat_map]; rewrite app_nil_r.
  - cbn [fst] in Hn. subst same. rewrite filled_some, filled_app, filled_one. cbn [fst snd]. destruct (String.eqb i k); [now rewrite app_assoc|now rewrite !app_nil_r].
  - unfold all. rewrite app_nil_r. subst frs. destruct same; now rewrite app_nil_r.
Qed.
Lemma pending_keys fs now frs : flat_map (fun e => match e with ERecord fs => map fst fs | _ => [] end) (pending (FRecord fs now :: frs)) = map fst (all fs now).
Proof. destruct now as [[i l]|]; cbn [pending flat_map]; rewrite app_nil_r; unfold all; [now rewrite !map_app|now rewrite app_nil_r]. Qed.

Lemma shown_tuple cs begun next rows top (inner : Z -> list entry) :
  (forall j, slot_of (zlen cs) j (map (ETuple (zlen cs)) rows ++ pending top) = inner j) ->
  (forall j c, nthZ cs j = Some c -> exists c', snapshot c = Ok c' /\ exists vs, den c' = Some vs /\ exists col, Forall2 (cell Z.eqb j) rows col /\ forall i e, nthZ col i = Some e -> nthZ vs i = Some (value_of (inner j) e)) ->
  shown (BTuple cs (zlen rows) begun next) (map (ETuple (zlen cs)) rows) top.
Proof.
  intros Hin H. unfold shown. cbn [Builder.snapshot]. pose proof (zlen_nonneg rows). destruct (Z.eqb_spec (zlen rows) (-1)); [lia|].
  destruct (snap_all (fun j c' => exists vs, den c' = Some vs /\ exists col, Forall2 (cell Z.eqb j) rows col /\ forall i e, nthZ col i = Some e -> nthZ vs i = Some (value_of (inner j) e)) snapshot cs H) as (cs' & E & L & HP).
  rewrite E. cbn [bind mkRecord]. eexists; split; [reflexivity|]. split; [|intros kd [= <-]; cbn; now rewrite L].
  pose proof (zlen_nonneg cs).
  rewrite map_map. apply (record_den Z.eqb Z.eqb_eq inner None (zseq 0 (zlen cs))).
  - rewrite zlen_zseq; lia.
  - reflexivity.
  - intros j k c Hk Hj. pose proof (nthZ_Some _ _ _ Hk) as Hi. rewrite zlen_zseq in Hi by lia. rewrite nthZ_zseq in Hk by lia. injection Hk as <-. rewrite Z.add_0_l. apply HP. exact Hj.
  - intros row. cbn [SpecBuilder.value_of mkrow]. f_equal. apply map_ext. intros i. unfold rowvals. f_equal. f_equal. apply map_ext. intros g. now rewrite Hin.
Qed.
Lemma shown_record cs keys begun next ntt rows top (inner : string -> list entry) : zlen keys = zlen cs ->
  (forall k, field_of k (map ERecord rows ++ pending top) = inner k) -> keys_of (map ERecord rows ++ pending top) = keys ->
  (forall j k c, nthZ keys j = Some k -> nthZ cs j = Some c -> exists c', snapshot c = Ok c' /\ exists vs, den c' = Some vs /\ exists col, Forall2 (cell String.eqb k) rows col /\ forall i e, nthZ col i = Some e -> nthZ vs i = Some (value_of (inner k) e)) ->
  shown (BRecord cs keys (zlen rows) begun next ntt) (map ERecord rows) top.
Proof.
  intros Hl Hin Hk H. unfold shown. cbn [Builder.snapshot]. pose proof (zlen_nonneg rows). destruct (Z.eqb_spec (zlen rows) (-1)); [lia|].
  destruct (snap_all (fun j c' => forall k, nthZ keys j = Some k -> exists vs, den c' = Some vs /\ exists col, Forall2 (cell String.eqb k) rows col /\ forall i e, nthZ col i = Some e -> nthZ vs i = Some (value_of (inner k) e)) snapshot cs) as (cs' & E & L & HP).
  { intros j c Hj. destruct (nthZ_lt keys j) as [k Ek]; [apply nthZ_Some in Hj; lia|]. destruct (H _ _ _ Ek Hj) as (c' & E & HH). exists c'. split; [exact E|]. intros k0 Hk0. rewrite Ek in Hk0. now injection Hk0 as <-. }
  rewrite E. cbn [bind]. destruct (Z.ltb_spec (zlen keys) (zlen cs')); [lia|]. rewrite slice_full' by lia. cbn [mkRecord]. replace (zlen keys =? zlen cs') with true by lia. cbn [negb].
  eexists; split; [reflexivity|]. split; [|now intros kd [= <-]].
  rewrite map_map. apply (record_den String.eqb String.eqb_eq inner (Some keys) keys).
  - lia.
  - cbn. lia.
  - intros j k c Hk' Hj. eapply HP; eauto.
  - intros row. cbn [SpecBuilder.value_of mkrow]. rewrite Hk. f_equal. unfold rowvals. assert (EC : forall (g : string -> value) ks, map (fun k => (k, g k)) ks = combine ks (map g ks)) by (intros g; induction ks as [|k ks IH]; [reflexivity|]; cbn; now rewrite IH).
    rewrite EC. f_equal. apply map_ext. intros i. f_equal. f_equal. apply map_ext. intros g. now rewrite Hin.
Qed.

Lemma is_real_shown c col frs kd c' : holds c col frs -> bkind c = Some kd -> ckind c' = Some kd -> is_real c' = true -> has_real col = true.
Proof. intros H Hb Hc Hr. apply is_real_kind in Hr. rewrite Hc in Hr. injection Hr as ->. inversion H; subst; try discriminate. assumption. Qed.

Lemma shown_union pos cs cur cols es frs :
  zlen cols = zlen cs ->
  (forall j c col, nthZ cs j = Some c -> nthZ cols j = Some col -> holds c col (if j =? cur then frs else [])) ->
  (forall j c col, nthZ cs j = Some c -> nthZ cols j = Some col -> shown c col (if j =? cur then frs else [])) ->
  (forall j c, nthZ cs j = Some c -> exists kd, bkind c = Some kd /\ kind_ok sizes kd) ->
  NoDup (map bkind cs) ->
  (forall j c col, nthZ cs j = Some c -> nthZ cols j = Some col -> part (bkind c) col es) ->
  Forall2 (located cols) pos es ->
  (cur = -1 /\ frs = [] \/ 0 <= cur < zlen cs /\ frs <> []) ->
  1 <= zlen cs ->
  shown (BUnion (map fst pos) (map snd pos) cs cur) es frs.
Proof.
  intros Hlen Hh Hs Hkinds Hnodup Hpart Hpos Hcur Hne. unfold shown. cbn [Builder.snapshot].
  assert (Hfew : zlen cs <= 127).
  { apply (contents_few rc sizes Hsizes cs cur cols es frs); auto. intros j c col H1 H2. apply holds_good; auto. }
  destruct (snap_all (fun j c' => forall c col, nthZ cs j = Some c -> nthZ cols j = Some col -> den c' = Some (map (value_of (col ++ pending (if j =? cur then frs else []))) col) /\ ckind c' = bkind c) snapshot cs) as (cs' & E & L & HP).
  { intros j c Hj. destruct (nthZ_lt cols j) as [col Ecol]; [apply nthZ_Some in Hj; lia|]. destruct (Hs _ _ _ Hj Ecol) as (c' & Ec & Dc & Kc). exists c'. split; [exact Ec|].
    intros c0 col0 H1 H2. rewrite Hj in H1. rewrite Ecol in H2. injection H1 as <-. injection H2 as <-. split; [exact Dc|]. destruct (Hkinds _ _ Hj) as (kd & Ek & _). rewrite Ek. now apply Kc. }
  rewrite E. cbn [bind].
  assert (Hcs' : forall j c', nthZ cs' j = Some c' -> exists c col, nthZ cs j = Some c /\ nthZ cols j = Some col).
  { intros j c' Hj. apply nthZ_Some in Hj. destruct (nthZ_lt cs j) as [c Hc]; [lia|]. destruct (nthZ_lt cols j) as [col Hcol]; [lia|]. eauto. }
  assert (EU : mkUnion (map fst pos) (map snd pos) cs' = Ok (Union (map fst pos) (map snd pos) cs')).
  { destruct cs' as [|c0 cs0]; [rewrite zlen_nil in L; lia|]. cbn [mkUnion]. rewrite !zlen_map. destruct (Z.ltb_spec (zlen pos) (zlen pos)); [lia|reflexivity]. }
  rewrite EU. cbn [bind].
  destruct (dens_of (fun j vs => forall c col, nthZ cs j = Some c -> nthZ cols j = Some col -> vs = map (value_of (col ++ pending (if j =? cur then frs else []))) col) cs') as (vss & HD & HV).
  { intros j c' Hj. destruct (Hcs' _ _ Hj) as (c & col & Hc & Hcol). destruct (HP _ _ Hj _ _ Hc Hcol) as [Dc _]. eexists; split; [exact Dc|]. intros c0 col0 H1 H2. rewrite Hcol in H2. now injection H2 as <-. }
  pose proof (F2_zlen _ _ _ HD) as HL. pose proof (F2_zlen _ _ _ Hpos) as HLp.
  assert (Hkeq : map ckind cs' = map bkind cs).
  { apply list_eqZ; rewrite !zlen_map; [exact L|]. intros i Hi. rewrite !nthZ_map. destruct (nthZ_lt cs' i Hi) as [c' Hc']. destruct (Hcs' _ _ Hc') as (c & col & Hc & Hcol). rewrite Hc', Hc. cbn. f_equal. eapply HP; eauto. }
  (* the values at the positions *)
  set (at_pos := fun p : Z * Z => match nthZ vss (fst p) with Some vs => nthZ vs (snd p) | None => None end).
  assert (HVs : exists us, omap at_pos pos = Some us /\ zlen us = zlen pos /\ map (conv rc (existsb is_real cs')) us = map (value_of (es ++ pending frs)) es).
  { assert (Hreal : forall e, In e es -> has_real [e] = true -> existsb is_real cs' = true).
    { intros e He Hr. assert (exists p, located cols p e) as (p & col & Hcol & Hp).
      { clear - Hpos He. induction Hpos; [destruct He|]. destruct He as [->|He]; eauto. }
      destruct (nthZ_lt cs (fst p)) as [c Hc]; [apply nthZ_Some in Hcol; lia|]. destruct (nthZ_lt cs' (fst p)) as [c' Hc']; [apply nthZ_Some in Hc; lia|]. destruct (HP _ _ Hc' _ _ Hc Hcol) as [_ Hk].
      apply existsb_exists. exists c'. split; [eapply nthZ_In; exact Hc'|]. apply is_real_kind. rewrite Hk. pose proof (Hh _ _ _ Hc Hcol) as H. destruct (Hkinds _ _ Hc) as (kd & Ek & _).
      apply nthZ_In in Hp. destruct (holds_kind_entries _ _ _ _ _ _ _ H Ek Hp) as [HA HB]. destruct e; try discriminate. rewrite Ek. destruct (numeric kd) eqn:En; [|now rewrite <- (HA eq_refl)].
      destruct kd; try discriminate; [|reflexivity]. inversion H; subst; try discriminate. apply in_map_iff in Hp as (z & Ez & _). discriminate. }
    assert (Hreal' : existsb is_real cs' = has_real (es ++ pending frs)).
    { rewrite has_real_app, has_real_pending, orb_false_r. apply Bool.eq_iff_eq_true. split; intros H.
      - apply existsb_exists in H as (c' & Hi & Hr). apply In_nthZ in Hi as [j Hj]. destruct (Hcs' _ _ Hj) as (c & col & Hc & Hcol). destruct (HP _ _ Hj _ _ Hc Hcol) as [_ Hk]. destruct (Hkinds _ _ Hc) as (kd & Ek & _).
        pose proof (is_real_shown c col _ kd c' (Hh _ _ _ Hc Hcol) Ek ltac:(congruence) Hr) as HR. assert (kd = KReal) by (apply is_real_kind in Hr; congruence). pose proof (Hpart _ _ _ Hc Hcol) as Hp. rewrite Ek in Hp. subst kd. cbn in Hp.
        apply existsb_exists in HR as (e & He & Hre). apply existsb_exists. exists e. split; [now apply Hp|exact Hre].
      - apply existsb_exists in H as (e & He & Hre). apply (Hreal e He). cbn. now rewrite Hre. }
    assert (HQ : Forall2 (fun p e => exists v, at_pos p = Some v /\ conv rc (existsb is_real cs') v = value_of (es ++ pending frs) e) pos es).
    { eapply F2_impl; [|exact Hpos]. intros p e (col & Hcol & He). destruct (nthZ_lt cs (fst p)) as [c Hc]; [apply nthZ_Some in Hcol; lia|]. destruct (nthZ_lt vss (fst p)) as [vs Hvs]; [apply nthZ_Some in Hc; lia|].
      pose proof (HV _ _ Hvs _ _ Hc Hcol) as Ev. unfold at_pos. rewrite Hvs, Ev, nthZ_map, He. cbn [option_map]. eexists; split; [reflexivity|].
      pose proof (Hh _ _ _ Hc Hcol) as H. destruct (Hkinds _ _ Hc) as (kd & Ek & _). pose proof (Hpart _ _ _ Hc Hcol) as Hp. rewrite Ek in Hp. pose proof (nthZ_In _ _ _ He) as Hin. destruct (holds_kind_entries _ _ _ _ _ _ _ H Ek Hin) as [HA HB].
      cbn in Hp. destruct (numeric kd) eqn:En.
      - rewrite Hreal'. assert (kd = KInt \/ kd = KReal) as [->| ->] by (destruct kd; try discriminate; auto).
        + inversion H; subst; try discriminate. apply in_map_iff in Hin as (z & <- & _). cbn [SpecBuilder.value_of]. cbn [pending]. rewrite app_nil_r.
          assert (EH : has_real (map EInt l) = false) by (clear; induction l as [|x l IH]; [reflexivity|exact IH]). rewrite EH. cbn [conv]. reflexivity.
        + inversion H; subst; try discriminate. cbn [pending]. rewrite app_nil_r.
          assert (EH : has_real (es ++ pending frs) = true).
          { rewrite has_real_app. apply orb_true_iff. left. match goal with HR : has_real col = true |- _ => apply existsb_exists in HR as (e0 & He0 & Hre) end. apply existsb_exists. exists e0. split; [now apply Hp|exact Hre]. }
          rewrite EH. destruct (HB eq_refl) as (kd' & Eke & Ene). destruct e; try discriminate; try (cbn in Eke; injection Eke as <-; discriminate); cbn [SpecBuilder.value_of conv]; [|reflexivity].
          match goal with HR : has_real col = true |- _ => rewrite HR end. rewrite EH. reflexivity.
      - specialize (HA eq_refl).
        assert (EV : value_of (col ++ pending (if fst p =? cur then frs else [])) e = value_of (es ++ pending frs) e).
        { apply value_ext. unfold alike. rewrite HA.
          assert (EF : filter (has_kind kd) (col ++ pending (if fst p =? cur then frs else [])) = filter (has_kind kd) (es ++ pending frs)).
          { rewrite !filter_app. f_equal; [rewrite Hp; apply filter_twice|]. destruct (Z.eqb_spec (fst p) cur) as [|Hj]; [reflexivity|]. cbn.
            destruct Hcur as [[_ ->]|[Hcr Hf]]; [reflexivity|]. destruct frs as [|g rest]; [congruence|].
            destruct (nthZ_lt cs cur Hcr) as [cc Hcc]. destruct (nthZ_lt cols cur) as [ccol Hccol]; [lia|]. pose proof (Hh _ _ _ Hcc Hccol) as HHc. rewrite Z.eqb_refl in HHc.
            destruct (Hkinds _ _ Hcc) as (kdc & Ekc & _). pose proof (holds_kind_frame _ _ _ _ _ _ _ HHc Ekc) as Efk. destruct (pending_kind g rest) as (e' & -> & Eke'). cbn. unfold has_kind. rewrite Eke', <- Efk.
            destruct (kind_eqb kdc kd) eqn:Ekk; [|reflexivity]. exfalso. apply kind_eqb_spec in Ekk. subst kdc. apply Hj. rewrite NoDup_nthZ in Hnodup. apply (Hnodup _ _ (Some kd)); rewrite nthZ_map; [rewrite Hc|rewrite Hcc]; cbn; congruence. }
          destruct kd; auto; discriminate. }
        rewrite EV. destruct e; try discriminate HA; try reflexivity. cbn in HA. injection HA as <-. discriminate. }
    clear - HQ. revert HQ. generalize (value_of (es ++ pending frs)) as g. intros g HQ. induction HQ as [|p e ps es' (v & E1 & E2) F (us & E3 & E4 & E5)].
    - exists []. repeat split.
    - exists (v :: us). cbn [omap]. rewrite E1, E3. split; [reflexivity|]. split; [rewrite !zlen_cons; lia|]. cbn [map]. rewrite E2. f_equal. exact E5. }
  destruct HVs as (us & Eus & Lus & Econv).
  destruct (simplify_kinds rc (fun _ => false) f refeq Hrefeq us (map fst pos) (map snd pos) cs' vss HD) as (c' & Ec' & Dc').
  - now rewrite zlen_map.
  - rewrite !zlen_map. lia.
  - intros i v Hv. destruct (nthZ_lt pos i) as [p Hp]; [apply nthZ_Some in Hv; lia|]. destruct (omap_nth _ _ _ _ _ Eus Hp) as [H _]. rewrite Hv in H. unfold at_pos in H. rewrite !nthZ_map, Hp. cbn [option_map].
    destruct (nthZ vss (fst p)) as [cv|] eqn:Ecv; [|discriminate]. exists (fst p), (snd p), cv. auto.
  - rewrite Forall_forall. intros c' Hi. apply In_nthZ in Hi as [j Hj]. destruct (Hcs' _ _ Hj) as (c & col & Hc & Hcol). destruct (HP _ _ Hj _ _ Hc Hcol) as [_ ->]. destruct (Hkinds _ _ Hc) as (kd & -> & _). discriminate.
  - now rewrite Hkeq.
  - intros ->. rewrite zlen_nil in L. lia.
  - lia.
  - exists c'. split; [exact Ec'|]. split; [now rewrite Dc', Econv|discriminate].
Qed.

Theorem holds_shown b es frs : holds b es frs -> shown b es frs.
Proof.
  induction 1 as [n Hn|l|l|l es HF HR|index c es frs H IH HF|c parts H IH|c parts l frs H IH|cs next cols rows Hl Hh IH Hc Hs|cs next cols rows fs now frs Hl Hh IH Hc Hb Hn Hs
    |cs next ntt cols rows keys Hl Hk Hh IH Hc|cs next ntt cols rows fs now frs keys Hl Hk Hh IH Hc Hb Hn|pos cs cur cols es frs Hl Hh IH Hkinds Hnd Hp Hpos Hcur Hne].
  - unfold shown. cbn [Builder.snapshot]. assert (EV : map (value_of (repeat ENull (Z.to_nat n) ++ pending [])) (repeat ENull (Z.to_nat n)) = repeat VNone (Z.to_nat n)).
    { cbn [pending]. rewrite app_nil_r. generalize (repeat ENull (Z.to_nat n)) at 1 as col. intros col. induction (Z.to_nat n) as [|m IH]; [reflexivity|]. cbn [repeat map]. now rewrite IH. }
    rewrite EV.
    destruct (Z.eqb_spec n 0) as [->|].
    + eexists; split; [reflexivity|]. split; [reflexivity|discriminate].
    + destruct (Z.ltb_spec n 0); [lia|]. eexists; split; [reflexivity|]. split; [|discriminate]. cbn [den]. clear. generalize (Z.to_nat n). induction n0 as [|m IH]; [reflexivity|]. cbn. cbn in IH. now rewrite IH.
  - unfold shown. cbn [Builder.snapshot]. eexists; split; [reflexivity|]. split; [|now intros kd [= <-]]. cbn [den]. rewrite !map_map. f_equal. apply map_ext. intros []; reflexivity.
  - unfold shown. cbn [Builder.snapshot]. eexists; split; [reflexivity|]. split; [|now intros kd [= <-]]. cbn [den pending]. rewrite map_map, app_nil_r. f_equal. apply map_ext. intros z. cbn.
    assert (EH : has_real (map EInt l) = false) by (clear; induction l as [|x l IH]; [reflexivity|exact IH]). now rewrite EH.
  - unfold shown. cbn [Builder.snapshot]. eexists; split; [reflexivity|]. split; [|now intros kd [= <-]]. cbn [den pending]. rewrite app_nil_r. f_equal. 
    assert (EQ : forall col, has_real col = true -> map (scalar DReal) l = map (value_of col) es); [|now apply EQ].
    intros col Hcol. clear HR. induction HF as [|r e l es [->|(z & -> & ->)] F IH]; [reflexivity| |]; cbn [map]; rewrite <- IH; cbn; rewrite ?Hcol; reflexivity.
  - destruct IH as (c' & E & D & _). unfold shown. cbn [Builder.snapshot]. rewrite E. cbn [bind].
    destruct (simplify_io index c' (map (value_of (es ++ pending frs)) es)) as (c2 & E2 & D2).
    + cbn [den]. rewrite D. clear - HF. remember (filter nonnull es ++ pending frs) as col eqn:Ecol. assert (EX : forall e, value_of col e = value_of (es ++ pending frs) e).
      { intros e. apply value_nonnull. now rewrite Ecol, !filter_app, filter_twice. }
      clear Ecol. revert EX. generalize (value_of (es ++ pending frs)) as g. intros g EX. revert HF. generalize (filter nonnull es) as cc. intros cc HF. induction HF as [|i e index es H F IH]; [reflexivity|]. cbn [omap map].
      rewrite IH. destruct H as [[-> ->]|H].
      * cbn. now rewrite <- EX.
      * pose proof (nthZ_Some _ _ _ H). destruct (Z.ltb_spec i 0); [lia|]. rewrite nthZ_map, H. cbn. now rewrite EX.
    + exists c2. split; [exact E2|]. split; [exact D2|discriminate].
  - apply (shown_list c parts [] []).
    + now rewrite app_nil_r.
    + intros x <-. cbn [pending]. now rewrite !app_nil_r, items_map.
  - apply (shown_list c parts l frs); [exact IH|]. intros x <-. rewrite items_app, items_map. cbn. now rewrite app_nil_r, app_assoc.
  - apply (shown_tuple cs false next rows [] (fun j => flat_map (filled Z.eqb j) rows)).
    + intros j. cbn [pending]. now rewrite app_nil_r, slot_map.
    + intros j c Hj. destruct (nthZ_lt cols j) as [col Hcol]; [apply nthZ_Some in Hj; lia|]. apply (shown_cell Z.eqb j rows c col [] []).
      * rewrite app_nil_r. eapply IH; eauto.
      * eapply Hc; eauto.
      * cbn [pending]. now rewrite !app_nil_r.
  - apply (shown_tuple cs true next rows _ (fun j => flat_map (filled Z.eqb j) rows ++ filled Z.eqb j (all fs now) ++ pending (if j =? next then frs else []))).
    + intros j. unfold slot_of at 1. rewrite flat_map_app. fold (slot_of (zlen cs) j (map (ETuple (zlen cs)) rows)). rewrite slot_map. f_equal. now apply pending_slot.
    + intros j c Hj. destruct (nthZ_lt cols j) as [col Hcol]; [apply nthZ_Some in Hj; lia|]. apply (shown_cell Z.eqb j rows c col (filled Z.eqb j (all fs now)) (if j =? next then frs else [])).
      * eapply IH; eauto.
      * eapply Hc; eauto.
      * reflexivity.
  - apply (shown_record cs keys false next ntt rows [] (fun k => flat_map (filled String.eqb k) rows)).
    + exact Hk.
    + intros k. cbn [pending]. now rewrite app_nil_r, field_map.
    + cbn [pending]. unfold keys, keys_of. now rewrite app_nil_r, keys_map.
    + intros j k c Hkj Hj. destruct (nthZ_lt cols j) as [col Hcol]; [apply nthZ_Some in Hj; lia|]. apply (shown_cell String.eqb k rows c col [] []).
      * rewrite app_nil_r. eapply IH; eauto.
      * eapply Hc; eauto.
      * cbn [pending]. now rewrite !app_nil_r.
  - apply (shown_record cs keys true next ntt rows _ (fun k => flat_map (filled String.eqb k) rows ++ filled String.eqb k (all fs now) ++ pending (if (match now with Some f => String.eqb (fst f) k | None => true end) then frs else []))).
    + exact Hk.
    + intros k. unfold field_of at 1. rewrite flat_map_app. fold (field_of k (map ERecord rows)). rewrite field_map. f_equal. apply pending_field. destruct now; [reflexivity|apply Hn].
    + unfold keys, keys_of. rewrite !flat_map_app, keys_map, pending_keys. cbn [flat_map]. now rewrite app_nil_r.
    + intros j k c Hkj Hj. destruct (nthZ_lt cols j) as [col Hcol]; [apply nthZ_Some in Hj; lia|].
      assert (EF : (if match now with Some f0 => String.eqb (fst f0) k | None => true end then frs else []) = (if j =? next then frs else [])).
      { destruct now as [[k0 l0]|].
        - cbn [fst] in *. destruct (String.eqb_spec k0 k) as [->|Hne].
          + assert (j = next) as ->; [|now rewrite Z.eqb_refl]. pose proof (distinct_NoDup (flat_map (map fst) (rows ++ [all fs (Some (k, l0))]))) as HN. rewrite NoDup_nthZ in HN. eapply HN; eauto.
          + destruct (Z.eqb_spec j next) as [->|]; [|reflexivity]. congruence.
        - destruct Hn as [_ ->]. now destruct (j =? next). }
      rewrite EF. apply (shown_cell String.eqb k rows c col (filled String.eqb k (all fs now)) (if j =? next then frs else [])).
      * eapply IH; eauto.
      * eapply Hc; eauto.
      * reflexivity.
  - now apply (shown_union pos cs cur cols es frs).
Qed.
End Snap.
