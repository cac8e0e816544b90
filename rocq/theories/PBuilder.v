(** ArrayBuilder: the nodes hold what was appended, call by call. *)
From Coq Require Import String.
From Verif Require Import Base BaseLemmas OmapLemmas SpecArray Content Builder SpecBuilder.
Local Open Scope string_scope.
Local Open Scope list_scope.
Local Open Scope Z_scope.

(** ** kinds *)
Inductive kind := KBool | KInt | KReal | KList | KTuple (n : Z) | KRecord.
Definition kind_eqb (a b : kind) : bool :=
  match a, b with
  | KBool, KBool | KInt, KInt | KReal, KReal | KList, KList | KRecord, KRecord => true
  | KTuple n, KTuple m => n =? m
  | _, _ => false
  end.
Lemma kind_eqb_spec a b : kind_eqb a b = true <-> a = b.
Proof.
  destruct a, b; cbn; split; intros H; try discriminate; try reflexivity.
  - f_equal. lia.
  - injection H; lia.
Qed.
Lemma kind_eqb_refl a : kind_eqb a a = true.
Proof. now apply kind_eqb_spec. Qed.
Definition bkind (b : builder) : option kind :=
  match b with
  | BBool _ => Some KBool | BInt _ => Some KInt | BReal _ => Some KReal | BList _ _ _ => Some KList
  | BTuple cs _ _ _ => Some (KTuple (zlen cs)) | BRecord _ _ _ _ _ _ => Some KRecord
  | _ => None
  end.
Definition ekind (e : entry) : option kind :=
  match e with
  | ENull => None | EBool _ => Some KBool | EInt _ => Some KInt | EReal _ => Some KReal | EList _ => Some KList
  | ETuple n _ => Some (KTuple n) | ERecord _ => Some KRecord
  end.
Definition fkind (f : frame) : kind :=
  match f with FList _ => KList | FTuple n _ _ => KTuple n | FRecord _ _ => KRecord end.
Definition tkind (k : call) : option kind :=
  match k with
  | CBool _ => Some KBool | CInt _ => Some KInt | CReal _ => Some KReal | CBeginList => Some KList | CBeginTuple n => Some (KTuple n)
  | CBeginRecord => Some KRecord | _ => None
  end.
Definition has_kind (kd : kind) (e : entry) : bool := match ekind e with Some kd' => kind_eqb kd' kd | None => false end.
Definition numeric (kd : kind) : bool := match kd with KInt | KReal => true | _ => false end.
Definition nonnull (e : entry) : bool := match e with ENull => false | _ => true end.

Lemma has_kind_spec kd e : has_kind kd e = true <-> ekind e = Some kd.
Proof. unfold has_kind. destruct (ekind e) as [k'|]; [|split; discriminate]. rewrite kind_eqb_spec. split; congruence. Qed.

(** ** reading calls *)
Lemma start_app pre es k : start (pre ++ es) k = option_map (fun r => (pre ++ fst r, snd r)) (start es k).
Proof. destruct k; cbn; rewrite ?app_assoc; reflexivity. Qed.
Lemma own_app pre es f k : own (pre ++ es) f k = option_map (fun r => (pre ++ fst r, snd r)) (own es f k).
Proof. destruct f, k; cbn; try destruct (once _ _); cbn; rewrite ?app_assoc; reflexivity. Qed.
Lemma advance_app pre es frs k : advance (pre ++ es) frs k = option_map (fun r => (pre ++ fst r, snd r)) (advance es frs k).
Proof.
  destruct frs as [|f frs]; cbn [advance]; [apply start_app|].
  assert (E : (match frs with [] => own (pre ++ es) f k | _ :: _ => None end) = option_map (fun r => (pre ++ fst r, snd r)) (match frs with [] => own es f k | _ :: _ => None end)).
  { destruct frs; [apply own_app|reflexivity]. }
  rewrite E. destruct (match frs with [] => own es f k | _ :: _ => None end); cbn; [reflexivity|].
  destruct (inside f _); reflexivity.
Qed.
Definition grows (es : list entry) (frs : list frame) (es' : list entry) (frs' : list frame) (k : call) : Prop :=
  exists f rest, frs = f :: rest /\
  ((es' = es /\ exists f' rest', frs' = f' :: rest' /\ fkind f' = fkind f) \/
   (frs' = [] /\ is_end k = true /\ exists e, es' = es ++ [e] /\ ekind e = Some (fkind f))).
Lemma advance_open es frs k es' frs' : advance es frs k = Some (es', frs') -> frs <> [] -> grows es frs es' frs' k.
Proof.
  destruct frs as [|f frs]; [congruence|]. intros E _. exists f, frs. split; [reflexivity|]. cbn [advance] in E.
  destruct (match frs with [] => own es f k | _ :: _ => None end) as [[es1 frs1]|] eqn:Eo.
  - injection E as <- <-. destruct frs; [|discriminate]. destruct f, k; cbn in Eo; try discriminate; try destruct (once _ _); try discriminate; injection Eo as <- <-.
    all: try (right; split; [reflexivity|split; [reflexivity|eexists; split; reflexivity]]).
    all: left; split; [reflexivity|eexists _, _; split; reflexivity].
  - left. destruct (inside f _) as [frs1|] eqn:Ei; [|discriminate]. cbn in E. injection E as <- <-. split; [reflexivity|].
    destruct f as [l|n fs [[i l]|]|fs [[i l]|]]; cbn in Ei; try discriminate; destruct (advance _ _ _) as [[? ?]|]; try discriminate; injection Ei as <-; eexists _, _; split; reflexivity.
Qed.
(** a call where nothing is open appends a datum or opens a structure *)
Definition starts (k : call) (ext : list entry) (frs : list frame) : Prop :=
  (is_leaf k = true /\ frs = [] /\ exists e, ext = [e] /\ ekind e = tkind k) \/
  (is_leaf k = false /\ ext = [] /\ exists f, frs = [f] /\ tkind k = Some (fkind f)).
Lemma start_starts k ext frs : start [] k = Some (ext, frs) -> starts k ext frs.
Proof. destruct k; cbn; intros [= <- <-]; (left; split; [reflexivity|]; split; [reflexivity|]; eexists; split; reflexivity) || (right; split; [reflexivity|]; split; [reflexivity|]; eexists; split; reflexivity). Qed.

(** ** what the nodes hold *)
Definition bounds_from (a : Z) (parts : list (list entry)) : list Z :=
  a :: (fix go a parts := match parts with [] => [] | p :: parts => (a + zlen p) :: go (a + zlen p) parts end) a parts.
Lemma bounds_from_snoc parts p : forall a, bounds_from a (parts ++ [p]) = bounds_from a parts ++ [a + zlen (concat parts) + zlen p].
Proof.
  unfold bounds_from. intros a. rewrite <- app_comm_cons. f_equal. revert a.
  induction parts as [|q parts IH]; intros a; cbn; [rewrite zlen_nil; do 2 f_equal; lia|].
  rewrite IH. rewrite zlen_app. do 3 f_equal. lia.
Qed.
Lemma bounds_from_zlen parts : forall a, zlen (bounds_from a parts) = zlen parts + 1.
Proof. unfold bounds_from. intros a. rewrite zlen_cons. f_equal. revert a. induction parts as [|q parts IH]; intros a; cbn; [reflexivity|]. rewrite !zlen_cons. now rewrite IH. Qed.

Definition at_ (col : list entry) (i : Z) (e : entry) : Prop := (i = -1 /\ e = ENull) \/ nthZ col i = Some e.
Definition cell {K} (eqb : K -> K -> bool) (k : K) (row : list (K * list entry)) (e : entry) : Prop :=
  filled eqb k row = [e] \/ (filled eqb k row = [] /\ e = ENull).
Definition part (okd : option kind) (col es : list entry) : Prop :=
  match okd with
  | Some kd => if numeric kd then incl col es else col = filter (has_kind kd) es
  | None => False
  end.

Lemma F2_zlen {A B} (R : A -> B -> Prop) l l' : Forall2 R l l' -> zlen l = zlen l'.
Proof. unfold zlen. induction 1; cbn [List.length]; lia. Qed.
Lemma filter_all {A} (p : A -> bool) l : (forall x, In x l -> p x = true) -> filter p l = l.
Proof. induction l as [|x l IH]; intros H; cbn; [reflexivity|]. rewrite (H x); [|now left]. f_equal. apply IH. intros; apply H; now right. Qed.
Lemma filter_none {A} (p : A -> bool) l : (forall x, In x l -> p x = false) -> filter p l = [].
Proof. induction l as [|x l IH]; intros H; cbn; [reflexivity|]. rewrite (H x); [|now left]. apply IH. intros; apply H; now right. Qed.
Lemma nthZ_repeat_inv {A} (x : A) n i y : nthZ (repeat x n) i = Some y -> y = x.
Proof. intros H. apply nthZ_In in H. now apply repeat_spec in H. Qed.
Definition put {A} (l : list A) (i : Z) (x : A) : list A := if i <? zlen l then upd l (Z.to_nat i) x else l ++ [x].
Lemma nthZ_put {A} (l : list A) i x j : 0 <= i <= zlen l -> nthZ (put l i x) j = if j =? i then Some x else nthZ l j.
Proof.
  intros Hi. unfold put. destruct (i <? zlen l) eqn:E.
  - rewrite nthZ_upd by lia. now rewrite Z2Nat.id by lia.
  - assert (i = zlen l) as -> by lia. rewrite nthZ_app. destruct (j =? zlen l) eqn:Ej.
    + assert (j = zlen l) as -> by lia. destruct (zlen l <? zlen l) eqn:?; [lia|]. now rewrite Z.sub_diag.
    + destruct (j <? zlen l) eqn:Ej2; [reflexivity|]. rewrite nthZ_ge by (rewrite zlen_cons, zlen_nil; lia). symmetry. apply nthZ_ge. lia.
Qed.
Lemma zlen_put {A B} (l : list A) (l' : list B) i x y : zlen l = zlen l' -> zlen (put l i x) = zlen (put l' i y).
Proof. intros E. unfold put. rewrite E. destruct (i <? zlen l'); rewrite ?zlen_upd, ?zlen_app, ?E; reflexivity. Qed.
Lemma put_map {A B} (f : A -> B) l i x : map f (put l i x) = put (map f l) i (f x).
Proof.
  unfold put. rewrite zlen_map. destruct (i <? zlen l); [|now rewrite map_app].
  generalize (Z.to_nat i) as n. induction l as [|y l IH]; intros [|n]; cbn; congruence.
Qed.
Lemma NoDup_nthZ {A} (l : list A) : NoDup l <-> forall i j x, nthZ l i = Some x -> nthZ l j = Some x -> i = j.
Proof.
  split.
  - intros H i j x Hi Hj. pose proof (nthZ_Some _ _ _ Hi). pose proof (nthZ_Some _ _ _ Hj). unfold nthZ in *.
    destruct (i <? 0) eqn:?; [discriminate|]. destruct (j <? 0) eqn:?; [discriminate|].
    assert (Z.to_nat i = Z.to_nat j); [|lia]. rewrite NoDup_nth_error in H. apply H; [apply nth_error_Some; congruence|congruence].
  - intros H. rewrite NoDup_nth_error. intros i j Hi E. destruct (nth_error l i) as [x|] eqn:Ei; [|now apply nth_error_None in Ei; lia].
    assert (Z.of_nat i = Z.of_nat j); [|lia]. apply (H _ _ x); unfold nthZ; rewrite Nat2Z.id.
    + destruct (Z.of_nat i <? 0) eqn:?; [lia|assumption].
    + destruct (Z.of_nat j <? 0) eqn:?; [lia|congruence].
Qed.
Lemma put_NoDup {A} (l : list A) i x : 0 <= i <= zlen l -> NoDup l -> (forall j y, j <> i -> nthZ l j = Some y -> y <> x) -> NoDup (put l i x).
Proof.
  intros Hi H Hx. apply NoDup_nthZ. intros a b y. rewrite !nthZ_put by exact Hi.
  rewrite NoDup_nthZ in H. destruct (a =? i) eqn:Ea, (b =? i) eqn:Eb; intros Ha Hb.
  - lia.
  - exfalso. injection Ha as <-. apply (Hx b x); [lia|assumption|reflexivity].
  - exfalso. injection Hb as <-. apply (Hx a x); [lia|assumption|reflexivity].
  - now apply (H a b y).
Qed.
Lemma map_put_fst {A} (l : list A) i x : zlen (put l i x) = Z.max (zlen l) (if i <? zlen l then 0 else zlen l + 1).
Proof. unfold put. pose proof (zlen_nonneg l). destruct (i <? zlen l); rewrite ?zlen_upd, ?zlen_app, ?zlen_cons, ?zlen_nil; lia. Qed.
Definition located (cols : list (list entry)) (p : Z * Z) (e : entry) : Prop := exists col, nthZ cols (fst p) = Some col /\ nthZ col (snd p) = Some e.
Lemma single_located (es : list entry) : Forall2 (located [es]) (map (fun i => (0, i)) (zseq 0 (zlen es))) es.
Proof.
  pose proof (zlen_nonneg es) as Hn.
  assert (H : forall pre l, es = pre ++ l -> Forall2 (located [es]) (map (fun i => (0, i)) (zseq (zlen pre) (zlen es))) l).
  { intros pre l. revert pre. induction l as [|e l IH]; intros pre E.
    - rewrite zseq_nil by (rewrite E, zlen_app, zlen_nil; lia). constructor.
    - rewrite zseq_cons by (rewrite E, zlen_app, zlen_cons; pose proof (zlen_nonneg l); lia). cbn [map]. constructor.
      + unfold located. cbn [fst snd]. exists es. split; [reflexivity|]. rewrite E. apply nthZ_mid.
      + replace (zlen pre + 1) with (zlen (pre ++ [e])) by (rewrite zlen_app, zlen_cons, zlen_nil; lia). apply IH. rewrite <- app_assoc. exact E. }
  apply (H [] es eq_refl).
Qed.
Lemma map_const_zseq {A} (x : A) n : 0 <= n -> map (fun _ => x) (zseq 0 n) = repeat x (Z.to_nat n).
Proof.
  intros Hn. apply list_eqZ; [rewrite zlen_map, zlen_repeat, zlen_zseq by lia; lia|]. intros i. rewrite zlen_map, zlen_zseq by lia. intros Hi.
  rewrite nthZ_map, nthZ_zseq, nthZ_repeat by lia. reflexivity.
Qed.
Lemma part_app okd col es e : part okd col es -> (forall kd, okd = Some kd -> numeric kd = false -> ekind e <> Some kd) -> part okd col (es ++ [e]).
Proof.
  unfold part. destruct okd as [kd|]; [|auto]. destruct (numeric kd) eqn:En.
  - intros H _ x Hx. apply in_or_app. left. now apply H.
  - intros H Hk. rewrite filter_app. cbn. destruct (has_kind kd e) eqn:E; [|now rewrite app_nil_r].
    exfalso. apply has_kind_spec in E. now apply (Hk kd eq_refl En).
Qed.
Lemma cell_len {K} (eqb : K -> K -> bool) k (rows : list (list (K * list entry))) col : Forall2 (cell eqb k) rows col -> zlen col = zlen rows.
Proof. intros H. symmetry. now apply F2_zlen in H. Qed.

Section Holds.
Variable rc : Z -> Z.
Variable sizes : list Z.
Definition kind_ok (kd : kind) : Prop := match kd with KTuple n => In n sizes | _ => True end.
Definition real_of (r : Z) (e : entry) : Prop := e = EReal r \/ exists z, e = EInt z /\ r = rc z.

Inductive holds : builder -> list entry -> list frame -> Prop :=
| h_unknown n : 0 <= n -> holds (BUnknown n) (repeat ENull (Z.to_nat n)) []
| h_bool l : holds (BBool l) (map EBool l) []
| h_int l : holds (BInt l) (map EInt l) []
| h_real l es : Forall2 real_of l es -> has_real es = true -> holds (BReal l) es []
| h_option index c es frs : holds c (filter nonnull es) frs -> Forall2 (at_ (filter nonnull es)) index es -> holds (BOption index c) es frs
| h_list c parts : holds c (concat parts) [] -> holds (BList (bounds_from 0 parts) c false) (map EList parts) []
| h_list_open c parts l frs : holds c (concat parts ++ l) frs -> holds (BList (bounds_from 0 parts) c true) (map EList parts) (FList l :: frs)
| h_tuple cs next cols rows :
    zlen cols = zlen cs ->
    (forall j c col, nthZ cs j = Some c -> nthZ cols j = Some col -> holds c col []) ->
    (forall j col, nthZ cols j = Some col -> Forall2 (cell Z.eqb j) rows col) ->
    In (zlen cs) sizes ->
    holds (BTuple cs (zlen rows) false next) (map (ETuple (zlen cs)) rows) []
| h_tuple_open cs next cols rows fs now frs :
    zlen cols = zlen cs ->
    (forall j c col, nthZ cs j = Some c -> nthZ cols j = Some col -> holds c (col ++ filled Z.eqb j (all fs now)) (if j =? next then frs else [])) ->
    (forall j col, nthZ cols j = Some col -> Forall2 (cell Z.eqb j) rows col) ->
    Forall (fun f => 0 <= fst f < zlen cs) (all fs now) ->
    (match now with Some f => next = fst f | None => next = -1 /\ frs = [] end) ->
    In (zlen cs) sizes ->
    holds (BTuple cs (zlen rows) true next) (map (ETuple (zlen cs)) rows) (FTuple (zlen cs) fs now :: frs)
| h_record cs next ntt cols rows :
    let keys := distinct (flat_map (map fst) rows) in
    zlen cols = zlen cs -> zlen keys = zlen cs ->
    (forall j c col, nthZ cs j = Some c -> nthZ cols j = Some col -> holds c col []) ->
    (forall j k col, nthZ keys j = Some k -> nthZ cols j = Some col -> Forall2 (cell String.eqb k) rows col) ->
    holds (BRecord cs keys (zlen rows) false next ntt) (map ERecord rows) []
| h_record_open cs next ntt cols rows fs now frs :
    let keys := distinct (flat_map (map fst) (rows ++ [all fs now])) in
    zlen cols = zlen cs -> zlen keys = zlen cs ->
    (forall j k c col, nthZ keys j = Some k -> nthZ cs j = Some c -> nthZ cols j = Some col -> holds c (col ++ filled String.eqb k (all fs now)) (if j =? next then frs else [])) ->
    (forall j k col, nthZ keys j = Some k -> nthZ cols j = Some col -> Forall2 (cell String.eqb k) rows col) ->
    0 <= ntt <= zlen keys ->
    (match now with Some f => nthZ keys next = Some (fst f) | None => next = -1 /\ frs = [] end) ->
    holds (BRecord cs keys (zlen rows) true next ntt) (map ERecord rows) (FRecord fs now :: frs)
| h_union pos cs cur cols es frs :
    zlen cols = zlen cs ->
    (forall j c col, nthZ cs j = Some c -> nthZ cols j = Some col -> holds c col (if j =? cur then frs else [])) ->
    (forall j c, nthZ cs j = Some c -> exists kd, bkind c = Some kd /\ kind_ok kd) ->
    NoDup (map bkind cs) ->
    (forall j c col, nthZ cs j = Some c -> nthZ cols j = Some col -> part (bkind c) col es) ->
    Forall2 (fun p e => exists col, nthZ cols (fst p) = Some col /\ nthZ col (snd p) = Some e) pos es ->
    (cur = -1 /\ frs = [] \/ 0 <= cur < zlen cs /\ frs <> []) ->
    1 <= zlen cs ->
    holds (BUnion (map fst pos) (map snd pos) cs cur) es frs.


Lemma holds_length b es frs : holds b es frs -> blength b = zlen es.
Proof.
  intros H. destruct H; cbn [blength]; rewrite ?zlen_map, ?zlen_repeat, ?bounds_from_zlen; try lia.
  - now apply F2_zlen in H.
  - now apply F2_zlen in H0.
  - now apply F2_zlen in H4.
Qed.
Lemma holds_active b es frs : holds b es frs -> active b = match frs with [] => false | _ => true end.
Proof.
  induction 1; cbn [active]; try reflexivity; [assumption|].
  destruct H6 as [[-> ->]|[Hc Hf]]; [reflexivity|]. destruct frs; [congruence|]. lia.
Qed.

(** the entries of a node of one kind *)
Lemma holds_kind_entries b es frs kd e : holds b es frs -> bkind b = Some kd -> In e es ->
  (numeric kd = false -> ekind e = Some kd) /\ (numeric kd = true -> exists kd', ekind e = Some kd' /\ numeric kd' = true).
Proof.
  intros H Hk Hi. destruct H; try discriminate; cbn [bkind] in Hk; injection Hk as <-; cbn [numeric].
  - apply in_map_iff in Hi as (x & <- & _). split; [reflexivity|discriminate].
  - apply in_map_iff in Hi as (x & <- & _). split; [discriminate|]. intros _. eexists; split; reflexivity.
  - split; [discriminate|]. intros _. clear H0. induction H; [destruct Hi|]. destruct Hi as [->|Hi]; [|now apply IHForall2].
    destruct H as [->|(z & -> & _)]; eexists; split; reflexivity.
  - apply in_map_iff in Hi as (x & <- & _). split; [reflexivity|discriminate].
  - apply in_map_iff in Hi as (x & <- & _). split; [reflexivity|discriminate].
  - apply in_map_iff in Hi as (x & <- & _). split; [reflexivity|discriminate].
  - apply in_map_iff in Hi as (x & <- & _). split; [reflexivity|discriminate].
  - apply in_map_iff in Hi as (x & <- & _). split; [reflexivity|discriminate].
  - apply in_map_iff in Hi as (x & <- & _). split; [reflexivity|discriminate].
Qed.
Lemma holds_kind_frame b es f frs kd : holds b es (f :: frs) -> bkind b = Some kd -> kd = fkind f.
Proof. intros H Hk. inversion H; subst; try discriminate; cbn [bkind] in Hk; injection Hk as <-; reflexivity. Qed.


Lemma part_self b es frs kd : holds b es frs -> bkind b = Some kd -> part (Some kd) es es.
Proof.
  intros H Hk. unfold part. destruct (numeric kd) eqn:En; [apply incl_refl|].
  symmetry. apply filter_all. intros e Hi. apply has_kind_spec. now apply (holds_kind_entries _ _ _ _ _ H Hk Hi).
Qed.

(** ** fresh nodes *)
Lemma fresh_ok k ext frs : start [] k = Some (ext, frs) -> tame sizes [] k -> k <> CNull ->
  exists c kd, fresh_for k = Ok c /\ holds c ext frs /\ bkind c = Some kd /\ tkind k = Some kd /\ kind_ok kd.
Proof.
  intros E T Hn. destruct k; cbn in E; try discriminate; injection E as <- <-; try congruence; cbn [fresh_for].
  - eexists _, _; split; [reflexivity|]; split; [apply (h_bool [b])|]; repeat split.
  - eexists _, _; split; [reflexivity|]; split; [apply (h_int [z])|]; repeat split.
  - eexists _, _; split; [reflexivity|]; split; [apply (h_real [r] [EReal r])|]; repeat split. constructor; [now left|constructor].
  - eexists _, _; split; [reflexivity|]; split; [apply (h_list_open (BUnknown 0) [] [] [])|]; repeat split. cbn. apply (h_unknown 0). lia.
  - cbn [tame] in T. destruct T as [Hn0 Hin]. destruct (numfields <? 0) eqn:En; [lia|].
    set (cs := repeat (BUnknown 0) (Z.to_nat numfields)).
    assert (Hcs : zlen cs = numfields) by (unfold cs; rewrite zlen_repeat; lia).
    eexists _, _; split; [reflexivity|].
    pose proof (h_tuple_open cs (-1) (repeat [] (Z.to_nat numfields)) [] [] None []) as HT. rewrite Hcs in HT. cbn [bkind]. rewrite Hcs.
    split; [apply HT|repeat split; exact Hin].
    + rewrite zlen_repeat. lia.
    + intros j c col Hc Hcol. apply nthZ_repeat_inv in Hc as ->, Hcol as ->. cbn. destruct (j =? -1); apply (h_unknown 0); lia.
    + intros j col Hcol. apply nthZ_repeat_inv in Hcol as ->. constructor.
    + constructor.
    + split; reflexivity.
    + exact Hin.
  - eexists _, _; split; [reflexivity|]; split; [apply (h_record_open [] (-1) 0 [] [] [] None [])|]; cbn; repeat split; try reflexivity; try lia.
    + intros j k c col Hk. rewrite nthZ_nil in Hk. discriminate.
    + intros j k col Hk. rewrite nthZ_nil in Hk. discriminate.
Qed.

(** ** unions *)




Section Put.
Variables (pos : list (Z * Z)) (cs : list builder) (cols : list (list entry)) (es : list entry) (i : Z) (c' : builder) (old : list entry) (kd : kind).
Hypothesis Hlen : zlen cols = zlen cs.
Hypothesis Hi : 0 <= i <= zlen cs.
Hypothesis Hothers : forall j c col, j <> i -> nthZ cs j = Some c -> nthZ cols j = Some col -> holds c col [].
Hypothesis Hkinds : forall j c, nthZ cs j = Some c -> exists kd, bkind c = Some kd /\ kind_ok kd.
Hypothesis Hnodup : NoDup (map bkind cs).
Hypothesis Hpart : forall j c col, nthZ cs j = Some c -> nthZ cols j = Some col -> part (bkind c) col es.
Hypothesis Hpos : Forall2 (located cols) pos es.
Hypothesis Hold : nthZ cols i = Some old \/ i = zlen cs /\ old = [].
Hypothesis Hkd : bkind c' = Some kd.
Hypothesis Hok : kind_ok kd.
Hypothesis Hdiff : forall j c, j <> i -> nthZ cs j = Some c -> bkind c <> Some kd.

Lemma put_located ext p e : located cols p e -> located (put cols i (old ++ ext)) p e.
Proof.
  intros (col & Hc & He). unfold located. rewrite nthZ_put by lia. destruct (fst p =? i) eqn:E.
  - assert (Ep : fst p = i) by lia. rewrite Ep in Hc. destruct Hold as [Ho|[Eo _]].
    + rewrite Ho in Hc. injection Hc as <-. eexists; split; [reflexivity|]. rewrite nthZ_app. apply nthZ_Some in He as Hr.
      destruct (snd p <? zlen old) eqn:?; [assumption|lia].
    + exfalso. apply nthZ_Some in Hc. lia.
  - eauto.
Qed.
Lemma put_shape cur es' pos' ext frs' :
  holds c' (old ++ ext) frs' ->
  (forall j c col, j <> i -> nthZ cs j = Some c -> nthZ cols j = Some col -> part (bkind c) col es') ->
  part (Some kd) (old ++ ext) es' ->
  Forall2 (located (put cols i (old ++ ext))) pos' es' ->
  (cur = -1 /\ frs' = [] \/ cur = i /\ frs' <> []) ->
  holds (BUnion (map fst pos') (map snd pos') (put cs i c') cur) es' frs'.
Proof.
  intros Hc' Hp Hp' Hl Hcur. apply (h_union _ _ _ (put cols i (old ++ ext))).
  - apply zlen_put. exact Hlen.
  - intros j c col. rewrite !nthZ_put by lia. destruct (j =? i) eqn:Ej.
    + intros [= <-] [= <-]. destruct Hcur as [[-> ->]|[-> _]]; [now destruct (j =? -1)|now rewrite Ej].
    + intros H1 H2. assert (H := Hothers j c col ltac:(lia) H1 H2). destruct (j =? cur) eqn:E2; [|exact H].
      destruct Hcur as [[-> ->]|[-> _]]; [exact H|lia].
  - intros j c. rewrite nthZ_put by lia. destruct (j =? i); [intros [= <-]; eauto|apply Hkinds].
  - rewrite put_map. apply put_NoDup; [now rewrite zlen_map|exact Hnodup|]. intros j y Hj. rewrite nthZ_map.
    destruct (nthZ cs j) as [c|] eqn:Ec; [|discriminate]. cbn. intros [= <-]. rewrite Hkd. now apply (Hdiff j).
  - intros j c col. rewrite !nthZ_put by lia. destruct (j =? i) eqn:Ej.
    + intros [= <-] [= <-]. now rewrite Hkd.
    + intros H1 H2. apply (Hp j); [lia|assumption|assumption].
  - exact Hl.
  - destruct Hcur as [H|[-> H]]; [now left|right]. split; [|exact H]. rewrite map_put_fst. destruct (i <? zlen cs) eqn:?; lia.
  - rewrite map_put_fst. destruct (i <? zlen cs) eqn:?; lia.
Qed.
Lemma union_open frs' : frs' <> [] -> holds c' old frs' -> part (Some kd) old es ->
  holds (BUnion (map fst pos) (map snd pos) (put cs i c') i) es frs'.
Proof.
  intros Hf Hc' Hp. apply (put_shape _ _ _ []); rewrite ?app_nil_r; auto.
  - intros; now apply (Hpart j).
  - assert (HL := put_located []). rewrite app_nil_r in HL. clear - Hpos HL. induction Hpos; constructor; auto.
Qed.
Lemma union_close e : holds c' (old ++ [e]) [] -> part (Some kd) (old ++ [e]) (es ++ [e]) ->
  (numeric kd = true /\ (exists kd', ekind e = Some kd' /\ numeric kd' = true) \/ ekind e = Some kd) ->
  holds (BUnion (map fst pos ++ [i]) (map snd pos ++ [zlen old]) (put cs i c') (-1)) (es ++ [e]) [].
Proof.
  intros Hc' Hp He.
  replace (map fst pos ++ [i]) with (map fst (pos ++ [(i, zlen old)])) by (rewrite map_app; reflexivity).
  replace (map snd pos ++ [zlen old]) with (map snd (pos ++ [(i, zlen old)])) by (rewrite map_app; reflexivity).
  apply (put_shape _ _ _ [e]); auto.
  - intros j c col Hj H1 H2. apply part_app; [now apply (Hpart j)|]. intros kd1 Ek En. destruct He as [[_ (kd' & Ek' & En')]|Ek'].
    + intros E. rewrite Ek' in E. injection E as ->. congruence.
    + intros E. rewrite Ek' in E. injection E as ->. now apply (Hdiff j c Hj H1).
  - apply Forall2_app.
    + assert (HL := put_located [e]). clear - Hpos HL. induction Hpos; constructor; auto.
    + constructor; [|constructor]. unfold located. cbn [fst snd]. rewrite nthZ_put by lia. rewrite Z.eqb_refl. eexists; split; [reflexivity|]. apply nthZ_mid.
Qed.
End Put.

(** the first thing that does not fit makes a union *)

(** data of a kind that the union does not have yet *)
Lemma located_kind cs cols pos es kd : (forall j c col, nthZ cs j = Some c -> nthZ cols j = Some col -> exists frs, holds c col frs) ->
  zlen cols = zlen cs ->
  (forall j c, nthZ cs j = Some c -> exists kd, bkind c = Some kd /\ kind_ok kd) ->
  Forall2 (located cols) pos es -> (forall j c, nthZ cs j = Some c -> bkind c <> Some kd) -> numeric kd = false -> filter (has_kind kd) es = [].
Proof.
  intros Hh Hl Hk HF Hd Hn. apply filter_none. intros e Hi.
  assert (exists p, located cols p e) as (p & col & Hc & He).
  { clear - HF Hi. induction HF; [destruct Hi|]. destruct Hi as [->|Hi]; eauto. }
  destruct (nthZ_lt cs (fst p)) as [c Ec]; [apply nthZ_Some in Hc; lia|].
  destruct (Hh _ _ _ Ec Hc) as [frs Hhold]. destruct (Hk _ _ Ec) as (kd' & Ek & _).
  destruct (holds_kind_entries _ _ _ _ _ Hhold Ek (nthZ_In _ _ _ He)) as [K1 K2].
  destruct (has_kind kd e) eqn:E; [|reflexivity]. exfalso. apply has_kind_spec in E. destruct (numeric kd') eqn:En'.
  - destruct (K2 eq_refl) as (kd2 & Ek2 & En2). rewrite E in Ek2. injection Ek2 as ->. congruence.
  - rewrite (K1 eq_refl) in E. injection E as ->. now apply (Hd _ _ Ec).
Qed.

Lemma union_of_ok b es kd k ext frs :
  holds b es [] -> bkind b = Some kd -> kind_ok kd -> start [] k = Some (ext, frs) -> tame sizes [] k -> k <> CNull ->
  tkind k <> Some kd ->
  exists u, union_of b k = Ok u /\ holds u (es ++ ext) frs.
Proof.
  intros Hb Hk Hok Es T Hn Hd. pose proof (holds_length _ _ _ Hb) as Hlen. pose proof (zlen_nonneg es) as H0.
  unfold union_of. rewrite Hlen. destruct (zlen es <? 0) eqn:?; [lia|].
  destruct (fresh_ok _ _ _ Es T Hn) as (c & kd' & Ef & Hc & Hkc & Htk & Hokc). rewrite Ef. cbn [bind].
  pose proof (single_located es) as HL. set (pos := map (fun i => (0, i)) (zseq 0 (zlen es))) in *.
  assert (E1 : repeat 0 (Z.to_nat (zlen es)) = map fst pos) by (unfold pos; rewrite map_map; cbn; now rewrite map_const_zseq by lia).
  assert (E2 : zseq 0 (zlen es) = map snd pos) by (unfold pos; rewrite map_map; cbn; now rewrite map_id).
  assert (Hdk : forall j c0, j <> 1 -> nthZ [b] j = Some c0 -> bkind c0 <> Some kd').
  { intros j c0 _ Hj. apply nthZ_In in Hj as [<-|[]]. rewrite Hk. congruence. }
  assert (Hp0 : part (Some kd') [] es).
  { unfold part. destruct (numeric kd') eqn:En; [intros x []|]. symmetry. apply (located_kind [b] [es] pos es).
    - intros j c0 col. rewrite !nthZ_cons, !nthZ_nil. destruct (j =? 0); [|discriminate]. intros [= <-] [= <-]. eauto.
    - reflexivity.
    - intros j c0 Hj. apply nthZ_In in Hj as [<-|[]]. eauto.
    - exact HL.
    - intros j c0 Hj. apply nthZ_In in Hj as [<-|[]]. congruence.
    - exact En. }
  assert (A1 : forall j c0 col, j <> 1 -> nthZ [b] j = Some c0 -> nthZ [es] j = Some col -> holds c0 col []).
  { intros j c0 col _. rewrite !nthZ_cons, !nthZ_nil. destruct (j =? 0); [|discriminate]. now intros [= <-] [= <-]. }
  assert (A2 : forall j c0, nthZ [b] j = Some c0 -> exists kd, bkind c0 = Some kd /\ kind_ok kd).
  { intros j c0 Hj. apply nthZ_In in Hj as [<-|[]]. eauto. }
  assert (A3 : NoDup (map bkind [b])) by (constructor; [intros []|constructor]).
  assert (A4 : forall j c0 col, nthZ [b] j = Some c0 -> nthZ [es] j = Some col -> part (bkind c0) col es).
  { intros j c0 col. rewrite !nthZ_cons, !nthZ_nil. destruct (j =? 0); [|discriminate]. intros [= <-] [= <-]. rewrite Hk. eapply part_self; eauto. }
  rewrite E1, E2. destruct (start_starts _ _ _ Es) as [(El & -> & e & -> & Ek)|(El & -> & f & -> & Ek)]; rewrite El; eexists; (split; [reflexivity|]).
  - apply (union_close pos [b] [es] es 1 c [] kd'); auto; [vm_compute; split; discriminate| |].
    + unfold part in *. destruct (numeric kd') eqn:En.
      * intros x [->|[]]. apply in_or_app. right. now left.
      * rewrite filter_app, <- Hp0. cbn. unfold has_kind. rewrite Ek, Htk, kind_eqb_refl. reflexivity.
    + right. congruence.
  - rewrite app_nil_r. apply (union_open pos [b] [es] es 1 c [] kd'); auto; [vm_compute; split; discriminate|discriminate].
Qed.

Lemma holds_kind_ok b es frs kd : holds b es frs -> bkind b = Some kd -> kind_ok kd.
Proof. intros H Hk. destruct H; try discriminate; cbn in Hk; injection Hk as <-; cbn; auto. Qed.
Lemma holds_kind_nonnull b es frs kd : holds b es frs -> bkind b = Some kd -> filter nonnull es = es.
Proof.
  intros H Hk. apply filter_all. intros e Hi. destruct (holds_kind_entries _ _ _ _ _ H Hk Hi) as [K1 K2].
  destruct e; try reflexivity. destruct (numeric kd); [destruct (K2 eq_refl) as (? & E & _)|specialize (K1 eq_refl); rename K1 into E]; discriminate.
Qed.
End Holds.
