(** Slices with several items select what the specification says. *)
From Verif Require Import Base BaseLemmas LoopLemmas OmapLemmas Content KCore Core KRange KConvert Convert KOption Option KAxis Axis KCombinations Combinations KGetitem
  SpecArray SpecForm SpecSlice SpecOption PCore PRange PCarry PList POption PForm PAxis PNat PNum PCombinations Getitem SpecGetitem PGetitemK PGetitem1 PField.

Definition kout {A} (reg : bool) (r : res A) (o : option A) : Prop := match r with Ok x => o = Some x | Err _ => o = None \/ reg = true | UB => False end.
Definition outcome (reg : bool) (r : res content) (o : option (list value)) : Prop :=
  match r with Ok c => exists ws, o = Some ws /\ den c = Some ws | Err _ => o = None \/ reg = true | UB => False end.
Definition rows (items : list sliceitem) (ks : list (option Z)) (vs : list value) : option (list value) :=
  omap (fun kv => pick items (fst kv) (snd kv)) (combine ks vs).
Lemma outcome_mono r1 r2 r o : (r1 = true -> r2 = true) -> outcome r1 r o -> outcome r2 r o.
Proof. unfold outcome. destruct r; auto. intros H [E|E]; auto. Qed.

Ltac zcons H := rewrite ?zlen_cons in H; repeat match type of H with context [zlen (@nil ?A)] => change (zlen (@nil A)) with 0 in H end.
(** ** lists *)
Lemma omap_pos {X P V} (f : X -> option P) (get : P -> option V) (e : X -> option V) l :
  (forall x, In x l -> match f x with Some p => exists v, get p = Some v /\ e x = Some v | None => e x = None end) ->
  match omap f l with Some ps => exists vs, omap get ps = Some vs /\ omap e l = Some vs | None => omap e l = None end.
Proof.
  induction l as [|x l IH]; intros H; [exists []; auto|]. cbn [omap]. pose proof (H x (or_introl eq_refl)) as Hx. specialize (IH (fun y Hy => H y (or_intror Hy))).
  destruct (f x) as [p|].
  - destruct Hx as (v & E1 & ->). destruct (omap f l) as [ps|]; [|now rewrite IH]. destruct IH as (vs & E3 & ->). exists (v :: vs). cbn [omap]. now rewrite E1, E3.
  - now rewrite Hx.
Qed.
Lemma combine_map_r {A B C} (f : B -> C) (ks : list A) l : combine ks (map f l) = map (fun kx => (fst kx, f (snd kx))) (combine ks l).
Proof. revert l; induction ks as [|k ks IH]; intros [|x l]; cbn [map combine]; try reflexivity. now rewrite IH. Qed.
Lemma combine_map_l {A B C} (f : A -> C) (ks : list A) (l : list B) : combine (map f ks) l = map (fun kx => (f (fst kx), snd kx)) (combine ks l).
Proof. revert l; induction ks as [|k ks IH]; intros [|x l]; cbn [map combine]; try reflexivity. now rewrite IH. Qed.
Lemma omap_bind2 {K X V W} (ks : list K) (xs : list X) (e : K * X -> option V) (h : K -> V -> option W) :
  omap (fun kx => match e kx with Some v => h (fst kx) v | None => None end) (combine ks xs) =
  match omap e (combine ks xs) with Some vs => omap (fun kv => h (fst kv) (snd kv)) (combine ks vs) | None => None end.
Proof.
  revert xs; induction ks as [|k ks IH]; intros [|x xs]; cbn [combine omap fst snd]; try reflexivity. rewrite IH. destruct (e (k, x)) as [v|]; [|reflexivity].
  destruct (omap e (combine ks xs)) as [vs|]; [|destruct (h k v); reflexivity]. reflexivity.
Qed.
Lemma omap_combine_r {K X V} (ks : list K) (xs : list X) (e : X -> option V) : zlen ks = zlen xs -> omap (fun kx => e (snd kx)) (combine ks xs) = omap e xs.
Proof.
  revert xs; induction ks as [|k ks IH]; intros [|x xs] H; cbn [combine omap snd]; try reflexivity; zcons H.
  - pose proof (zlen_nonneg xs). lia.
  - rewrite IH by lia. reflexivity.
Qed.
Lemma rows_lists it t ks segs : rows (it :: t) ks (map VList segs) = omap (fun ks => pick (it :: t) (fst ks) (VList (snd ks))) (combine ks segs).
Proof. unfold rows. rewrite combine_map_r, omap_map. reflexivity. Qed.
Lemma rows_nil ks vs : zlen ks = zlen vs -> rows [] ks vs = Some vs.
Proof. intros H. unfold rows. cbn [pick]. rewrite (omap_combine_r ks vs (fun v => Some v)) by exact H. rewrite (omap_Some_map (fun v => v)). now rewrite map_id. Qed.
Lemma rows_zlen items ks vs ws : zlen ks = zlen vs -> rows items ks vs = Some ws -> zlen ws = zlen vs.
Proof. intros Hz H. apply omap_zlen in H. rewrite zlen_combine in H by exact Hz. lia. Qed.

(** nested rows *)
Lemma rows_app t k1 k2 v1 v2 : zlen k1 = zlen v1 -> rows t (k1 ++ k2) (v1 ++ v2) = match rows t k1 v1, rows t k2 v2 with Some a, Some b => Some (a ++ b) | _, _ => None end.
Proof.
  intros H. unfold rows. assert (combine (k1 ++ k2) (v1 ++ v2) = combine k1 v1 ++ combine k2 v2) as ->.
  { revert v1 H. induction k1 as [|k k1 IH]; intros [|v v1] H; cbn [app combine]; zcons H; try reflexivity; [pose proof (zlen_nonneg v1); lia|pose proof (zlen_nonneg k1); lia|]. now rewrite IH by lia. }
  apply omap_app.
Qed.
Lemma rows_concat t (kss : list (list (option Z))) xss : Forall2 (fun ks xs => zlen ks = zlen xs) kss xss ->
  rows t (concat kss) (concat xss) = option_map (@concat _) (omap (fun kx => rows t (fst kx) (snd kx)) (combine kss xss)).
Proof.
  induction 1 as [|ks xs kss xss H _ IH]; [reflexivity|]. cbn [concat combine omap fst snd]. rewrite rows_app by exact H. rewrite IH. destruct (rows t ks xs); [|reflexivity].
  destruct (omap _ (combine kss xss)); reflexivity.
Qed.
Lemma wrap_step reg r mk kss xss t o : Forall2 (fun ks xs => zlen ks = zlen xs) kss xss ->
  outcome reg r (rows t (concat kss) (concat xss)) ->
  (forall out yss, den out = Some (concat yss) -> map zlen yss = map zlen xss -> exists c, mk out = Ok c /\ den c = Some (map VList yss)) ->
  o = option_map (map VList) (omap (fun kx => rows t (fst kx) (snd kx)) (combine kss xss)) ->
  outcome reg (let* out := r in mk out) o.
Proof.
  intros HF Hr Hmk ->. rewrite (rows_concat _ _ _ HF) in Hr. destruct r as [out|e|]; cbn [bind outcome] in *; [|destruct Hr as [Hr|Hr]; [left|right; exact Hr]|exact Hr].
  - destruct Hr as (ws & E & Hd). destruct (omap _ (combine kss xss)) as [yss|] eqn:Ey; [|discriminate]. cbn [option_map] in *. injection E as <-.
    assert (HL : map zlen yss = map zlen xss).
    { clear -Ey HF. revert yss Ey. induction HF as [|ks xs kss xss H _ IH]; intros yss Ey; cbn [combine omap fst snd] in Ey; [injection Ey as <-; reflexivity|].
      destruct (rows t ks xs) as [ys|] eqn:E; [|discriminate]. destruct (omap _ (combine kss xss)) as [yss'|]; [|discriminate]. injection Ey as <-. cbn [map]. rewrite (rows_zlen _ _ _ _ H E). f_equal. now apply IH. }
    destruct (Hmk out yss Hd HL) as (c & -> & Hc). eexists; split; [reflexivity|exact Hc].
  - destruct (omap _ (combine kss xss)); [discriminate|reflexivity].
Qed.

(** ** the state of index arrays *)
Definition is_adv (adv : option (list Z)) : bool := match adv with Some _ => true | None => false end.
Definition adv_ok (n : Z) (items : list sliceitem) (adv : option (list Z)) (ks : list (option Z)) : Prop :=
  match adv with
  | None => (1 <= arrays items -> Forall (eq None) ks) /\ (arrays items <= 2 \/ zlen ks <= 1)
  | Some a => zlen ks <= zlen a /\ (1 <= arrays items -> ks = map Some a /\ Forall (fun k => 0 <= k < n) a /\ (2 <= arrays items -> a = zseq 0 (zlen a)))
  end.

Section Main.
Variable is64 : content -> bool.
Variables n m : Z.
Definition correct (fuel : nat) : Prop := forall c items adv ks vs,
  (need c + length items <= fuel)%nat -> den c = Some vs -> zlen ks = zlen vs -> exact c -> fits n m (is_adv adv) items (form_of c) -> adv_ok n items adv ks -> Forall (short m) vs ->
  outcome (has_regular c) (getitem_next is64 fuel c items adv) (rows items ks vs).
(** what the induction hypothesis gives for the elements picked out of the lists [segs] *)
Lemma next_ok fuel c' ws nc next xs t adv' ks (segs : list (list value)) : correct fuel ->
  (bound c' + length t <= fuel)%nat -> den c' = Some ws -> exact c' -> fits n m (is_adv adv') t (form_of c') ->
  carry c' nc true = Ok next -> omap (nthZ ws) nc = Some xs -> zlen ks = zlen xs -> adv_ok n t adv' ks ->
  Forall (short m) (map VList segs) -> (forall x, In x xs -> exists s, In s segs /\ In x s) ->
  outcome (has_regular c') (getitem_next is64 fuel next t adv') (rows t ks xs).
Proof.
  intros IH Hf Hd HE Hfit Hc Hx Hk Ha Hs Hin. destruct (carry_same _ _ _ _ Hc) as [F B]. destruct (carry_den _ _ _ _ true Hd Hx) as (next' & Hc' & Hd'). rewrite Hc in Hc'. injection Hc' as <-.
  rewrite <- (carry_reg _ _ _ _ Hc). apply IH; auto.
  - pose proof (need_bound next). lia.
  - exact (carry_exact _ _ _ _ _ _ Hd Hx HE Hc).
  - rewrite F. exact Hfit.
  - rewrite Forall_forall in *. intros x Hxx. destruct (Hin x Hxx) as (s & Hs1 & Hs2). specialize (Hs (VList s) (in_map _ _ _ Hs1)). rewrite short_list, Forall_forall in Hs. apply Hs. exact Hs2.
Qed.

End Main.
Lemma elem_In s i x : elem s i = Some x -> In x s.
Proof. unfold elem. destruct (wrap i (zlen s)) as [k|]; [|discriminate]. apply nthZ_In. Qed.
Lemma omap_elem_In {X} (e : X -> option value) (f : X -> list value) (l : list X) xs : omap e l = Some xs -> (forall y x, e y = Some x -> In x (f y)) -> forall x, In x xs -> exists s, In s (map f l) /\ In x s.
Proof.
  intros H He x Hx. apply In_nthZ in Hx. destruct Hx as (i & Hi). destruct (omap_nth' _ _ _ _ _ H Hi) as (y & Hy & E). exists (f y). split; [apply in_map; eapply nthZ_In; exact Hy|eauto].
Qed.

(** ** integer items *)
Lemma step_at reg K c' ws l ks i t (rec : content -> res content) :
  den c' = Some ws -> forallb (sub_ok (zlen ws)) l = true -> zlen ks = zlen l -> kout reg K (omap (at_pos i) l) ->
  (forall nc next xs, carry c' nc true = Ok next -> omap (nthZ ws) nc = Some xs -> zlen ks = zlen xs -> (forall x, In x xs -> exists s, In s (map (seg ws) l) /\ In x s) ->
     outcome reg (rec next) (rows t ks xs)) ->
  outcome reg (let* nc := K in let* next := carry c' nc true in rec next) (rows (SAt i :: t) ks (map VList (map (seg ws) l))).
Proof.
  intros Hd Hs Hk HK Hrec.
  assert (E : rows (SAt i :: t) ks (map VList (map (seg ws) l)) = match omap (fun ab => elem (seg ws ab) i) l with Some xs => rows t ks xs | None => None end).
  { rewrite rows_lists. rewrite (combine_map_r (seg ws)), omap_map. cbn [fst snd pick thru].
    etransitivity; [apply (omap_bind2 ks l (fun kab => elem (seg ws (snd kab)) i) (pick t))|]. rewrite (omap_combine_r ks l (fun ab => elem (seg ws ab) i)) by exact Hk. reflexivity. }
  pose proof (omap_pos (at_pos i) (nthZ ws) (fun ab => elem (seg ws ab) i) l) as HP.
  assert (HP' : match omap (at_pos i) l with Some ps => exists vs, omap (nthZ ws) ps = Some vs /\ omap (fun ab => elem (seg ws ab) i) l = Some vs | None => omap (fun ab => elem (seg ws ab) i) l = None end).
  { apply HP. intros ab Hab. rewrite forallb_forall in Hs. pose proof (Hs ab Hab) as Hab'. rewrite (elem_pos _ _ _ Hab'). destruct (at_pos i ab) as [p|] eqn:Ep; [|reflexivity].
    destruct (at_pos_in _ _ _ _ Hab' Ep) as (x & Hx). eauto. }
  clear HP. rewrite E. unfold kout in HK. destruct K as [nc|e|]; cbn [bind outcome].
  - rewrite HK in HP'. destruct HP' as (xs & H1 & H2). rewrite H2. destruct (carry_den _ _ _ _ true Hd H1) as (next & En & _). rewrite En. cbn [bind]. apply (Hrec nc); auto.
    + apply omap_zlen in H2. lia.
    + apply (omap_elem_In _ _ _ _ H2). intros ab x. apply elem_In.
  - destruct HK as [HK|HK]; [left|right; exact HK]. rewrite HK in HP'. now rewrite HP'.
  - exact HK.
Qed.

(** ** index arrays, the first and the others *)
Lemma step_adv reg K c' ws l a n' index shape t (rec : content -> list Z -> res content) :
  den c' = Some ws -> forallb (sub_ok (zlen ws)) l = true -> zlen a = zlen l -> kout reg K (option_map (fun ps => (ps, zseq 0 n')) (omap (adv_pos index) (combine a l))) ->
  (forall nc next xs, carry c' nc true = Ok next -> omap (nthZ ws) nc = Some xs -> zlen a = zlen xs -> (forall x, In x xs -> exists s, In s (map (seg ws) l) /\ In x s) ->
     outcome reg (rec next (zseq 0 n')) (rows t (map Some a) xs)) ->
  outcome reg (let* ca := K in let '(nc, na) := ca in let* next := carry c' nc true in rec next na) (rows (SArray shape index :: t) (map Some a) (map VList (map (seg ws) l))).
Proof.
  intros Hd Hs Hk HK Hrec. pose (e := fun kab : Z * (Z * Z) => match nthZ index (fst kab) with Some x => elem (seg ws (snd kab)) x | None => None end).
  assert (E : rows (SArray shape index :: t) (map Some a) (map VList (map (seg ws) l)) = match omap e (combine a l) with Some xs => rows t (map Some a) xs | None => None end).
  { rewrite rows_lists. rewrite (combine_map_r (seg ws)), omap_map, combine_map_l, omap_map. cbn [fst snd pick thru].
    etransitivity; [|etransitivity; [apply (omap_bind2 a l e (fun k => pick t (Some k)))|]].
    - apply omap_ext. intros [k ab] _. unfold e. cbn [fst snd]. destruct (nthZ index k); reflexivity.
    - destruct (omap e (combine a l)); [|reflexivity]. unfold rows. rewrite combine_map_l, omap_map. reflexivity. }
  assert (HP : match omap (adv_pos index) (combine a l) with Some ps => exists vs, omap (nthZ ws) ps = Some vs /\ omap e (combine a l) = Some vs | None => omap e (combine a l) = None end).
  { apply omap_pos. intros [k ab] Hab. rewrite forallb_forall in Hs. pose proof (Hs ab (in_combine_r _ _ _ _ Hab)) as Hab'. unfold adv_pos, e. cbn [fst snd]. destruct (nthZ index k) as [x|]; [|reflexivity].
    rewrite (elem_pos _ _ _ Hab'). destruct (at_pos x ab) as [p|] eqn:Ep; [|reflexivity]. destruct (at_pos_in _ _ _ _ Hab' Ep) as (y & Hy). eauto. }
  rewrite E. unfold kout in HK. destruct K as [[nc na]|err|]; cbn [bind outcome].
  - destruct (omap (adv_pos index) (combine a l)) as [ps|]; [|discriminate]. cbn [option_map] in HK. injection HK as <- <-.
    destruct HP as (xs & H1 & H2). rewrite H2. destruct (carry_den _ _ _ _ true Hd H1) as (next & En & _). rewrite En. cbn [bind]. apply (Hrec ps); auto.
    + apply omap_zlen in H2. rewrite zlen_combine in H2 by exact Hk. lia.
    + intros x Hx. apply In_nthZ in Hx. destruct Hx as (i & Hi). destruct (omap_nth' _ _ _ _ _ H2 Hi) as ([k ab] & Hy & Ee). unfold e in Ee. cbn [fst snd] in Ee. destruct (nthZ index k); [|discriminate].
      exists (seg ws ab). split; [apply in_map; eapply in_combine_r; eapply nthZ_In; exact Hy|]. eapply elem_In; exact Ee.
  - destruct HK as [HK|HK]; [left|right; exact HK]. destruct (omap (adv_pos index) (combine a l)); [discriminate|]. now rewrite HP.
  - exact HK.
Qed.
Lemma rows_index t index (s : list value) L : L = zlen index ->
  omap (fun j => match nthZ index j with Some i => match elem s i with Some x => pick t (Some j) x | None => None end | None => None end) (zseq 0 L) =
  match omap (elem s) index with Some xs => rows t (map Some (zseq 0 L)) xs | None => None end.
Proof.
  intros ->. pose proof (zlen_nonneg index). pose proof (omap_bind2 (zseq 0 (zlen index)) index (fun kx => elem s (snd kx)) (fun k => pick t (Some k))) as E. rewrite (omap_combine_r _ _ (elem s)) in E by (rewrite zlen_zseq; lia).
  transitivity (omap (fun kx => match elem s (snd kx) with Some v => pick t (Some (fst kx)) v | None => None end) (combine (zseq 0 (zlen index)) index)).
  - assert (combine (zseq 0 (zlen index)) index = map (fun j => (j, match nthZ index j with Some x => x | None => 0 end)) (zseq 0 (zlen index))) as ->.
    { apply list_eqZ; rewrite zlen_combine, ?zlen_map by (rewrite zlen_zseq; lia); [reflexivity|]. intros i Hi. rewrite zlen_zseq in Hi by lia. rewrite nthZ_combine, nthZ_map, nthZ_zseq by lia. cbn [option_map]. replace (0 + i) with i by lia. destruct (nthZ_lt index i) as [x ->]; [lia|reflexivity]. }
    rewrite omap_map. apply omap_ext. intros j Hj. apply In_zseq in Hj. cbn [fst snd]. destruct (nthZ_lt index j) as [x ->]; [lia|reflexivity].
  - etransitivity; [exact E|]. destruct (omap (elem s) index); [|reflexivity]. unfold rows. rewrite combine_map_l, omap_map. reflexivity.
Qed.
Lemma F2_const {A B} (f : A -> list value) (k : list B) l : (forall x, In x l -> zlen k = zlen (f x)) -> Forall2 (fun (ks : list B) xs => zlen ks = zlen xs) (map (fun _ => k) l) (map f l).
Proof. induction l as [|x l IH]; intros H; cbn [map]; constructor; [apply H; now left|apply IH; intros; apply H; now right]. Qed.
Lemma concat_map_const_Some (l : list (Z * Z)) L : concat (map (fun _ => map Some (zseq 0 L)) l) = map Some (concat (map (fun _ => zseq 0 L) l)).
Proof. rewrite concat_map, map_map. reflexivity. Qed.
Lemma step_first reg K c' ws l ks index shape L t (rec : content -> list Z -> res content) :
  den c' = Some ws -> forallb (sub_ok (zlen ws)) l = true -> zlen ks = zlen l -> Forall (eq None) ks -> L = zlen index -> 0 < L ->
  kout reg K (option_map (fun pss => (concat pss, concat (map (fun _ => zseq 0 L) l))) (omap (arr_pos index) l)) ->
  (forall nc next xs, carry c' nc true = Ok next -> omap (nthZ ws) nc = Some xs -> zlen xs = zlen l * L -> (forall x, In x xs -> exists s, In s (map (seg ws) l) /\ In x s) ->
     outcome reg (rec next (concat (map (fun _ => zseq 0 L) l))) (rows t (map Some (concat (map (fun _ => zseq 0 L) l))) xs)) ->
  outcome reg (let* out := (let* ca := K in let '(nc, na) := ca in let* next := carry c' nc true in rec next na) in mkRegular L 0 out)
    (rows (SArray shape index :: t) ks (map VList (map (seg ws) l))).
Proof.
  intros Hd Hs Hk HN HL HL0 HK Hrec.
  assert (E : rows (SArray shape index :: t) ks (map VList (map (seg ws) l)) =
    omap (fun s => option_map VList (match omap (elem s) index with Some xs => rows t (map Some (zseq 0 L)) xs | None => None end)) (map (seg ws) l)).
  { rewrite rows_lists. rewrite <- (omap_combine_r ks (map (seg ws) l)) by (rewrite zlen_map; exact Hk). apply omap_ext. intros [k s] Hin.
    rewrite Forall_forall in HN. rewrite <- (HN k (in_combine_l _ _ _ _ Hin)). cbn [fst snd pick thru]. f_equal. rewrite <- HL. apply rows_index. exact HL. }
  rewrite E, omap_map. clear E.
  assert (HP : match omap (arr_pos index) l with Some pss => exists xss, omap (omap (nthZ ws)) pss = Some xss /\ omap (fun ab => omap (elem (seg ws ab)) index) l = Some xss | None => omap (fun ab => omap (elem (seg ws ab)) index) l = None end).
  { apply omap_pos. intros ab Hab. rewrite forallb_forall in Hs. pose proof (Hs ab Hab) as Hab'. unfold arr_pos. apply (omap_pos (fun x => at_pos x ab) (nthZ ws) (elem (seg ws ab)) index).
    intros x _. rewrite (elem_pos _ _ _ Hab'). destruct (at_pos x ab) as [p|] eqn:Ep; [|reflexivity]. destruct (at_pos_in _ _ _ _ Hab' Ep) as (y & Hy). eauto. }
  unfold kout in HK. destruct K as [[nc na]|err|]; cbn [bind outcome].
  - destruct (omap (arr_pos index) l) as [pss|] eqn:Ep; [|discriminate]. cbn [option_map] in HK. injection HK as <- <-. destruct HP as (xss & H1 & H2).
    assert (H1' : omap (nthZ ws) (concat pss) = Some (concat xss)) by (rewrite omap_concat, H1; reflexivity).
    destruct (carry_den _ _ _ _ true Hd H1') as (next & En & _). rewrite En. cbn [bind].
    assert (Hxs : forall xs, In xs xss -> zlen xs = L). { intros xs Hx. apply In_nthZ in Hx. destruct Hx as (i & Hi). destruct (omap_nth' _ _ _ _ _ H2 Hi) as (ab & _ & Ee). apply omap_zlen in Ee. lia. }
    apply (wrap_step reg _ (fun out => mkRegular L 0 out) (map (fun _ => map Some (zseq 0 L)) xss) xss t).
    + rewrite <- (map_id xss) at 2. apply F2_const. intros xs Hx. rewrite zlen_map, zlen_zseq by lia. rewrite (Hxs _ Hx). lia.
    + assert (concat (map (fun _ => map Some (zseq 0 L)) xss) = map Some (concat (map (fun _ => zseq 0 L) l))) as ->.
      { rewrite <- concat_map_const_Some. f_equal. apply omap_zlen in H2. apply list_eqZ; rewrite !zlen_map; [exact H2|]. intros i Hi. rewrite !nthZ_map. destruct (nthZ_lt xss i Hi) as [? ->]. destruct (nthZ_lt l i) as [? ->]; [lia|reflexivity]. }
      apply (Hrec (concat pss)); auto.
      * rewrite (zlen_concat_const xss L) by exact Hxs. now rewrite (omap_zlen _ _ _ H2).
      * intros x Hx. apply in_concat in Hx. destruct Hx as (xs & Hx1 & Hx2). apply In_nthZ in Hx1. destruct Hx1 as (i & Hi). destruct (omap_nth' _ _ _ _ _ H2 Hi) as (ab & Hab & Ee).
        exists (seg ws ab). split; [apply in_map; eapply nthZ_In; exact Hab|]. apply In_nthZ in Hx2. destruct Hx2 as (j & Hj). destruct (omap_nth' _ _ _ _ _ Ee Hj) as (y & _ & E'). eapply elem_In; exact E'.
    + intros out yss Hout Hlen. assert (Hr : den (Regular L 0 out) = Some (map VList yss)).
      { apply regular_den; [lia|lia| |exact Hout]. intros y Hy. assert (In (zlen y) (map zlen xss)) as Hy' by (rewrite <- Hlen; apply in_map; exact Hy). apply in_map_iff in Hy'. destruct Hy' as (xs & Hz & Hxx). rewrite <- Hz. auto. }
      rewrite (mkRegular_den _ _ _ _ Hr). eauto.
    + rewrite omap_option_map. f_equal. transitivity (omap (fun ab => match omap (elem (seg ws ab)) index with Some xs => rows t (map Some (zseq 0 L)) xs | None => None end) l); [reflexivity|].
      clear -H2. revert xss H2. induction l as [|ab l IH]; intros xss H2; cbn [omap] in *; [injection H2 as <-; reflexivity|]. destruct (omap (elem (seg ws ab)) index) as [xs|]; [|discriminate].
      destruct (omap (fun ab => omap (elem (seg ws ab)) index) l) as [xss'|]; [|discriminate]. injection H2 as <-. cbn [map combine omap fst snd]. rewrite (IH _ eq_refl). reflexivity.
  - destruct HK as [HK|HK]; [left|right; exact HK]. destruct (omap (arr_pos index) l); [discriminate|].
    rewrite omap_option_map. match goal with |- option_map _ ?x = None => assert (x = None) as ->; [|reflexivity] end.
    clear -HP. induction l as [|ab l IH]; cbn [omap] in *; [discriminate|]. destruct (omap (elem (seg ws ab)) index) as [xs|]; [|reflexivity]. destruct (omap (fun ab => omap (elem (seg ws ab)) index) l); [discriminate|].
    rewrite IH by reflexivity. destruct (rows t _ xs); reflexivity.
  - exact HK.
Qed.

(** ** ranges *)
Section Range.
Variables (start stop step : Z).
Definition sel (len : Z) : list Z := py_slice (opt64 start) (opt64 stop) step len.
Definition rpos (ab : Z * Z) : list Z := map (Z.add (fst ab)) (sel (diff ab)).
Definition cut (s : list value) : list value := map (fun j => match nthZ s j with Some x => x | None => VNone end) (sel (zlen s)).
Lemma cut_spec s : step <> 0 -> omap (nthZ s) (sel (zlen s)) = Some (cut s).
Proof.
  intros Hs. unfold cut. rewrite <- omap_Some_map. apply omap_ext. intros j Hj. apply py_slice_in_range in Hj; [|apply zlen_nonneg|exact Hs]. destruct (nthZ_lt s j Hj) as [x ->]. reflexivity.
Qed.
Lemma cut_In s x : step <> 0 -> In x (cut s) -> In x s.
Proof. intros Hs Hx. apply In_nthZ in Hx. destruct Hx as (i & Hi). destruct (omap_nth' _ _ _ _ _ (cut_spec s Hs) Hi) as (j & _ & E). eapply nthZ_In; exact E. Qed.
Lemma zlen_cut s : zlen (cut s) = zlen (sel (zlen s)).
Proof. apply zlen_map. Qed.
Lemma rpos_spec ws ab : step <> 0 -> sub_ok (zlen ws) ab = true -> omap (nthZ ws) (rpos ab) = Some (cut (seg ws ab)).
Proof.
  intros Hs Hab. rewrite <- (cut_spec _ Hs). unfold rpos. rewrite (zlen_seg _ _ Hab), omap_map. apply omap_ext. intros j Hj. apply py_slice_in_range in Hj; [|apply (sub_ok_diff _ _ Hab)|exact Hs].
  unfold seg, diff in *. unfold sub_ok in Hab. symmetry. apply nthZ_slice; lia.
Qed.
Lemma rows_range t ks segs : step <> 0 -> zlen ks = zlen segs ->
  rows (SRange start stop step :: t) ks (map VList segs) =
  option_map (map VList) (omap (fun kx => rows t (fst kx) (snd kx)) (combine (map (fun kn => repeat (fst kn) (Z.to_nat (snd kn))) (combine ks (map zlen (map cut segs)))) (map cut segs))).
Proof.
  intros Hs Hk. rewrite rows_lists. rewrite <- omap_option_map.
  revert segs Hk. induction ks as [|k ks IH]; intros [|s segs] Hk; cbn [map combine omap]; try reflexivity. rewrite !zlen_cons in Hk. rewrite IH by lia. cbn [fst snd pick thru].
  fold (sel (zlen s)). rewrite (cut_spec s Hs). replace (rows t (repeat k (Z.to_nat (zlen (cut s)))) (cut s)) with (omap (pick t k) (cut s)); [reflexivity|].
  unfold rows. generalize (cut s) as xs. clear. induction xs as [|x xs IH]; [reflexivity|]. rewrite zlen_cons. replace (Z.to_nat (zlen xs + 1)) with (S (Z.to_nat (zlen xs))) by (pose proof (zlen_nonneg xs); lia).
  cbn [repeat combine omap fst snd]. rewrite IH. reflexivity.
Qed.
Lemma step_range reg c' ws l ks t next r mk :
  step <> 0 -> den c' = Some ws -> forallb (sub_ok (zlen ws)) l = true -> zlen ks = zlen l -> carry c' (concat (map rpos l)) true = Ok next ->
  outcome reg r (rows t (spread ks (map (fun ab => zlen (sel (diff ab))) l)) (concat (map cut (map (seg ws) l)))) ->
  (forall out yss, den out = Some (concat yss) -> map zlen yss = map (fun ab => zlen (sel (diff ab))) l -> exists c, mk out = Ok c /\ den c = Some (map VList yss)) ->
  outcome reg (let* out := r in mk out) (rows (SRange start stop step :: t) ks (map VList (map (seg ws) l))).
Proof.
  intros Hs Hd Hl Hk Hc Hr Hmk. assert (Hz : map zlen (map cut (map (seg ws) l)) = map (fun ab => zlen (sel (diff ab))) l).
  { rewrite !map_map. apply map_ext_in. intros ab Hab. rewrite zlen_cut, zlen_seg; [reflexivity|]. rewrite forallb_forall in Hl. auto. }
  rewrite rows_range by (auto; rewrite zlen_map; exact Hk). rewrite <- Hz in *.
  eapply wrap_step; [| |exact Hmk|reflexivity].
  - assert (Hkx : zlen ks = zlen (map cut (map (seg ws) l))) by now rewrite !zlen_map. revert Hkx. generalize (map cut (map (seg ws) l)) as xss. clear. induction ks as [|k ks IH]; intros [|xs xss] H; cbn [map combine]; zcons H; [constructor|pose proof (zlen_nonneg xss); lia|pose proof (zlen_nonneg ks); lia|].
    constructor; [cbn [fst snd]; rewrite zlen_repeat; pose proof (zlen_nonneg xs); lia|apply IH; lia].
  - exact Hr.
Qed.
Lemma zlen_cuts (segs : list (list value)) : zlen (concat (map cut segs)) = sumZ (map zlen (map cut segs)).
Proof. induction segs; cbn [map concat sumZ fold_right]; [reflexivity|]. rewrite zlen_app. unfold sumZ in IHsegs. lia. Qed.
End Range.

