(** The calls that append a value reach the machine as the commands of that value *)
From Coq Require Import String.
From Verif Require Import Base BaseLemmas SpecArray Content Forms Forth LayoutBuild SpecLayout PLayoutVm PLayoutWord.
Local Open Scope list_scope.
Local Open Scope Z_scope.

(** a call that descends through the builders and sends one command; a list is only ended where one is open *)
Definition acts (c : call) (n n' : node) (k : cmd) : Prop :=
  match c with
  | CInt x => touch n = Ok (n', tt) /\ k = (le_bytes 8 x, 0)
  | CReal x => touch n = Ok (n', tt) /\ k = (le_bytes 8 x, 1)
  | CBool x => touch n = Ok (n', tt) /\ k = ([Z.b2z x], 4)
  | CBegin => begin_to n = Ok (n', true) /\ k = ([], 2)
  | CEnd => active n = true /\ end_to n = Ok (n', true) /\ k = ([], 3)
  | _ => False
  end.
Inductive does : node -> list call -> list cmd -> node -> Prop :=
| does_nil : forall n, does n [] [] n
| does_cons : forall c cs n n1 n' k ks, acts c n n1 k -> does n1 cs ks n' -> does n (c :: cs) (k :: ks) n'.
Lemma does_app : forall n cs ks n1 cs' ks' n', does n cs ks n1 -> does n1 cs' ks' n' -> does n (cs ++ cs') (ks ++ ks') n'.
Proof. intros n cs ks n1 cs' ks' n' H. induction H; intros R; [ exact R | ]. cbn [app]. econstructor; eauto. Qed.
Lemma does_one : forall c n n' k, acts c n n' k -> does n [c] [k] n'.
Proof. intros. econstructor; [ eassumption | constructor ]. Qed.

Lemma does_list : forall n cs ks n', does n cs ks n' -> forall o w i, does (NListOffset o w i true n) cs ks (NListOffset o w i true n').
Proof.
  intros n cs ks n' H. induction H as [ n | c cs n n1 n' k ks A _ IH ]; intros o w i; [ constructor | ]. econstructor; [ | apply IH ].
  destruct c; cbn [acts] in *; try contradiction.
  1-3: destruct A as [ A -> ]; split; [ cbn [touch]; rewrite A; reflexivity | reflexivity ].
  - destruct A as [ A -> ]. split; [ cbn [begin_to]; rewrite A; reflexivity | reflexivity ].
  - destruct A as (T & A & ->). split; [ reflexivity | ]. split; [ cbn [end_to]; rewrite T; cbn [negb]; rewrite A; reflexivity | reflexivity ].
Qed.

(** numbers only *)
Inductive nums : list call -> list cmd -> Prop :=
| nums_nil : nums [] []
| nums_int : forall x cs ks, nums cs ks -> nums (CInt x :: cs) ((le_bytes 8 x, 0) :: ks)
| nums_real : forall x cs ks, nums cs ks -> nums (CReal x :: cs) ((le_bytes 8 x, 1) :: ks)
| nums_bool : forall x cs ks, nums cs ks -> nums (CBool x :: cs) (([Z.b2z x], 4) :: ks).
Lemma nums_app : forall cs ks cs' ks', nums cs ks -> nums cs' ks' -> nums (cs ++ cs') (ks ++ ks').
Proof. intros cs ks cs' ks' H. induction H; intros R; [ exact R | cbn [app]; constructor; auto .. ]. Qed.
Lemma nums_does : forall (P : node -> Prop), (forall n, P n -> exists n', touch n = Ok (n', tt) /\ P n') -> forall cs ks, nums cs ks -> forall n, P n -> exists n', does n cs ks n' /\ P n'.
Proof.
  intros P T cs ks H. induction H as [ | x cs ks _ IH | x cs ks _ IH | x cs ks _ IH ]; intros n Hn; [ exists n; split; [ constructor | exact Hn ] | .. ];
    destruct (T n Hn) as (n1 & E & H1); destruct (IH n1 H1) as (n2 & D & H2); exists n2; (split; [ | exact H2 ]); econstructor; try exact D; split; auto.
Qed.

Lemma calls_list : forall vs, calls_of (VList vs) = CBegin :: calls_all vs ++ [CEnd].
Proof. intros vs. reflexivity. Qed.
Lemma calls_fields : forall ks cs v, of_shape (SRec ks cs) v -> calls_of v = calls_all (fields_of v).
Proof.
  intros [ ks | ] cs v [ (vs & H) _ ].
  - destruct H as [ -> _ ]. cbn [fields_of calls_of]. generalize (combine ks vs). clear. induction l as [ | [ k x ] l IH ]; cbn; [ reflexivity | ]. rewrite IH. reflexivity.
  - subst v. reflexivity.
Qed.

Lemma leaf_nums : forall l v, of_shape (SNum l) v -> nums (calls_of v) (cmds_of (SNum l) v).
Proof. intros [ | | ] v (z & H); [ destruct H as [ -> _ ] .. | subst v ]; repeat constructor. Qed.
Lemma scal_nums : forall s v, scal s = true -> of_shape s v -> nums (calls_of v) (cmds_of s v).
Proof.
  induction s using shape_ind'; intros v HS Ov; [ apply leaf_nums; exact Ov | discriminate | ].
  rewrite (calls_fields _ _ _ Ov), cmds_rec. apply of_rec in Ov. cbn [scal] in HS. apply andb_prop in HS. destruct HS as [ _ HS ]. revert Ov. generalize (fields_of v).
  induction H as [ | c cs Hc _ IH ]; intros [ | x xs ] Ov; cbn in Ov |- *; try contradiction; [ constructor | ]. cbn [forallb] in HS. apply andb_prop in HS. destruct HS as [ H1 H2 ].
  apply nums_app; [ apply Hc; [ exact H1 | apply Ov ] | apply IH; [ exact H2 | apply Ov ] ].
Qed.
Lemma scal_nums_all : forall c vs, scal c = true -> Forall (of_shape c) vs -> nums (calls_all vs) (concat (map (cmds_of c) vs)).
Proof. intros c vs HS H. induction H; cbn; [ constructor | ]. apply nums_app; [ apply scal_nums; assumption | assumption ]. Qed.

(** the builders of records of numbers: any number may come *)
Inductive sc : shape -> node -> Prop :=
| sc_num : forall l o dt, sc (SNum l) (NNumpy o dt)
| sc_rec : forall ks cs ks' ns fi, 0 <= fi < zlen cs -> zlen ns = zlen cs -> (forall i c n, nthZ cs i = Some c -> nthZ ns i = Some n -> sc c n) -> sc (SRec ks cs) (NRecord ks' ns fi []).

Lemma next_field_range : forall n fi, 0 <= fi < n -> 0 <= fst (next_field n fi) < n /\ 0 <= snd (next_field n fi) < n.
Proof. intros n fi H. unfold next_field. destruct (Z.ltb_spec fi (n - 1)); cbn; lia. Qed.

Lemma on_nth_ok : forall {A B} (f : A -> res (A * B)) l i x x' b, nthZ l i = Some x -> f x = Ok (x', b) -> on_nth f l (Z.to_nat i) = Ok (upd l (Z.to_nat i) x', b).
Proof.
  intros A B f l i x x' b N E. destruct (nthZ_Some _ _ _ N) as [ I0 _ ]. rewrite <- (Z2Nat.id i) in N by lia. revert N. generalize (Z.to_nat i). clear i I0. induction l as [ | y l IH ]; intros i N.
  - rewrite nthZ_nil in N. discriminate.
  - rewrite nthZ_cons in N. destruct i as [ | i ].
    + cbn in N. injection N as ->. cbn [on_nth upd]. rewrite E. reflexivity.
    + destruct (Z.eqb_spec (Z.of_nat (S i)) 0); [ lia | ]. replace (Z.of_nat (S i) - 1) with (Z.of_nat i) in N by lia. cbn [on_nth upd]. rewrite (IH i N). reflexivity.
Qed.

Lemma sc_touch : forall s n, sc s n -> exists n', touch n = Ok (n', tt) /\ sc s n'.
Proof.
  induction s using shape_ind'; intros n Hn; inversion Hn; subst.
  - eexists; split; [ reflexivity | constructor ].
  - cbn [touch]. destruct (next_field_range (zlen ns) fi ltac:(lia)) as [ R1 R2 ]. destruct (next_field (zlen ns) fi) as [ i fi' ]. cbn [fst snd] in *.
    destruct (nthZ_lt ns i R1) as (x & Nx). destruct (nthZ_lt cs i ltac:(lia)) as (c & Nc).
    rewrite Forall_forall in H. destruct (H c (nthZ_In _ _ _ Nc) x (H5 _ _ _ Nc Nx)) as (x' & E & Sx). rewrite (on_nth_ok touch ns i x x' tt Nx E).
    eexists; split; [ reflexivity | ]. cbn [fst]. constructor; [ lia | rewrite zlen_upd; lia | ]. intros j c' n' Ncj Nnj. rewrite nthZ_upd in Nnj by lia. rewrite Z2Nat.id in Nnj by lia.
    destruct (Z.eqb_spec j i); [ injection Nnj as <-; congruence | eapply H5; eassumption ].
Qed.
Lemma sc_idle : forall s n, sc s n -> active n = false.
Proof.
  induction s using shape_ind'; intros n Hn; inversion Hn; subst; [ reflexivity | ]. cbn [active].
  destruct (existsb active ns) eqn:E; [ | reflexivity ]. apply existsb_exists in E. destruct E as (x & Ix & Ax).
  destruct (In_nthZ _ _ Ix) as (i & Ni). destruct (nthZ_lt cs i) as (c & Nc); [ destruct (nthZ_Some _ _ _ Ni); lia | ]. rewrite Forall_forall in H.
  rewrite (H c (nthZ_In _ _ _ Nc) x (H5 _ _ _ Nc Ni)) in Ax. discriminate.
Qed.

(** fields that are numbers or lists of numbers *)
Inductive fld : bool -> shape -> node -> Prop :=
| fld_num : forall l o dt, fld false (SNum l) (NNumpy o dt)
| fld_list : forall b w c o w' i n, scal c = true -> sc c n -> fld b (SList w c) (NListOffset o w' i b n).
Lemma fld_touch : forall b s n, fld b s n -> exists n', touch n = Ok (n', tt) /\ fld b s n'.
Proof.
  intros b s n H. inversion H as [ | ? ? ? ? ? ? n0 HS Hn ]; subst; [ eexists; split; [ reflexivity | constructor ] | ]. destruct (sc_touch _ _ Hn) as (n' & E & S1). cbn [touch]. rewrite E. eexists; split; [ reflexivity | constructor; assumption ].
Qed.
Lemma fld_active : forall b s n, fld b s n -> active n = b.
Proof. intros b s n H. inversion H; reflexivity. Qed.

Definition fields (cs : list shape) (open : Z) (ns : list node) : Prop :=
  zlen ns = zlen cs /\ forall i c n, nthZ cs i = Some c -> nthZ ns i = Some n -> fld (i =? open) c n.
Definition at_field (ks : option (list string)) (cs : list shape) (j : Z) (n : node) : Prop := exists ns, n = NRecord ks ns j [] /\ fields cs (-1) ns.

Lemma fields_upd : forall cs o o' ns j x c, fields cs o ns -> nthZ cs j = Some c -> fld (j =? o') c x -> (forall i, 0 <= i -> i <> j -> (i =? o) = (i =? o')) -> fields cs o' (upd ns (Z.to_nat j) x).
Proof.
  intros cs o o' ns j x c [ L H ] Nc Hx E. destruct (nthZ_Some _ _ _ Nc) as [ J0 J1 ]. split; [ rewrite zlen_upd; exact L | ]. intros i c' n Nci Nni. rewrite nthZ_upd in Nni by lia. rewrite Z2Nat.id in Nni by lia.
  destruct (Z.eqb_spec i j); [ injection Nni as <-; subst; congruence | ]. rewrite <- E; [ eapply H; eassumption | apply (nthZ_Some _ _ _ Nci) | assumption ].
Qed.
Lemma fields_touch : forall cs o ns i, fields cs o ns -> 0 <= i < zlen cs -> exists ns', on_nth touch ns (Z.to_nat i) = Ok (ns', tt) /\ fields cs o ns'.
Proof.
  intros cs o ns i HF R. pose proof HF as [ L H ]. destruct (nthZ_lt cs i R) as (c & Nc). destruct (nthZ_lt ns i ltac:(lia)) as (x & Nx). pose proof (H _ _ _ Nc Nx) as Hx.
  destruct (fld_touch _ _ _ Hx) as (x' & E & Fx). exists (upd ns (Z.to_nat i) x'). split; [ apply (on_nth_ok touch ns i x x' tt Nx E) | ]. eapply fields_upd; [ exact HF | exact Nc | exact Fx | reflexivity ].
Qed.

Lemma one_field : forall ks cs j c x n, nthZ cs j = Some c -> flat_field c = true -> of_shape c x -> at_field ks cs j n ->
  exists n', does n (calls_of x) (cmds_of c x) n' /\ at_field ks cs (snd (next_field (zlen cs) j)) n'.
Proof.
  intros ks cs j c x n Nc FF Ox (ns & -> & HF). destruct (nthZ_Some _ _ _ Nc) as [ J0 J1 ]. pose proof HF as [ L H ]. destruct (nthZ_lt ns j ltac:(lia)) as (y & Ny). pose proof (H _ _ _ Nc Ny) as Hy.
  destruct (Z.eqb_spec j (-1)) in Hy; [ lia | ]. destruct (next_field_range (zlen cs) j ltac:(lia)) as [ R1 R2 ].
  destruct c as [ l | w c | ]; [ | | discriminate ].
  - pose proof (leaf_nums l x Ox) as NU. destruct (fields_touch cs (-1) ns (fst (next_field (zlen cs) j)) HF R1) as (ns' & E & HF').
    exists (NRecord ks ns' (snd (next_field (zlen cs) j)) []). split; [ | exists ns'; auto ].
    assert (T : touch (NRecord ks ns j []) = Ok (NRecord ks ns' (snd (next_field (zlen cs) j)) [], tt)).
    { cbn [touch]. rewrite L. destruct (next_field (zlen cs) j) as [ i fi ]. cbn [fst snd] in *. rewrite E. reflexivity. }
    destruct l; destruct Ox as (z & Ox); [ destruct Ox as [ -> _ ] .. | subst x ]; apply does_one; split; auto.
  - cbn [flat_field] in FF. apply of_list in Ox. destruct Ox as (vs & -> & OA). inversion Hy as [ | ? ? ? o w' i n0 HS Hn0 ]; subst. rewrite calls_list. cbn [cmds_of items_of].
    set (y' := NListOffset o w' i true n0). 
    assert (HF1 : fields cs j (upd ns (Z.to_nat j) y')).
    { eapply fields_upd; [ exact HF | exact Nc | rewrite Z.eqb_refl; constructor; assumption | ]. intros i' I0 Hi'. destruct (Z.eqb_spec i' j); [ congruence | ]. destruct (Z.eqb_spec i' (-1)); [ lia | reflexivity ]. }
    destruct (nums_does (fun n => exists ns fi, n = NRecord ks ns fi [j] /\ 0 <= fi < zlen cs /\ fields cs j ns)) with (cs := calls_all vs) (ks := concat (map (cmds_of c) vs)) (n := NRecord ks (upd ns (Z.to_nat j) y') j [j]) as (n2 & D2 & (ns2 & fi2 & -> & R3 & HF2)).
    { intros m (ns1 & fi & -> & Rf & HF3). destruct (next_field_range (zlen cs) fi Rf) as [ Q1 Q2 ]. destruct (fields_touch cs j ns1 _ HF3 Q1) as (ns4 & E & HF4).
      exists (NRecord ks ns4 (snd (next_field (zlen cs) fi)) [j]). split; [ | exists ns4, (snd (next_field (zlen cs) fi)); auto ].
      cbn [touch]. rewrite (proj1 HF3). destruct (next_field (zlen cs) fi) as [ i1 f1 ]. cbn [fst snd] in *. rewrite E. reflexivity. }
    { apply scal_nums_all; assumption. }
    { eexists _, j. split; [ reflexivity | ]. split; [ lia | exact HF1 ]. }
    pose proof HF2 as [ L2 H2 ]. destruct (nthZ_lt ns2 j ltac:(lia)) as (z & Nz). pose proof (H2 _ _ _ Nc Nz) as Hz. rewrite Z.eqb_refl in Hz. inversion Hz as [ | ? ? ? o2 w2 i2 n2 HS2 Hn2 ]; subst.
    set (z' := NListOffset o2 w2 i2 false n2).
    exists (NRecord ks (upd ns2 (Z.to_nat j) z') (snd (next_field (zlen cs) j)) []). split.
    + econstructor; [ split; [ | reflexivity ] | eapply does_app; [ exact D2 | apply does_one ] ].
      * cbn [begin_to]. rewrite (on_nth_ok begin_to ns j _ y' true Ny) by reflexivity. reflexivity.
      * split; [ | split; [ | reflexivity ] ].
        -- cbn [active]. rewrite nthZ_map, Nz. reflexivity.
        -- cbn [end_to]. rewrite (on_nth_ok end_to ns2 j _ z' true Nz); [ rewrite L2; reflexivity | ]. cbn [end_to negb]. rewrite (sc_idle _ _ Hn2). reflexivity.
    + eexists. split; [ reflexivity | ]. eapply fields_upd; [ exact HF2 | exact Nc | destruct (Z.eqb_spec j (-1)); [ lia | constructor; assumption ] | ].
      intros i' I0 Hi'. destruct (Z.eqb_spec i' j); [ congruence | ]. destruct (Z.eqb_spec i' (-1)); [ lia | reflexivity ].
Qed.

Lemma all_fields : forall ks cs, forallb flat_field cs = true -> forall post pre xs n, cs = pre ++ post -> post <> [] -> of_fields post xs -> at_field ks cs (zlen pre) n ->
  exists n', does n (calls_all xs) (cmds_fields post xs) n' /\ at_field ks cs 0 n'.
Proof.
  intros ks cs FF. induction post as [ | c post IH ]; intros pre xs n E NE OF HA; [ congruence | ]. destruct xs as [ | x xs ]; [ destruct OF | ]. destruct OF as [ Ox OF ].
  assert (Nc : nthZ cs (zlen pre) = Some c) by (subst cs; rewrite nthZ_app; destruct (Z.ltb_spec (zlen pre) (zlen pre)); [ lia | ]; rewrite Z.sub_diag; reflexivity).
  assert (Fc : flat_field c = true) by (rewrite forallb_forall in FF; apply FF; apply (nthZ_In _ _ _ Nc)).
  destruct (one_field ks cs (zlen pre) c x n Nc Fc Ox HA) as (n1 & D1 & A1). cbn [calls_all cmds_fields].
  assert (LZ : zlen cs = zlen pre + 1 + zlen post) by (subst cs; rewrite zlen_app, zlen_cons; lia). unfold next_field in A1.
  destruct post as [ | c1 post ].
  - destruct xs; [ | destruct OF ]. change (zlen (@nil shape)) with 0 in LZ. destruct (Z.ltb_spec (zlen pre) (zlen cs - 1)); [ lia | ]. exists n1. cbn [calls_all cmds_fields]. rewrite !app_nil_r. split; assumption.
  - rewrite zlen_cons in LZ. pose proof (zlen_nonneg post). destruct (Z.ltb_spec (zlen pre) (zlen cs - 1)); [ | lia ]. cbn [snd] in A1.
    destruct (IH (pre ++ [c]) xs n1) as (n2 & D2 & A2); [ subst cs; rewrite <- app_assoc; reflexivity | discriminate | exact OF | rewrite zlen_app; exact A1 | ].
    exists n2. split; [ eapply does_app; eassumption | exact A2 ].
Qed.

(** builders of which no list is open *)
Inductive nst : shape -> node -> Prop :=
| nst_scal : forall s n, scal s = true -> sc s n -> nst s n
| nst_rec : forall ks ks' cs n, 0 < zlen cs -> forallb flat_field cs = true -> at_field ks' cs 0 n -> nst (SRec ks cs) n
| nst_list : forall w c o w' i n, nst c n -> nst (SList w c) (NListOffset o w' i false n).

Lemma nst_idle : forall s n, nst s n -> active n = false.
Proof.
  intros s n H. inversion H as [ ? ? HS Hn | ? ? ? ? LZ FF (ns & E & HF) | ]; subst; [ apply (sc_idle _ _ Hn) | | reflexivity ]. cbn [active].
  destruct (existsb active ns) eqn:E; [ | reflexivity ]. apply existsb_exists in E. destruct E as (x & Ix & Ax).
  destruct (In_nthZ _ _ Ix) as (i & Ni). destruct HF as [ L HF ]. destruct (nthZ_Some _ _ _ Ni) as [ I0 I1 ]. destruct (nthZ_lt cs i ltac:(lia)) as (c & Nc).
  rewrite (fld_active _ _ _ (HF _ _ _ Nc Ni)) in Ax. destruct (Z.eqb_spec i (-1)); [ lia | discriminate ].
Qed.

Lemma nst_does : forall s n v, nst s n -> of_shape s v -> exists n', does n (calls_of v) (cmds_of s v) n' /\ nst s n'.
Proof.
  induction s using shape_ind'; intros n v Hn Ov; inversion Hn as [ ? ? HS Hs | ? ? ? ? LZ FF HA | ? ? ? ? ? n0 Hc ]; subst.
  1,2,4: destruct (nums_does (sc _) (sc_touch _) _ _ (scal_nums _ _ HS Ov) n Hs) as (n' & D & S1); exists n'; split; [ exact D | apply nst_scal; assumption ].
  - apply of_list in Ov. destruct Ov as (vs & -> & OA). rewrite calls_list. cbn [cmds_of items_of].
    assert (X : exists n1, does n0 (calls_all vs) (concat (map (cmds_of s) vs)) n1 /\ nst s n1).
    { clear Hn. revert n0 Hc. induction OA as [ | x vs Ox _ IH ]; intros n0 Hc; [ exists n0; split; [ constructor | exact Hc ] | ].
      destruct (IHs n0 x Hc Ox) as (n1 & D1 & H1). destruct (IH n1 H1) as (n2 & D2 & H2). exists n2. split; [ cbn [calls_all map concat]; eapply does_app; eassumption | exact H2 ]. }
    destruct X as (n1 & D & H1). exists (NListOffset o w' i false n1). split; [ | apply nst_list; exact H1 ].
    econstructor; [ split; reflexivity | ]. eapply does_app; [ apply does_list; exact D | ]. apply does_one. split; [ reflexivity | ]. split; [ | reflexivity ].
    cbn [end_to negb]. rewrite (nst_idle _ _ H1). reflexivity.
  - rewrite (calls_fields _ _ _ Ov), cmds_rec. apply of_rec in Ov. destruct (all_fields ks' cs FF cs [] (fields_of v) n eq_refl) as (n' & D & A');
      [ destruct cs; [ change (zlen (@nil shape)) with 0 in LZ; lia | discriminate ] | exact Ov | exact HA | ].
    exists n'. split; [ exact D | eapply nst_rec; eassumption ].
Qed.
Lemma nst_does_all : forall s vs n, nst s n -> Forall (of_shape s) vs -> exists n', does n (calls_all vs) (concat (map (cmds_of s) vs)) n' /\ nst s n'.
Proof.
  intros s vs. induction vs as [ | v vs IH ]; intros n Hn HA; [ exists n; split; [ constructor | exact Hn ] | ]. inversion HA as [ | ? ? Ov HA' ]; subst.
  destruct (nst_does s n v Hn Ov) as (n1 & D1 & H1). destruct (IH n1 H1 HA') as (n2 & D2 & H2). exists n2. split; [ cbn [calls_all map concat]; eapply does_app; eassumption | exact H2 ].
Qed.

(** ** The calls leave the builders' outputs and types alone *)
Fixpoint skel (n : node) : node :=
  match n with
  | NListOffset o w i _ c => NListOffset o w i false (skel c)
  | NList o w _ c => NList o w false (skel c)
  | NRecord ks cs _ _ => NRecord ks (map skel cs) 0 []
  | NRegular z c => NRegular z (skel c)
  | NOption o w c => NOption o w (skel c)
  | NIndexed o w c => NIndexed o w (skel c)
  | NMasked c => NMasked (skel c)
  | _ => n
  end.
Section NodeInd.
  Variable P : node -> Prop.
  Hypotheses (H1 : P NEmpty) (H2 : forall o d, P (NNumpy o d)) (H3 : forall o w i b c, P c -> P (NListOffset o w i b c)) (H4 : forall o w b c, P c -> P (NList o w b c))
    (H5 : forall ks cs fi l, Forall P cs -> P (NRecord ks cs fi l)) (H6 : forall z c, P c -> P (NRegular z c)) (H7 : forall o w c, P c -> P (NOption o w c))
    (H8 : forall o w c, P c -> P (NIndexed o w c)) (H9 : forall c, P c -> P (NMasked c)).
  Fixpoint node_ind' (n : node) : P n :=
    match n with
    | NEmpty => H1 | NNumpy o d => H2 o d | NListOffset o w i b c => H3 o w i b c (node_ind' c) | NList o w b c => H4 o w b c (node_ind' c)
    | NRecord ks cs fi l => H5 ks cs fi l ((fix go (cs : list node) : Forall P cs := match cs with [] => Forall_nil _ | c :: cs => Forall_cons _ (node_ind' c) (go cs) end) cs)
    | NRegular z c => H6 z c (node_ind' c) | NOption o w c => H7 o w c (node_ind' c) | NIndexed o w c => H8 o w c (node_ind' c) | NMasked c => H9 c (node_ind' c)
    end.
End NodeInd.
Lemma on_nth_skel : forall {B} (f : node -> res (node * B)) cs, Forall (fun n => forall n' b, f n = Ok (n', b) -> skel n' = skel n) cs -> forall i cs' b, on_nth f cs i = Ok (cs', b) -> map skel cs' = map skel cs.
Proof.
  intros B f cs H. induction H as [ | c cs Hc _ IH ]; intros [ | i ] cs' b E; cbn [on_nth] in E; try discriminate.
  - destruct (f c) as [ [ c' b' ] | | ] eqn:Ef; cbn in E; try discriminate. injection E as <- <-. cbn [map]. rewrite (Hc _ _ eq_refl). reflexivity.
  - destruct (on_nth f cs i) as [ [ l' b' ] | | ] eqn:Ef; cbn in E; try discriminate. injection E as <- <-. cbn [map]. rewrite (IH _ _ _ Ef). reflexivity.
Qed.
Ltac one_content := match goal with
  | IH : forall n' b, ?f ?c = Ok (n', b) -> _, E : bind (?f ?c) _ = Ok _ |- _ =>
      let c' := fresh in let b' := fresh in let Ec := fresh in destruct (f c) as [ [ c' b' ] | | ] eqn:Ec; cbn in E; try discriminate; injection E as <- <-; cbn [skel]; rewrite (IH _ _ eq_refl); reflexivity end.
Lemma touch_skel : forall n n' b, touch n = Ok (n', b) -> skel n' = skel n.
Proof.
  induction n using node_ind'; intros n' u E; cbn [touch] in E; try discriminate; try one_content.
  - injection E as <- <-. reflexivity.
  - destruct (next_field (zlen cs) fi) as [ i fi' ]. destruct (on_nth touch cs (Z.to_nat i)) as [ [ l' b' ] | | ] eqn:Ef; cbn in E; try discriminate. injection E as <- <-. cbn [skel]. rewrite (on_nth_skel _ _ H _ _ _ Ef). reflexivity.
Qed.
Lemma begin_skel : forall n n' b, begin_to n = Ok (n', b) -> skel n' = skel n.
Proof.
  induction n using node_ind'; intros n' u E; cbn [begin_to] in E; try discriminate; try one_content.
  - injection E as <- <-. reflexivity.
  - destruct b; [ one_content | injection E as <- <-; reflexivity ].
  - destruct b; [ one_content | injection E as <- <-; reflexivity ].
  - destruct (on_nth begin_to cs (Z.to_nat fi)) as [ [ l' b' ] | | ] eqn:Ef; cbn in E; try discriminate. injection E as <- <-. cbn [skel]. rewrite (on_nth_skel _ _ H _ _ _ Ef). reflexivity.
Qed.
Lemma end_skel : forall n n' b, end_to n = Ok (n', b) -> skel n' = skel n.
Proof.
  induction n using node_ind'; intros n' u E; cbn [end_to] in E; try discriminate; try one_content.
  - injection E as <- <-. reflexivity.
  - destruct b; cbn [negb] in E; [ | discriminate ]. destruct (active n); cbn [negb] in E; [ one_content | injection E as <- <-; reflexivity ].
  - destruct b; cbn [negb] in E; [ | discriminate ]. destruct (active n); cbn [negb] in E; [ one_content | injection E as <- <-; reflexivity ].
  - destruct l as [ | j l ]; [ discriminate | ]. destruct (on_nth end_to cs (Z.to_nat j)) as [ [ l' b' ] | | ] eqn:Ef; cbn in E; try discriminate. injection E as <- <-. cbn [skel]. rewrite (on_nth_skel _ _ H _ _ _ Ef). reflexivity.
Qed.
Lemma does_skel : forall n cs ks n', does n cs ks n' -> skel n' = skel n.
Proof.
  intros n cs ks n' H. induction H as [ | c cs n n1 n' k ks A _ IH ]; [ reflexivity | ]. rewrite IH. destruct c; cbn [acts] in A; try contradiction.
  1-3: eapply touch_skel; apply A.
  - eapply begin_skel; apply A.
  - eapply end_skel; apply A.
Qed.
