(** simplify_uniontype on contents of different kinds: only integers and reals are merged. *)
From Coq Require Import String.
From Verif Require Import Base BaseLemmas OmapLemmas LoopLemmas Content SpecArray SpecForm SpecMerge KCore Core KOption Option KMerge Merge
  PCore PCarry PMergeK PMerge PMergeC PSimplify PPromote Builder SpecBuilder PBuilder.
Local Open Scope list_scope.
Local Open Scope Z_scope.

Definition ckind (c : content) : option kind :=
  match c with
  | Numpy DBool _ => Some KBool | Numpy DInt _ => Some KInt | Numpy DReal _ => Some KReal
  | ListOffset _ _ => Some KList
  | Record None _ cs => Some (KTuple (zlen cs)) | Record (Some _) _ _ => Some KRecord
  | _ => None
  end.
Definition is_real (c : content) : bool := match c with Numpy DReal _ => true | _ => false end.
Lemma is_real_kind c : is_real c = true <-> ckind c = Some KReal.
Proof. destruct c; try (split; discriminate). - destruct dt; split; (discriminate || reflexivity). - destruct keys; split; discriminate. Qed.

Lemma find_index_none p l x : find_index p l = None -> In x l -> p x = false.
Proof.
  induction l as [|y l IH]; cbn [find_index]; [intros _ []|]. destruct (p y) eqn:E; [discriminate|]. destruct (find_index p l); [discriminate|].
  intros _ [->|Hi]; auto.
Qed.

Lemma omap_from {A B} (g : A -> option B) l w v : omap g l = Some w -> In v w -> exists a, In a l /\ g a = Some v.
Proof.
  revert w. induction l as [|x l IH]; cbn [omap]; intros w; [intros [= <-] []|]. destruct (g x) eqn:E; [|discriminate]. destruct (omap g l) as [w'|]; [|discriminate].
  intros [= <-] [->|Hi]; [exists x; split; [now left|exact E]|]. destruct (IH _ eq_refl Hi) as (a & H1 & H2). exists a. split; [now right|exact H2].
Qed.
Lemma NoDup_snoc {A} (l : list A) x : NoDup l -> ~ In x l -> NoDup (l ++ [x]).
Proof.
  induction l as [|y l IH]; intros H Hx; cbn; [now constructor|]. inversion H; subst. constructor.
  - rewrite in_app_iff. cbn. intros [Hi|[->|[]]]; [contradiction|]. apply Hx. now left.
  - apply IH; [assumption|]. intros Hi. apply Hx. now right.
Qed.

Section M.
Variable rc : Z -> Z.
Variable narrow : content -> bool.
Definition conv (r : bool) (v : value) : value := match v with VInt z => if r then VReal (rc z) else v | _ => v end.
Lemma conv_false v : conv false v = v.
Proof. now destruct v. Qed.

Lemma no_int c w v : den c = Some w -> ckind c <> None -> ckind c <> Some KInt -> In v w -> forall r, conv r v = v.
Proof.
  intros Hd H1 H2 Hi r. destruct v; try reflexivity. exfalso. destruct c; try (now cbn in H1); cbn [den] in Hd.
  - injection Hd as <-. apply in_map_iff in Hi as (z0 & E & _). destruct dt; try discriminate. now apply H2.
  - destruct (den c) as [vs|]; [|discriminate]. destruct (1 <=? zlen offsets); [|discriminate]. destruct (omap_from _ _ _ _ Hd Hi) as ([a b] & _ & E).
    unfold sublist in E. cbn [fst snd] in E. destruct (a =? b); [discriminate|]. destruct (_ && _); discriminate.
  - destruct (omap den contents) as [vss|]; [|discriminate]. destruct (_ && _); [|discriminate]. destruct (omap_from _ _ _ _ Hd Hi) as (a & _ & E).
    destruct (omap _ vss); [|discriminate]. cbn in E. injection E as E. destruct keys; discriminate.
Qed.

Lemma num_merge f a b la lb : (a = DInt /\ b = DReal \/ a = DReal /\ b = DInt) ->
  merge rc narrow (S f) (Numpy a la) (Numpy b lb) = Ok (Numpy DReal (map (cast rc a DReal) la ++ map (cast rc b DReal) lb)).
Proof.
  intros Hab. unfold merge. cbn [mergemany]. unfold NumpyArray_mergemany. cbn [merging_strategy split_until needs_simplify is_union orb].
  assert (ED : numpy_dtype [Numpy a la; Numpy b lb] = Ok (Some DReal)) by (destruct Hab as [[-> ->]|[-> ->]]; reflexivity). rewrite ED. cbn [bind].
  assert (ET : total_length [Numpy a la; Numpy b lb] = zlen la + zlen lb) by (unfold total_length; cbn [fold_left length_]; lia). rewrite ET.
  pose proof (zlen_nonneg la). pose proof (zlen_nonneg lb). cbn [foldm numpy_fill].
  destruct (numpy_fill_spec [] (alloc (zlen la + zlen lb)) la (cast rc a DReal)) as (r1 & E1 & L1); [rewrite zlen_alloc by lia; lia|]. rewrite zlen_alloc in L1 by lia.
  change (zlen (@nil Z)) with 0 in E1. cbn [app] in E1. rewrite E1. cbn [bind].
  replace (0 + zlen la) with (zlen (map (cast rc a DReal) la)) by (rewrite zlen_map; lia).
  destruct (numpy_fill_spec (map (cast rc a DReal) la) r1 lb (cast rc b DReal)) as (r2 & E2 & L2); [lia|]. cbn [numpy_fill]. rewrite E2. cbn [bind fst merge_tail].
  assert (r2 = []) as -> by (apply zlen_0; lia). now rewrite app_nil_r.
Qed.

Variable f : nat.
Variable refeq : content -> content -> bool.
Hypothesis Hrefeq : forall a b, refeq a b = true -> a = b.
Variables (vs : list value) (tags_ index_ : list Z) (cs : list content) (vss : list (list value)).
Hypothesis Hcs : dens cs vss.
Hypothesis Htags : zlen tags_ = zlen vs.
Hypothesis Hindex : zlen tags_ <= zlen index_.
Hypothesis Hpos : forall i v, nthZ vs i = Some v -> exists t j cv, nthZ tags_ i = Some t /\ nthZ index_ i = Some j /\ nthZ vss t = Some cv /\ nthZ cv j = Some v.
Hypothesis Hkinds : Forall (fun c => ckind c <> None) cs.
Hypothesis Hnodup : NoDup (map ckind cs).
Hypothesis Hne : cs <> [].
Hypothesis Hfew : zlen cs <= 127.
Notation len := (zlen vs).

Definition inv (pre : list content) (st : list Z * list Z * list content) : Prop :=
  let '(tags, index, ct) := st in
  zlen tags = len /\ zlen index = len /\ NoDup (map ckind ct) /\
  (forall y, In y ct -> exists x, In x pre /\ ckind y = ckind x) /\
  (forall x, In x pre -> exists y, In y ct /\ (ckind y = ckind x \/ ckind y = Some KReal /\ ckind x = Some KInt)) /\
  (forall y y', In y ct -> In y' ct -> ckind y = Some KInt -> ckind y' = Some KReal -> False) /\
  exists vcs, dens ct vcs /\ forall i v o, nthZ vs i = Some v -> nthZ tags_ i = Some o -> 0 <= o < zlen pre ->
    exists t p cv, nthZ tags i = Some t /\ nthZ index i = Some p /\ nthZ vcs t = Some cv /\ nthZ cv p = Some (conv (existsb is_real pre) v).

Lemma has_real_pre pre : existsb is_real pre = true <-> exists x, In x pre /\ ckind x = Some KReal.
Proof. rewrite existsb_exists. split; intros (x & H1 & H2); exists x; (split; [exact H1|]); now apply is_real_kind. Qed.

Lemma mergeable_kinds y x : ckind y <> None -> ckind x <> None -> ckind y <> ckind x -> mergeable false y x = true ->
  exists a b la lb, y = Numpy a la /\ x = Numpy b lb /\ (a = DInt /\ b = DReal \/ a = DReal /\ b = DInt).
Proof.
  intros Hy Hx Hd Hm. destruct y; try (now destruct Hy); destruct x; try (now destruct Hx); cbn in Hm; try discriminate.
  - destruct dt, dt0; cbn in *; try congruence; eexists _, _, _, _; (split; [reflexivity|]); (split; [reflexivity|]); auto.
  - destruct keys, keys0; cbn in *; try discriminate; try congruence. apply andb_true_iff in Hm as [Hm _]. exfalso. apply Hd. do 2 f_equal. lia.
Qed.
Lemma numbers_mergeable y x : (ckind y = Some KInt \/ ckind y = Some KReal) -> (ckind x = Some KInt \/ ckind x = Some KReal) -> mergeable false y x = true.
Proof.
  assert (HN : forall z, ckind z = Some KInt \/ ckind z = Some KReal -> exists dt l, z = Numpy dt l /\ is_dbool dt = false).
  { intros z Hz. destruct z; cbn in Hz; try (destruct Hz; discriminate). - destruct dt; try (destruct Hz; discriminate); eexists _, _; split; reflexivity. - destruct keys; destruct Hz; discriminate. }
  intros Hy Hx. destruct (HN _ Hy) as (d1 & l1 & -> & E1). destruct (HN _ Hx) as (d2 & l2 & -> & E2). cbn. now rewrite E1, E2.
Qed.

Lemma step_inv pre x post st : cs = pre ++ x :: post -> inv pre st ->
  exists st', simplify_step rc narrow refeq (S f) true false len tags_ index_ st (zlen pre, x) = Ok st' /\ inv (pre ++ [x]) st'.
Proof.
  destruct st as [[tags index] ct]. intros Ecs (L1 & L2 & HN & HK1 & HK2 & HK3 & vcs & HD & HP).
  assert (Hx : nthZ cs (zlen pre) = Some x) by (rewrite Ecs; apply nthZ_mid).
  destruct (F2_nthZ _ _ _ _ _ Hcs Hx) as (xv & Hxv & Dx). cbv beta in Dx.
  assert (Kx : ckind x <> None) by (rewrite Forall_forall in Hkinds; apply Hkinds; eapply nthZ_In; exact Hx).
  assert (Knew : forall y, In y ct -> ckind y <> ckind x).
  { intros y Hy E. destruct (HK1 _ Hy) as (x0 & Hx0 & E0). rewrite E0 in E. pose proof Hnodup as H. rewrite Ecs, map_app in H. cbn [map] in H. apply NoDup_remove_2 in H. apply H. rewrite in_app_iff. left. rewrite <- E. now apply in_map. }
  assert (Kpre : forall x0, In x0 pre -> ckind x0 <> ckind x).
  { intros x0 Hx0 E. pose proof Hnodup as H. rewrite Ecs, map_app in H. cbn [map] in H. apply NoDup_remove_2 in H. apply H. rewrite in_app_iff. left. rewrite <- E. now apply in_map. }
  assert (Kct : forall y, In y ct -> ckind y <> None).
  { intros y Hy. destruct (HK1 _ Hy) as (x0 & Hx0 & ->). rewrite Forall_forall in Hkinds. apply Hkinds. rewrite Ecs. apply in_or_app. now left. }
  assert (EP : simplify_step rc narrow refeq (S f) true false len tags_ index_ (tags, index, ct) (zlen pre, x) = simplify_plain rc narrow refeq (S f) true false len tags_ index_ (zlen pre) x (tags, index, ct)).
  { destruct x; try reflexivity. now destruct Kx. }
  rewrite EP. clear EP. unfold simplify_plain.
  assert (HQ : forall i v, nthZ vs i = Some v -> Qone tags_ (zlen pre) i = true -> nthZ xv (qone index_ i) = Some v).
  { intros i v Hv Hq. destruct (Hpos _ _ Hv) as (t & j & cv & A & B & C & D). unfold Qone in Hq. rewrite A in Hq. assert (t = zlen pre) as -> by lia. rewrite Hxv in C. injection C as <-. unfold qone. now rewrite B. }
  assert (HO : forall i v o, nthZ vs i = Some v -> nthZ tags_ i = Some o -> 0 <= o < zlen (pre ++ [x]) -> (Qone tags_ (zlen pre) i = true /\ o = zlen pre) \/ (Qone tags_ (zlen pre) i = false /\ 0 <= o < zlen pre)).
  { intros i v o Hv Ho Hr. rewrite zlen_app in Hr. change (zlen [x]) with 1 in Hr. unfold Qone. rewrite Ho. destruct (Z.eqb_spec o (zlen pre)); [left|right]; (split; [reflexivity|lia]). }
  assert (HV : forall i v o, nthZ vs i = Some v -> nthZ tags_ i = Some o -> 0 <= o < zlen pre -> exists x0 w, In x0 pre /\ den x0 = Some w /\ In v w).
  { intros i v o Hv Ho Hr. destruct (Hpos _ _ Hv) as (t & j & cv & A & B & C & D). rewrite A in Ho. injection Ho as ->.
    destruct (nthZ_lt pre o Hr) as [x0 Hx0]. assert (Hx0' : nthZ cs o = Some x0) by (rewrite Ecs, nthZ_app; destruct (Z.ltb_spec o (zlen pre)); [exact Hx0|lia]).
    destruct (F2_nthZ _ _ _ _ _ Hcs Hx0') as (w & Hw & Dw). cbv beta in Dw. rewrite C in Hw. injection Hw as <-. exists x0, cv. split; [eapply nthZ_In; exact Hx0|]. split; [exact Dw|]. eapply nthZ_In; exact D. }
  assert (HRx : existsb is_real (pre ++ [x]) = existsb is_real pre || is_real x) by (rewrite existsb_app; cbn [existsb]; now rewrite orb_false_r).
  pose proof (F2_zlen _ _ _ HD) as ZV.
  destruct (find_index (fun y => refeq y x || (true && mergeable false y x)) ct) as [k|] eqn:EF.
  - apply find_index_spec in EF as (y & Hy & Py). pose proof (nthZ_Some _ _ _ Hy) as Hkr. pose proof (nthZ_In _ _ _ Hy) as Hyi. rewrite (proj2 (rd_Ok _ _ _) Hy). cbn [bind].
    assert (ER : refeq y x = false) by (destruct (refeq y x) eqn:ER; [apply Hrefeq in ER; exfalso; apply (Knew _ Hyi); congruence|reflexivity]).
    rewrite ER in *. cbn [orb andb] in Py. destruct (mergeable_kinds _ _ (Kct _ Hyi) Kx (Knew _ Hyi) Py) as (a & b & la & lb & Ey & Ex & Hab).
    destruct (one_written vs tags_ index_ vss Hpos (zlen pre) k (length_ y) tags index L1 L2) as (t' & x' & E & L1' & L2' & N). rewrite E. cbn [bind fst snd]. clear E.
    rewrite Ey, Ex, num_merge by exact Hab. cbn [bind]. set (m := Numpy DReal _). rewrite wr_Ok by lia. cbn [bind]. set (kn := Z.to_nat k). assert (Ek : k = Z.of_nat kn) by (unfold kn; lia). clearbody kn.
    eexists; split; [reflexivity|]. rewrite <- Ex. set (mv := map VReal (map (cast rc a DReal) la ++ map (cast rc b DReal) lb)).
    assert (Hmr : existsb is_real (pre ++ [x]) = true).
    { rewrite HRx. destruct Hab as [[-> ->]|[-> ->]].
      - rewrite Ex. cbn. apply orb_true_r.
      - apply orb_true_iff. left. apply has_real_pre. destruct (HK1 _ Hyi) as (x0 & Hx0 & E0). exists x0. split; [exact Hx0|]. rewrite <- E0, Ey. reflexivity. }
    assert (HU : forall z, In z (upd ct kn m) -> z = m \/ In z ct /\ z <> y).
    { intros z Hz. apply In_nthZ in Hz as [j Hj]. rewrite nthZ_upd in Hj by lia. rewrite <- Ek in Hj. destruct (Z.eqb_spec j k) as [Ejk|Hjk]; [left; congruence|]. right. split; [eapply nthZ_In; exact Hj|].
      intros ->. apply Hjk. rewrite NoDup_nthZ in HN. apply (HN j k (ckind y)); rewrite nthZ_map; [rewrite Hj|rewrite Hy]; reflexivity. }
    assert (HU1 : forall z, In z ct -> z <> y -> In z (upd ct kn m)).
    { intros z Hz Hzy. apply In_nthZ in Hz as [j Hj]. apply (nthZ_In _ j). rewrite nthZ_upd by lia. rewrite <- Ek. destruct (Z.eqb_spec j k) as [->|]; [congruence|exact Hj]. }
    assert (HU2 : In m (upd ct kn m)) by (apply (nthZ_In _ k); rewrite nthZ_upd by lia; rewrite <- Ek, Z.eqb_refl; reflexivity).
    assert (Hoth : forall z, In z ct -> z <> y -> ckind z <> ckind y).
    { intros z Hz Hzy E. apply Hzy. apply In_nthZ in Hz as [j Hj]. rewrite NoDup_nthZ in HN. assert (j = k) as -> by (apply (HN j k (ckind y)); rewrite nthZ_map; [rewrite Hj; cbn [option_map]; now rewrite E|now rewrite Hy]). congruence. }
    assert (Hnr : forall z, In z ct -> z <> y -> ckind z <> Some KReal /\ ckind z <> Some KInt).
    { intros z Hz Hzy. pose proof (Hoth _ Hz Hzy) as Hzk. pose proof (Knew _ Hz) as Hzx. destruct Hab as [[-> ->]|[-> ->]]; rewrite Ey in Hzk; rewrite Ex in Hzx; cbn [ckind] in Hzk, Hzx; split; assumption. }
    split; [exact L1'|]. split; [exact L2'|]. split; [|split; [|split; [|split]]].
    + rewrite NoDup_nthZ. intros i j o Hi Hj. rewrite nthZ_map in Hi, Hj. rewrite nthZ_upd in Hi, Hj by lia. rewrite <- Ek in Hi, Hj.
      assert (HH : forall q z, q <> k -> nthZ ct q = Some z -> z <> y).
      { intros q z Hq Hz ->. apply Hq. rewrite NoDup_nthZ in HN. apply (HN q k (ckind y)); rewrite nthZ_map; [rewrite Hz|rewrite Hy]; reflexivity. }
      destruct (Z.eqb_spec i k) as [->|Hik], (Z.eqb_spec j k) as [->|Hjk]; [reflexivity| | |].
      * exfalso. cbn in Hi. injection Hi as <-. destruct (nthZ ct j) as [z|] eqn:Ez; [|discriminate]. cbn in Hj. injection Hj as Hj. apply (proj1 (Hnr z (nthZ_In _ _ _ Ez) (HH _ _ Hjk Ez))). exact Hj.
      * exfalso. cbn in Hj. injection Hj as <-. destruct (nthZ ct i) as [z|] eqn:Ez; [|discriminate]. cbn in Hi. injection Hi as Hi. apply (proj1 (Hnr z (nthZ_In _ _ _ Ez) (HH _ _ Hik Ez))). exact Hi.
      * rewrite NoDup_nthZ in HN. apply (HN i j o); rewrite nthZ_map; assumption.
    + intros z Hz. destruct (HU _ Hz) as [->|[Hz1 _]].
      * apply has_real_pre in Hmr as (x0 & Hx0 & E0). exists x0. split; [exact Hx0|]. now rewrite E0.
      * destruct (HK1 _ Hz1) as (x0 & Hx0 & E0). exists x0. split; [apply in_or_app; now left|exact E0].
    + intros x0 Hx0. apply in_app_or in Hx0. assert (HKm : (exists y0, In y0 ct /\ y0 <> y /\ (ckind y0 = ckind x0 \/ ckind y0 = Some KReal /\ ckind x0 = Some KInt)) \/ ckind x0 = Some KReal \/ ckind x0 = Some KInt).
      { destruct Hx0 as [Hx0|[<-|[]]].
        - destruct (HK2 _ Hx0) as (y0 & Hy0 & E0). assert (y0 = y \/ y0 <> y) as [->|Hyy].
          { apply In_nthZ in Hy0 as [j Hj]. destruct (Z.eqb_spec j k) as [->|Hjk]; [left; congruence|right]. intros ->. apply Hjk. rewrite NoDup_nthZ in HN. apply (HN j k (ckind y)); rewrite nthZ_map; [rewrite Hj|rewrite Hy]; reflexivity. }
          + right. destruct E0 as [E0|[E0 E1]]; [|auto]. rewrite <- E0, Ey. destruct Hab as [[-> ->]|[-> ->]]; cbn; auto.
          + left. eauto.
        - right. rewrite Ex. destruct Hab as [[-> ->]|[-> ->]]; cbn; auto. }
      destruct HKm as [(y0 & H1 & H2 & H3)|HK]; [exists y0; split; auto|]. exists m. split; [exact HU2|]. cbn. destruct HK as [->|HK]; auto.
    + intros z z' Hz Hz' E1 E2. destruct (HU _ Hz) as [->|[H1 H2]]; [discriminate|]. apply (proj2 (Hnr _ H1 H2)). exact E1.
    + exists (upd vcs kn mv). split; [apply Forall2_upd; [exact HD|reflexivity]|].
      assert (NU : forall t, nthZ (upd vcs kn mv) t = if t =? k then Some mv else nthZ vcs t) by (intros t; rewrite nthZ_upd by lia; rewrite <- Ek; reflexivity).
      destruct (F2_nthZ _ _ _ _ _ HD Hy) as (yv & Hyv & Dy). cbv beta in Dy.
      assert (Eyv : yv = map (scalar a) la) by (rewrite Ey in Dy; cbn in Dy; congruence). assert (Exv : xv = map (scalar b) lb) by (rewrite Ex in Dx; cbn in Dx; congruence).
      assert (Ely : length_ y = zlen la) by (rewrite Ey; reflexivity).
      assert (EC : forall d, d = DInt \/ d = DReal -> forall z, VReal (cast rc d DReal z) = conv true (scalar d z)) by (intros d [->| ->] z; reflexivity).
      assert (Ha : a = DInt \/ a = DReal) by tauto. assert (Hb : b = DInt \/ b = DReal) by tauto.
      assert (Emv : mv = map (conv true) yv ++ map (conv true) xv).
      { unfold mv. rewrite Eyv, Exv, map_app, !map_map. f_equal; apply map_ext; intros z; apply EC; assumption. }
      rewrite Hmr. intros i v o Hv Ho Hr. specialize (N i (nthZ_Some _ _ _ Hv)). destruct (HO _ _ _ Hv Ho Hr) as [[EQ ->]|[EQ Hr']]; rewrite EQ in N; destruct N as [N1 N2].
      * exists k, (qone index_ i + zlen la), mv. rewrite N1, N2, Ely, NU, Z.eqb_refl. split; [reflexivity|]. split; [reflexivity|]. split; [reflexivity|].
        specialize (HQ _ _ Hv EQ). pose proof (nthZ_Some _ _ _ HQ). pose proof (zlen_nonneg la). rewrite Emv, nthZ_app, zlen_map, Eyv, zlen_map. destruct (Z.ltb_spec (qone index_ i + zlen la) (zlen la)); [lia|].
        replace (qone index_ i + zlen la - zlen la) with (qone index_ i) by lia. rewrite nthZ_map, HQ. reflexivity.
      * destruct (HP _ _ _ Hv Ho Hr') as (t & p & cv & A1 & A2 & A3 & A4). rewrite N1, N2. destruct (Z.eqb_spec t k) as [->|Htk].
        -- exists k, p, mv. rewrite NU, Z.eqb_refl. split; [exact A1|]. split; [exact A2|]. split; [reflexivity|]. rewrite Hyv in A3. injection A3 as <-. pose proof (nthZ_Some _ _ _ A4).
           rewrite Emv, nthZ_app, zlen_map. destruct (Z.ltb_spec p (zlen yv)); [|lia]. rewrite nthZ_map, A4. cbn [option_map]. destruct v; try reflexivity. destruct (existsb is_real pre); reflexivity.
        -- exists t, p, cv. rewrite NU. destruct (Z.eqb_spec t k); [congruence|]. split; [exact A1|]. split; [exact A2|]. split; [exact A3|].
           destruct (nthZ_lt ct t) as [z Hz]; [apply nthZ_Some in A3; lia|]. destruct (F2_nthZ _ _ _ _ _ HD Hz) as (zv & Hzv & Dz). cbv beta in Dz. rewrite A3 in Hzv. injection Hzv as <-.
           assert (Hzy : z <> y) by (intros ->; apply Htk; rewrite NoDup_nthZ in HN; apply (HN t k (ckind y)); rewrite nthZ_map; [rewrite Hz|rewrite Hy]; reflexivity).
           pose proof (nthZ_In _ _ _ Hz) as Hzi. pose proof (no_int z cv _ Dz (Kct _ Hzi) (proj2 (Hnr _ Hzi Hzy)) (nthZ_In _ _ _ A4) true) as HH. rewrite A4. f_equal. rewrite <- HH. destruct v; try reflexivity. destruct (existsb is_real pre); reflexivity.
  - assert (HF : forall y, In y ct -> mergeable false y x = false).
    { intros y Hy. pose proof (find_index_none _ _ _ EF Hy) as H. cbv beta in H. cbn [andb] in H. now apply orb_false_iff in H. }
    destruct (one_written vs tags_ index_ vss Hpos (zlen pre) (zlen ct) 0 tags index L1 L2) as (t' & x' & E & L1' & L2' & N). rewrite E. cbn [bind fst snd]. clear E.
    eexists; split; [reflexivity|]. split; [exact L1'|]. split; [exact L2'|]. split; [|split; [|split; [|split]]].
    + rewrite map_app. cbn [map]. apply NoDup_snoc; [exact HN|]. intros Hi. apply in_map_iff in Hi as (y & E & Hy). now apply (Knew y).
    + intros y Hy. apply in_app_or in Hy as [Hy|[<-|[]]].
      * destruct (HK1 _ Hy) as (x0 & Hx0 & E0). exists x0. split; [apply in_or_app; now left|exact E0].
      * exists x. split; [apply in_or_app; right; now left|reflexivity].
    + intros x0 Hx0. apply in_app_or in Hx0 as [Hx0|[<-|[]]].
      * destruct (HK2 _ Hx0) as (y & Hy & E0). exists y. split; [apply in_or_app; now left|exact E0].
      * exists x. split; [apply in_or_app; right; now left|now left].
    + intros y y' Hy Hy' E1 E2. apply in_app_or in Hy as [Hy|[<-|[]]]; apply in_app_or in Hy' as [Hy'|[<-|[]]].
      * now apply (HK3 y y').
      * pose proof (HF _ Hy) as H. rewrite numbers_mergeable in H; [discriminate|auto|auto].
      * pose proof (HF _ Hy') as H. rewrite numbers_mergeable in H; [discriminate|auto|auto].
      * congruence.
    + exists (vcs ++ [xv]). split; [apply Forall2_app; [exact HD|repeat constructor; exact Dx]|].
      intros i v o Hv Ho Hr. specialize (N i (nthZ_Some _ _ _ Hv)). destruct (HO _ _ _ Hv Ho Hr) as [[EQ ->]|[EQ Hr']]; rewrite EQ in N; destruct N as [N1 N2].
      * exists (zlen ct), (qone index_ i), xv. rewrite N1, N2, Z.add_0_r. split; [reflexivity|]. split; [reflexivity|]. split; [rewrite ZV; apply nthZ_mid|]. specialize (HQ _ _ Hv EQ). rewrite HQ. f_equal.
        assert (ckind x = Some KInt \/ ckind x <> Some KInt) as [EI|EI] by (destruct x; cbn; try (right; discriminate); [destruct dt; (left; reflexivity) || (right; discriminate)|destruct keys; right; discriminate]).
        -- destruct (existsb is_real (pre ++ [x])) eqn:ER; [|now rewrite conv_false]. exfalso. clear ER. symmetry in HRx. apply orb_true_iff in HRx as [ER|ER]; [|apply is_real_kind in ER; congruence].
           apply has_real_pre in ER as (x0 & Hx0 & E0). destruct (HK2 _ Hx0) as (y & Hy & Ey). pose proof (HF _ Hy) as H. rewrite numbers_mergeable in H; [discriminate| |auto]. destruct Ey as [->|[-> _]]; auto.
        -- symmetry. apply (no_int x xv); auto. eapply nthZ_In; exact HQ.
      * destruct (HP _ _ _ Hv Ho Hr') as (t & p & cv & A1 & A2 & A3 & A4). exists t, p, cv. rewrite N1, N2. split; [exact A1|]. split; [exact A2|]. pose proof (nthZ_Some _ _ _ A3). split; [rewrite nthZ_app; destruct (Z.ltb_spec t (zlen vcs)); [exact A3|lia]|].
        rewrite A4, HRx. f_equal. destruct (is_real x) eqn:ER; [|now rewrite orb_false_r]. apply is_real_kind in ER. rewrite orb_true_r.
        destruct (HV _ _ _ Hv Ho Hr') as (x0 & w & Hx0 & Dw & Hw).
        assert (ckind x0 = Some KInt \/ ckind x0 <> Some KInt) as [EI|EI] by (destruct x0; cbn; try (right; discriminate); [destruct dt; (left; reflexivity) || (right; discriminate)|destruct keys; right; discriminate]).
        -- exfalso. destruct (HK2 _ Hx0) as (y & Hy & Ey). pose proof (HF _ Hy) as HH. rewrite numbers_mergeable in HH; [discriminate| |auto]. destruct Ey as [->|[-> _]]; auto.
        -- assert (Hx0k : ckind x0 <> None) by (rewrite Forall_forall in Hkinds; apply Hkinds; rewrite Ecs; apply in_or_app; now left).
           rewrite !(no_int x0 w v Dw Hx0k EI Hw). reflexivity.
Qed.

Lemma steps_inv xs : forall pre st, cs = pre ++ xs -> inv pre st ->
  exists st', foldm (simplify_step rc narrow refeq (S f) true false len tags_ index_) (combine (zseq (zlen pre) (zlen pre + zlen xs)) xs) st = Ok st' /\ inv cs st'.
Proof.
  induction xs as [|x xs IH]; intros pre st E HI.
  - rewrite app_nil_r in E. subst pre. exists st. split; [|exact HI]. now destruct (zseq _ _).
  - pose proof (zlen_nonneg xs). rewrite zlen_cons. rewrite zseq_cons by lia. cbn [combine foldm]. destruct (step_inv pre x xs st E HI) as (st1 & E1 & H1). rewrite E1. cbn [bind].
    destruct (IH (pre ++ [x]) st1) as (st2 & E2 & H2); [now rewrite <- app_assoc|exact H1|]. rewrite zlen_app in E2. change (zlen [x]) with 1 in E2. replace (zlen pre + (zlen xs + 1)) with (zlen pre + 1 + zlen xs) by lia. eauto.
Qed.

Lemma simplify_kinds : exists c', simplify_uniontype rc narrow refeq (S f) true false tags_ index_ cs = Ok c' /\ den c' = Some (map (conv (existsb is_real cs)) vs).
Proof.
  unfold simplify_uniontype. destruct (Z.ltb_spec (zlen index_) (zlen tags_)); [lia|]. rewrite Htags. pose proof (zlen_nonneg vs).
  assert (HI : inv [] (alloc len, alloc len, [])).
  { split; [apply zlen_alloc; lia|]. split; [apply zlen_alloc; lia|]. split; [constructor|]. split; [intros y []|]. split; [intros y []|]. split; [intros y y' []|]. exists []. split; [constructor|]. intros i v o _ _ Ho. change (zlen (@nil content)) with 0 in Ho. lia. }
  destruct (steps_inv cs [] _ eq_refl HI) as ([[tags' index'] ct] & E & L1 & L2 & HN & HK1 & HK2 & _ & vcs & HD & HP). change (zlen (@nil content)) with 0 in E. rewrite Z.add_0_l in E. rewrite E. cbn [bind]. clear E HI.
  assert (Hlen : zlen ct <= zlen cs).
  { assert (HH : (List.length (map ckind ct) <= List.length (map ckind cs))%nat).
    { apply NoDup_incl_length; [exact HN|]. intros k Hk. apply in_map_iff in Hk as (y & <- & Hy). destruct (HK1 _ Hy) as (x & Hx & ->). now apply in_map. }
    rewrite !map_length in HH. unfold zlen. lia. }
  unfold kMaxInt8. destruct (Z.ltb_spec 127 (zlen ct)); [lia|].
  assert (HP' : forall i v, nthZ vs i = Some v -> exists t p cv, nthZ tags' i = Some t /\ nthZ index' i = Some p /\ nthZ vcs t = Some cv /\ nthZ cv p = Some (conv (existsb is_real cs) v)).
  { intros i v Hv. destruct (Hpos i v Hv) as (t & j & cv & A & B & C & D). apply (HP i v t Hv A). pose proof (nthZ_Some _ _ _ C). pose proof (F2_zlen _ _ _ Hcs). lia. }
  assert (Hcn : ct <> []).
  { intros ->. destruct cs as [|x cs']; [congruence|]. destruct (HK2 x (or_introl eq_refl)) as (y & [] & _). }
  set (R := fun v v' : value => v' = conv (existsb is_real cs) v).
  assert (HR : forall ws, Forall2 R vs ws -> ws = map (conv (existsb is_real cs)) vs).
  { intros ws F. clear - F. induction F as [|v w l l' H F IH]; [reflexivity|]. cbn. rewrite H, IH. reflexivity. }
  destruct ct as [|c [|c1 ct]]; [congruence| |].
  - inversion HD as [|? cv ? vcs' Dc Dn]; subst. inversion Dn; subst.
    assert (HC : exists ws, omap (nthZ cv) index' = Some ws /\ Forall2 R vs ws).
    { apply omap_positions; [lia|]. intros i p v Hp Hv. destruct (HP' i v Hv) as (t' & p' & cv' & A & B & C & D). rewrite B in Hp. injection Hp as <-. eexists; split; [|reflexivity].
      pose proof (nthZ_Some _ _ _ C) as HH. change (zlen [cv]) with 1 in HH. assert (t' = 0) as -> by lia. rewrite nthZ_cons in C. simpl in C. injection C as ->. exact D. }
    destruct HC as (ws & Hw & PW). rewrite <- (HR _ PW). exact (carry_den c cv index' ws true Dc Hw).
  - assert (HC : exists ws, omap (fun ti : Z * Z => match nthZ vcs (fst ti) with Some vs => nthZ vs (snd ti) | None => None end) (combine tags' index') = Some ws /\ Forall2 R vs ws).
    { apply omap_positions; [rewrite zlen_combine_le by lia; lia|]. intros i [t p] v Htp Hv. rewrite nthZ_combine in Htp. destruct (HP' i v Hv) as (t' & p' & cv & A & B & C & D). rewrite A, B in Htp. injection Htp as <- <-.
      eexists; split; [|reflexivity]. cbn [fst snd]. now rewrite C. }
    destruct HC as (ws & Hw & PW). rewrite <- (HR _ PW).
    eexists; split; [cbn [mkUnion]; destruct (Z.ltb_spec (zlen index') (zlen tags')); [lia|reflexivity]|]. cbn [den]. apply dens_omap in HD. rewrite HD.
    pose proof (zlen_nonneg (c1 :: ct)). rewrite zlen_cons. destruct (Z.leb_spec 1 (zlen (c1 :: ct) + 1)); [|lia]. destruct (Z.leb_spec (zlen tags') (zlen index')); [|lia]. exact Hw.
Qed.
End M.
