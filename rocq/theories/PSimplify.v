(** simplify_uniontype: every position keeps its value while the contents are merged one by one. *)
From Coq Require Import Permutation.
From Verif Require Import Base BaseLemmas OmapLemmas LoopLemmas Content SpecArray SpecForm SpecMerge KCore Core KConvert Convert KOption Option KMerge Merge
  PCore PCarry PList PConvert POption PForm PTidy PPromote PMergeable PMergeK PMerge PMergeC PMergeR PMergeM.

Lemma find_index_spec p l k : find_index p l = Some k -> exists y, nthZ l k = Some y /\ p y = true.
Proof.
  revert k; induction l as [|x l IH]; intros k H; simpl in H; [discriminate|]. destruct (p x) eqn:E; [injection H as <-; exists x; auto|].
  destruct (find_index p l) as [i|]; [|discriminate]. injection H as <-. destruct (IH i eq_refl) as (y & Hy & Py). exists y. split; [|exact Py]. pose proof (nthZ_Some _ _ _ Hy). rewrite nthZ_cons. destruct (Z.eqb_spec (i + 1) 0); [lia|]. replace (i + 1 - 1) with i by lia. exact Hy.
Qed.
Lemma zlen_upd {A} (l : list A) n x : zlen (upd l n x) = zlen l.
Proof. revert n; induction l as [|y l IH]; intros n; [reflexivity|]. destruct n; simpl; rewrite ?zlen_cons; [reflexivity|]. rewrite IH. reflexivity. Qed.
Lemma sumw_upd l n x y m : nthZ l (Z.of_nat n) = Some y -> (weight m <= weight y + x)%nat -> (sumw (upd l n m) <= sumw l + x)%nat.
Proof.
  revert n; induction l as [|z l IH]; intros n H Hw; [rewrite nthZ_nil in H; discriminate|]. destruct n; simpl upd; rewrite !sumw_cons.
  - rewrite nthZ_cons in H. simpl in H. injection H as ->. lia.
  - rewrite nthZ_cons in H. destruct (Z.eqb_spec (Z.of_nat (S n)) 0); [lia|]. replace (Z.of_nat (S n) - 1) with (Z.of_nat n) in H by lia. specialize (IH n H Hw). lia.
Qed.
Lemma Forall_upd {A} (P : A -> Prop) l n x : Forall P l -> P x -> Forall P (upd l n x).
Proof. intros H Hx. revert n; induction H; intros n; [constructor|]. destruct n; simpl; constructor; auto. Qed.
Lemma Forall2_upd {A B} (R : A -> B -> Prop) l l' n x y : Forall2 R l l' -> R x y -> Forall2 R (upd l n x) (upd l' n y).
Proof. intros H Hx. revert n; induction H; intros n; [constructor|]. destruct n; simpl; constructor; auto. Qed.

Lemma omap_positions {A B} (R : B -> B -> Prop) (pick : A -> option B) : forall xs vs, zlen xs = zlen vs ->
  (forall i x v, nthZ xs i = Some x -> nthZ vs i = Some v -> exists v', pick x = Some v' /\ R v v') -> exists vs', omap pick xs = Some vs' /\ Forall2 R vs vs'.
Proof.
  induction xs as [|x xs IH]; intros vs HL H.
  - assert (vs = []) as -> by (apply zlen_0; rewrite <- HL; reflexivity). exists []. split; [reflexivity|constructor].
  - destruct vs as [|v vs]; [rewrite zlen_cons in HL; change (zlen (@nil B)) with 0 in HL; pose proof (zlen_nonneg xs); lia|]. rewrite !zlen_cons in HL.
    destruct (H 0 x v) as (v' & E & Rv); [rewrite nthZ_cons; reflexivity|rewrite nthZ_cons; reflexivity|]. destruct (IH vs) as (vs' & E' & RF); [lia| |].
    + intros i y w Hy Hw. apply (H (i + 1)); rewrite nthZ_cons; pose proof (nthZ_Some _ _ _ Hy); (destruct (Z.eqb_spec (i + 1) 0); [lia|]); replace (i + 1 - 1) with i by lia; assumption.
    + exists (v' :: vs'). simpl. rewrite E, E'. split; [reflexivity|constructor; assumption].
Qed.

(** the two kernels write [k] and a shifted index at the selected positions *)
Definition written (len : Z) (Q : Z -> bool) (q : Z -> Z) (k base : Z) (tags index : list Z) (r : res (list Z * list Z)) : Prop :=
  exists tags' index', r = Ok (tags', index') /\ zlen tags' = len /\ zlen index' = len /\
    forall i, 0 <= i < len -> if Q i then nthZ tags' i = Some k /\ nthZ index' i = Some (q i + base) else nthZ tags' i = nthZ tags i /\ nthZ index' i = nthZ index i.
Lemma scatter len (Q : Z -> bool) (q : Z -> Z) (k base : Z) (tags index : list Z) (body : Z -> list Z * list Z -> res (list Z * list Z)) : 0 <= len -> zlen tags = len -> zlen index = len ->
  (forall i t x, 0 <= i < len -> zlen t = len -> zlen x = len -> body i (t, x) = if Q i then let* t := wr t i k in let* x := wr x i (q i + base) in Ok (t, x) else Ok (t, x)) ->
  written len Q q k base tags index (for_ 0 len body (tags, index)).
Proof.
  intros Hl Ht Hi Hb. destruct (for_inv (fun n st => zlen (fst st) = len /\ zlen (snd st) = len /\
    forall i, 0 <= i < len -> if (i <? n) && Q i then nthZ (fst st) i = Some k /\ nthZ (snd st) i = Some (q i + base) else nthZ (fst st) i = nthZ tags i /\ nthZ (snd st) i = nthZ index i) 0 len body (tags, index)) as ([t x] & E & A1 & A2 & A3).
  - lia.
  - simpl. split; [exact Ht|]. split; [exact Hi|]. intros i Hi'. destruct (Z.ltb_spec i 0); [lia|]. simpl. auto.
  - intros i [t x] Hr (A1 & A2 & A3). simpl in *. rewrite Hb by assumption. destruct (Q i) eqn:EQ.
    + destruct (wr_spec t i k) as (t' & E1 & L1 & N1); [lia|]. destruct (wr_spec x i (q i + base)) as (x' & E2 & L2 & N2); [lia|]. rewrite E1. cbn [bind]. rewrite E2. cbn [bind]. eexists; split; [reflexivity|]. simpl.
      split; [lia|]. split; [lia|]. intros j Hj. rewrite N1, N2. destruct (Z.eqb_spec j i) as [->|Hn].
      * destruct (Z.ltb_spec i (i + 1)); [|lia]. rewrite EQ. simpl. auto.
      * specialize (A3 j Hj). destruct (Z.ltb_spec j (i + 1)), (Z.ltb_spec j i); try lia; exact A3.
    + eexists; split; [reflexivity|]. simpl. split; [exact A1|]. split; [exact A2|]. intros j Hj. specialize (A3 j Hj). destruct (Z.eq_dec j i) as [->|Hn].
      * rewrite EQ, andb_false_r. rewrite Z.ltb_irrefl in A3. exact A3.
      * destruct (Z.ltb_spec j (i + 1)), (Z.ltb_spec j i); try lia; exact A3.
  - exists t, x. split; [exact E|]. simpl in *. split; [exact A1|]. split; [exact A2|]. intros i Hi'. specialize (A3 i Hi'). destruct (Z.ltb_spec i len); [|lia]. exact A3.
Qed.

Definition fm_ (mb : bool) (c : content) (g : form) : Prop := fmerge mb (form_of c) g = true.
Section PS.
Variable rc : Z -> Z.
Variable narrow : content -> bool.
Variable mb : bool.
Variable domerge : bool.
Variable fuel : nat.
Variable vs : list value.
Notation len := (zlen vs).
(** [OF]: no content has an option type; otherwise no content has an IndexedArray *)
Variable OF : bool.
Notation pr := (promotes rc).
Definition leaf_ok (x : content) : Prop := tidy x /\ (if OF then ofree x else indexed_free x = true).
Definition inv (P : Z -> Prop) (W : nat) (ne : bool) (st : list Z * list Z * list content) : Prop :=
  let '(tags, index, contents) := st in
  zlen tags = len /\ zlen index = len /\ Forall tidy contents /\ (OF = true -> Forall ofree contents) /\ (sumw contents <= W)%nat /\ (ne = true -> contents <> []) /\
  exists vcs, dens contents vcs /\ forall i v, nthZ vs i = Some v -> P i ->
    exists t p cv v', nthZ tags i = Some t /\ nthZ index i = Some p /\ nthZ vcs t = Some cv /\ nthZ cv p = Some v' /\ pr v v'.
Definition excuse' (W : nat) : Prop := (exists x, narrow x = true) \/ 127 < Z.of_nat W.
Definition sout (P : Z -> Prop) (W : nat) (ne : bool) (r : res (list Z * list Z * list content)) : Prop :=
  match r with Ok st => inv P W ne st | Err _ => excuse' W | UB => False end.
Lemma sout_weaken (P P' : Z -> Prop) W W' ne ne' r : (forall i, 0 <= i < len -> P' i -> P i) -> (W <= W')%nat -> (ne' = true -> ne = true) -> sout P W ne r -> sout P' W' ne' r.
Proof.
  intros HP HW Hne H. destruct r as [[[tags index] contents]| |]; [|destruct H as [H|H]; [left; exact H|right; lia]|exact H].
  destruct H as (A1 & A2 & A3 & A4 & A5 & A6 & vcs & A7 & A8). split; [exact A1|]. split; [exact A2|]. split; [exact A3|]. split; [exact A4|]. split; [lia|]. split; [auto|]. exists vcs. split; [exact A7|]. intros i v Hv Pi. apply A8; [exact Hv|apply HP; [eapply nthZ_Some; exact Hv|exact Pi]].
Qed.
Lemma sout_bind P W ne P' W' ne' r k : sout P W ne r -> (W <= W')%nat -> (forall st, inv P W ne st -> sout P' W' ne' (k st)) -> sout P' W' ne' (let* st := r in k st).
Proof. intros H HW Hk. destruct r as [st| |]; [apply Hk; exact H|destruct H as [H|H]; [left; exact H|right; lia]|exact H]. Qed.

Definition leafstep (rq : content -> content -> bool) (ker : list Z -> list Z -> Z -> Z -> res (list Z * list Z)) (x : content) (st : list Z * list Z * list content) : res (list Z * list Z * list content) :=
  let '(tags, index, contents) := st in
  match find_index (fun y => rq y x || (domerge && mergeable mb y x)) contents with
  | Some k =>
      let* y := rd contents k in
      if rq y x then
        let* p := ker tags index k 0 in
        Ok (fst p, snd p, contents)
      else
        let* p := ker tags index k (length_ y) in
        let* m := merge rc narrow fuel y x in
        let* contents := wr contents k m in
        Ok (fst p, snd p, contents)
  | None =>
      let* p := ker tags index (zlen contents) 0 in
      Ok (fst p, snd p, contents ++ [x])
  end.
Lemma leafstep_ok rq ker x xv Q q : (forall a b, rq a b = true -> a = b) -> den x = Some xv -> leaf_ok x ->
  (forall tags index k base, zlen tags = len -> zlen index = len -> written len Q q k base tags index (ker tags index k base)) ->
  (forall i v, nthZ vs i = Some v -> Q i = true -> nthZ xv (q i) = Some v) ->
  forall P W ne st, inv P W ne st -> (W + weight x + 1 <= fuel)%nat -> sout (fun i => P i \/ Q i = true) (W + weight x) true (leafstep rq ker x st).
Proof.
  intros Hrq Dx (Tx & Ox) Hk HQ P W ne [[tags index] contents] (L1 & L2 & HT & HO & HW & _ & vcs & HD & HP) Hf. unfold leafstep.
  destruct (find_index _ contents) as [k|] eqn:EF.
  - apply find_index_spec in EF as (y & Hy & Py). pose proof (nthZ_Some _ _ _ Hy) as Hkr. rewrite (proj2 (rd_Ok _ _ _) Hy). cbn [bind]. destruct (F2_nthZ _ _ _ _ _ HD Hy) as (yv & Hyv & Dy). cbv beta in Dy.
    destruct (rq y x) eqn:ER.
    + apply Hrq in ER as ->. rewrite Dx in Dy. injection Dy as <-. destruct (Hk tags index k 0 L1 L2) as (t' & x' & E & L1' & L2' & N). rewrite E. cbn [bind fst snd]. split; [exact L1'|]. split; [exact L2'|]. split; [exact HT|]. split; [exact HO|]. split; [lia|]. split; [intros _ E0; rewrite E0, nthZ_nil in Hy; discriminate|].
      exists vcs. split; [exact HD|]. intros i v Hv Hi. specialize (N i (nthZ_Some _ _ _ Hv)). destruct (Q i) eqn:EQ.
      * exists k, (q i + 0), xv, v. rewrite Z.add_0_r in *. destruct N as [N1 N2]. split; [exact N1|]. split; [exact N2|]. split; [exact Hyv|]. split; [apply HQ; assumption|constructor].
      * destruct N as [-> ->]. apply HP; [exact Hv|]. destruct Hi as [Hi|Hi]; [exact Hi|congruence].
    + cbn [orb] in Py. apply andb_true_iff in Py as [_ Py]. rewrite mergeable_form in Py.
      destruct (Hk tags index k (length_ y) L1 L2) as (t' & x' & E & L1' & L2' & N). rewrite E. cbn [bind fst snd]. clear E.
      assert (HTy : tidy y) by (rewrite Forall_forall in HT; apply HT; eapply nthZ_In; exact Hy).
      assert (Hwy : (weight y <= sumw contents)%nat) by (apply (list_sum_in weight); eapply nthZ_In; exact Hy).
      assert (HM : outcome rc narrow mb [y; x] [yv; xv] (merge rc narrow fuel y x)).
      { unfold merge. apply mergemany_ok; [|sw; simpl length; lia]. split; [repeat constructor; assumption|]. split; [repeat constructor; assumption|]. split.
        - destruct OF; [right|left; repeat constructor; exact Ox]. specialize (HO eq_refl). rewrite Forall_forall in HO. repeat constructor; [apply HO; eapply nthZ_In; exact Hy|exact Ox].
        - repeat constructor; exact Py. }
      destruct (merge rc narrow fuel y x) as [m| |]; cbn [bind]; [| |exact HM].
      2:{ destruct HM as [HM|[_ HM]]; [left; exact HM|right]. sw. lia. }
      destruct HM as (mv & Dm & Pm & Tm & Wm & Om & _ & _). cbn [concat] in Pm. rewrite app_nil_r in Pm.
      rewrite wr_Ok by lia. cbn [bind]. set (kn := Z.to_nat k). assert (Ek : k = Z.of_nat kn) by (unfold kn; lia).
      split; [exact L1'|]. split; [exact L2'|]. split; [apply Forall_upd; assumption|]. split; [|split; [|split]].
      * intros HOF. specialize (HO HOF). apply Forall_upd; [exact HO|]. apply Om. rewrite HOF in Ox. rewrite Forall_forall in HO. repeat constructor; [apply HO; eapply nthZ_In; exact Hy|exact Ox].
      * rewrite Ek in Hy. pose proof (sumw_upd contents kn (weight x) y m Hy) as HH. sw. lia.
      * intros _ E0. apply (f_equal zlen) in E0. rewrite zlen_upd in E0. change (zlen (@nil content)) with 0 in E0. lia.
      * exists (upd vcs kn mv). split; [apply Forall2_upd; assumption|]. pose proof (F2_zlen _ _ _ HD) as ZV.
        assert (NU : forall t, nthZ (upd vcs kn mv) t = if t =? k then Some mv else nthZ vcs t) by (intros t; rewrite nthZ_upd by lia; rewrite <- Ek; reflexivity).
        intros i v Hv Hi. specialize (N i (nthZ_Some _ _ _ Hv)). rewrite (den_length _ _ Dy) in N. destruct (Q i) eqn:EQ.
        -- destruct N as [N1 N2]. specialize (HQ i v Hv EQ). pose proof (nthZ_Some _ _ _ HQ) as Hq. destruct (F2_nthZ _ (yv ++ xv) mv (q i + zlen yv) v Pm) as (v' & Hv' & Pv).
           { rewrite nthZ_app. pose proof (zlen_nonneg yv). destruct (Z.ltb_spec (q i + zlen yv) (zlen yv)); [lia|]. replace (q i + zlen yv - zlen yv) with (q i) by lia. exact HQ. }
           exists k, (q i + zlen yv), mv, v'. split; [exact N1|]. split; [exact N2|]. split; [rewrite NU, Z.eqb_refl; reflexivity|]. split; [exact Hv'|exact Pv].
        -- destruct N as [-> ->]. destruct Hi as [Hi|Hi]; [|congruence]. destruct (HP i v Hv Hi) as (t & p & cv & v1 & A1 & A2 & A3 & A4 & A5). destruct (Z.eqb_spec t k) as [->|Hn].
           ++ rewrite Hyv in A3. injection A3 as <-. destruct (F2_nthZ _ (yv ++ xv) mv p v1 Pm) as (v' & Hv' & Pv).
              { rewrite nthZ_app. pose proof (nthZ_Some _ _ _ A4). destruct (Z.ltb_spec p (zlen yv)); [exact A4|lia]. }
              exists k, p, mv, v'. split; [exact A1|]. split; [exact A2|]. split; [rewrite NU, Z.eqb_refl; reflexivity|]. split; [exact Hv'|eapply promotes_trans; eassumption].
           ++ exists t, p, cv, v1. split; [exact A1|]. split; [exact A2|]. split; [rewrite NU; destruct (Z.eqb_spec t k); [congruence|exact A3]|]. split; assumption.
  - destruct (Hk tags index (zlen contents) 0 L1 L2) as (t' & x' & E & L1' & L2' & N). rewrite E. cbn [bind fst snd]. clear E. pose proof (F2_zlen _ _ _ HD) as ZV.
    split; [exact L1'|]. split; [exact L2'|]. split; [apply Forall_app; split; [exact HT|repeat constructor; exact Tx]|]. split; [|split; [|split]].
    + intros HOF. apply Forall_app. split; [apply HO; exact HOF|]. rewrite HOF in Ox. repeat constructor. exact Ox.
    + sw. lia.
    + intros _ E0. destruct contents; discriminate.
    + exists (vcs ++ [xv]). split; [apply Forall2_app; [exact HD|repeat constructor; exact Dx]|]. intros i v Hv Hi. specialize (N i (nthZ_Some _ _ _ Hv)). destruct (Q i) eqn:EQ.
      * destruct N as [N1 N2]. exists (zlen contents), (q i + 0), xv, v. rewrite Z.add_0_r in *. split; [exact N1|]. split; [exact N2|]. split; [|split; [apply HQ; assumption|constructor]].
        rewrite nthZ_app, ZV. destruct (Z.ltb_spec (zlen vcs) (zlen vcs)); [lia|]. rewrite Z.sub_diag. reflexivity.
      * destruct N as [-> ->]. destruct Hi as [Hi|Hi]; [|congruence]. destruct (HP i v Hv Hi) as (t & p & cv & v1 & A1 & A2 & A3 & A4 & A5). exists t, p, cv, v1. split; [exact A1|]. split; [exact A2|]. split; [|split; assumption].
        pose proof (nthZ_Some _ _ _ A3). rewrite nthZ_app. destruct (Z.ltb_spec t (zlen vcs)); [exact A3|lia].
Qed.

(** ** the union *)
Variable refeq : content -> content -> bool.
Hypothesis Hrefeq : forall a b, refeq a b = true -> a = b.
Variables (tags_ index_ : list Z) (cs : list content) (vss : list (list value)).
Hypothesis Hcs : dens cs vss.
Hypothesis Htags : zlen tags_ = len.
Hypothesis Hpos : forall i v, nthZ vs i = Some v -> exists t j cv, nthZ tags_ i = Some t /\ nthZ index_ i = Some j /\ nthZ vss t = Some cv /\ nthZ cv j = Some v.

Definition Qone (o i : Z) : bool := match nthZ tags_ i with Some t => t =? o | None => false end.
Definition qone (i : Z) : Z := match nthZ index_ i with Some j => j | None => 0 end.
Lemma pos_tag i : 0 <= i < len -> exists t j v, nthZ tags_ i = Some t /\ nthZ index_ i = Some j /\ nthZ vs i = Some v.
Proof. intros Hi. destruct (nthZ_lt vs i Hi) as (v & Hv). destruct (Hpos i v Hv) as (t & j & cv & A & B & _). eauto 8. Qed.

Lemma one_written o k base tags index : zlen tags = len -> zlen index = len ->
  written len (Qone o) qone k base tags index (awkward_UnionArray_simplify_one tags index tags_ index_ k o len base).
Proof.
  intros H1 H2. unfold awkward_UnionArray_simplify_one. apply scatter; [apply zlen_nonneg|exact H1|exact H2|]. intros i t x Hi Lt Lx. destruct (pos_tag i Hi) as (ti & j & v & A & B & _).
  unfold Qone, qone. rewrite A, B. unfold rd. rewrite A, B. cbn [bind]. destruct (ti =? o); [|reflexivity]. destruct (wr t i k); reflexivity.
Qed.
Lemma plain_ok o x xv : nthZ cs o = Some x -> den x = Some xv -> leaf_ok x ->
  forall P W ne st, inv P W ne st -> (W + weight x + 1 <= fuel)%nat -> sout (fun i => P i \/ Qone o i = true) (W + weight x) true (simplify_plain rc narrow refeq fuel domerge mb len tags_ index_ o x st).
Proof.
  intros Ho Dx HL P W ne st HI Hf. assert (E : simplify_plain rc narrow refeq fuel domerge mb len tags_ index_ o x st = leafstep refeq (fun tags index k base => awkward_UnionArray_simplify_one tags index tags_ index_ k o len base) x st) by (destruct st as [[? ?] ?]; reflexivity).
  rewrite E. apply leafstep_ok with (xv := xv) (q := qone) (ne := ne); try assumption.
  - intros tags index k base. apply one_written.
  - intros i v Hv HQ. destruct (Hpos i v Hv) as (t & j & cv & A & B & C & D). unfold Qone in HQ. rewrite A in HQ. apply Z.eqb_eq in HQ as ->. unfold qone. rewrite B. destruct (F2_nthZ _ _ _ _ _ Hcs Ho) as (xv' & Hx' & Dx'). cbv beta in Dx'. rewrite Dx in Dx'. injection Dx' as <-. rewrite C in Hx'. injection Hx' as ->. exact D.
Qed.

(** a nested union, all its contents *)
Section Nested.
Variables (o : Z) (itags iindex : list Z) (ics : list content) (ivss : list (list value)) (ivs : list value).
Hypothesis Ho : nthZ vss o = Some ivs.
Hypothesis Hitags : zlen itags = zlen ivs.
Hypothesis Hipos : forall i v, nthZ ivs i = Some v -> exists t j cv, nthZ itags i = Some t /\ nthZ iindex i = Some j /\ nthZ ivss t = Some cv /\ nthZ cv j = Some v.
Definition itag (i : Z) : option Z := match nthZ index_ i with Some j => nthZ itags j | None => None end.
Definition Qtwo (o' i : Z) : bool := Qone o i && match itag i with Some t => t =? o' | None => false end.
Definition qtwo (i : Z) : Z := match nthZ index_ i with Some j => match nthZ iindex j with Some p => p | None => 0 end | None => 0 end.
Lemma pos_two i v : nthZ vs i = Some v -> Qone o i = true -> exists j t p cv, nthZ index_ i = Some j /\ nthZ itags j = Some t /\ nthZ iindex j = Some p /\ nthZ ivss t = Some cv /\ nthZ cv p = Some v.
Proof.
  intros Hv HQ. destruct (Hpos i v Hv) as (t & j & cv & A & B & C & D). unfold Qone in HQ. rewrite A in HQ. apply Z.eqb_eq in HQ as ->. rewrite C in Ho. injection Ho as ->. destruct (Hipos j v D) as (t & p & cv & A' & B' & C' & D'). exists j, t, p, cv. auto.
Qed.
Lemma two_written o' k base tags index : zlen tags = len -> zlen index = len ->
  written len (Qtwo o') qtwo k base tags index (awkward_UnionArray_simplify tags index tags_ index_ itags iindex k o' o len base).
Proof.
  intros H1 H2. unfold awkward_UnionArray_simplify. apply scatter; [apply zlen_nonneg|exact H1|exact H2|]. intros i t x Hi Lt Lx. destruct (pos_tag i Hi) as (ti & j & v & A & B & C).
  unfold Qtwo, qtwo, itag. destruct (Qone o i) eqn:EQ.
  - destruct (pos_two i v C EQ) as (j' & t' & p & cv & A' & B' & C' & _). unfold Qone in EQ. rewrite A in EQ. rewrite A', B', C'. unfold rd. rewrite A, A'. cbn [bind]. rewrite EQ, B', C'. cbn [bind andb]. destruct (t' =? o'); [|reflexivity]. destruct (wr t i k); reflexivity.
  - unfold Qone in EQ. rewrite A in EQ. unfold rd. rewrite A. cbn [bind]. rewrite EQ. reflexivity.
Qed.
Lemma nested_ok o' x xv : nthZ ivss o' = Some xv -> den x = Some xv -> leaf_ok x ->
  forall P W ne st, inv P W ne st -> (W + weight x + 1 <= fuel)%nat -> sout (fun i => P i \/ Qtwo o' i = true) (W + weight x) true (simplify_nested rc narrow fuel domerge mb len tags_ index_ o itags iindex st (o', x)).
Proof.
  intros Ho' Dx HL P W ne st HI Hf. assert (E : simplify_nested rc narrow fuel domerge mb len tags_ index_ o itags iindex st (o', x) = leafstep (fun _ _ => false) (fun tags index k base => awkward_UnionArray_simplify tags index tags_ index_ itags iindex k o' o len base) x st) by (destruct st as [[? ?] ?]; reflexivity).
  rewrite E. apply leafstep_ok with (xv := xv) (q := qtwo) (ne := ne); try assumption.
  - intros; discriminate.
  - intros tags index k base. apply two_written.
  - intros i v Hv HQ. unfold Qtwo in HQ. apply andb_true_iff in HQ as [HQ1 HQ2]. destruct (pos_two i v Hv HQ1) as (j & t & p & cv & A & B & C & D & E'). unfold itag in HQ2. rewrite A, B in HQ2. apply Z.eqb_eq in HQ2 as ->. unfold qtwo. rewrite A, C. rewrite Ho' in D. injection D as ->. exact E'.
Qed.
Lemma nested_fold xs : forall a P W ne st, (forall p x, nthZ xs p = Some x -> exists xv, nthZ ivss (a + p) = Some xv /\ den x = Some xv) -> Forall leaf_ok xs ->
  inv P W ne st -> (W + sumw xs + 1 <= fuel)%nat ->
  sout (fun i => P i \/ exists o', a <= o' < a + zlen xs /\ Qtwo o' i = true) (W + sumw xs) (ne || negb (zlen xs =? 0)) (foldm (simplify_nested rc narrow fuel domerge mb len tags_ index_ o itags iindex) (combine (zseq a (a + zlen xs)) xs) st).
Proof.
  induction xs as [|x xs IH]; intros a P W ne st HX HL HI Hf.
  - rewrite combine_nil. cbn [foldm]. apply (sout_weaken P _ W _ ne); [intros i _ [H|(o' & H & _)]; [exact H|change (zlen (@nil content)) with 0 in H; lia]|lia|change (zlen (@nil content)) with 0; rewrite orb_false_r; auto|exact HI].
  - inversion HL; subst. pose proof (zlen_nonneg xs). rewrite zlen_cons in *. rewrite zseq_cons by lia. cbn [combine foldm]. destruct (HX 0 x) as (xv & Hxv & Dx); [rewrite nthZ_cons; reflexivity|]. rewrite Z.add_0_r in Hxv. sw.
    eapply sout_bind; [eapply nested_ok; [exact Hxv|exact Dx|assumption|exact HI|lia]|lia|]. intros st' HI'.
    replace (a + (1 + zlen xs)) with ((a + 1) + zlen xs) by lia. replace (a + (zlen xs + 1)) with ((a + 1) + zlen xs) by lia.
    assert (HX' : forall p x, nthZ xs p = Some x -> exists xv, nthZ ivss (a + 1 + p) = Some xv /\ den x = Some xv).
    { intros p y Hy. pose proof (nthZ_Some _ _ _ Hy). destruct (HX (p + 1) y) as (yv & Hyv & Dy); [rewrite nthZ_cons; destruct (Z.eqb_spec (p + 1) 0); [lia|]; replace (p + 1 - 1) with p by lia; exact Hy|]. exists yv. split; [|exact Dy]. replace (a + 1 + p) with (a + (p + 1)) by lia. exact Hyv. }
    pose proof (IH (a + 1) _ _ true st' HX' ltac:(assumption) HI' ltac:(lia)) as HH. revert HH. apply sout_weaken.
    + intros i _ [Hi|(o' & Ho' & HQ)]; [left; left; exact Hi|]. destruct (Z.eq_dec o' a) as [->|]; [left; right; exact HQ|right; exists o'; split; [lia|exact HQ]].
    + lia.
    + reflexivity.
Qed.
End Nested.

Definition leaves (x : content) : list content := match x with Union _ _ ics => ics | _ => [x] end.
Lemma union_positions tags index xs ws : den (Union tags index xs) = Some ws ->
  exists wss, dens xs wss /\ 1 <= zlen xs /\ zlen tags = zlen ws /\ zlen tags <= zlen index /\ forall i v, nthZ ws i = Some v -> exists t j cv, nthZ tags i = Some t /\ nthZ index i = Some j /\ nthZ wss t = Some cv /\ nthZ cv j = Some v.
Proof.
  cbn [den]. intros H. destruct (omap den xs) as [wss|] eqn:E; [|discriminate]. destruct ((1 <=? zlen xs) && (zlen tags <=? zlen index)) eqn:EB; [|discriminate]. apply andb_true_iff in EB as [E1 E2].
  exists wss. split; [apply dens_omap; exact E|]. split; [lia|]. apply omap_F in H. pose proof (F2_zlen _ _ _ H) as Z. rewrite zlen_combine_le in Z by lia. split; [exact Z|]. split; [lia|].
  intros i v Hv. destruct (F2_nthZ _ _ _ i _ (F2_flip _ _ _ H) Hv) as ([t j] & Htj & HH). cbv beta in HH. simpl in HH. rewrite nthZ_combine in Htj. destruct (nthZ tags i) as [t'|]; [|discriminate]. destruct (nthZ index i) as [j'|]; [|discriminate]. injection Htj as -> ->.
  destruct (nthZ wss t) as [cv|] eqn:Ecv; [|discriminate]. exists t, j, cv. auto.
Qed.
Lemma step_ok o x xv : nthZ cs o = Some x -> den x = Some xv -> Forall leaf_ok (leaves x) ->
  forall P W ne st, inv P W ne st -> (W + weight x + 1 <= fuel)%nat -> sout (fun i => P i \/ Qone o i = true) (W + weight x) true (simplify_step rc narrow refeq fuel domerge mb len tags_ index_ st (o, x)).
Proof.
  intros Ho Dx HL P W ne st HI Hf. assert (HP : (forall t i ics, x <> Union t i ics) -> sout (fun i => P i \/ Qone o i = true) (W + weight x) true (simplify_plain rc narrow refeq fuel domerge mb len tags_ index_ o x st)).
  { intros Hn. apply (plain_ok o x xv Ho Dx) with (ne := ne); try assumption. destruct x; try (inversion HL; assumption). exfalso. eapply Hn; reflexivity. }
  destruct x; try (apply HP; intros; discriminate). clear HP. cbn [simplify_step leaves] in *. destruct (union_positions _ _ _ _ Dx) as (ivss & Di & Hne & Hit & _ & Hip).
  destruct (F2_nthZ _ _ _ _ _ Hcs Ho) as (ivs & Hivs & Dx'). cbv beta in Dx'. rewrite Dx in Dx'. injection Dx' as <-.
  match goal with |- sout _ _ _ (foldm (simplify_nested _ _ _ _ _ _ _ _ _ ?it ?ix) (combine _ ?ics) _) => pose proof (nested_fold o it ix ivss xv Hivs Hip ics 0 P W ne st) as NF end.
  rewrite Z.add_0_l in NF. cut (sout (fun i => P i \/ exists o', 0 <= o' < zlen contents /\ Qtwo o tags o' i = true) (W + sumw contents) (ne || negb (zlen contents =? 0)) (foldm (simplify_nested rc narrow fuel domerge mb len tags_ index_ o tags index) (combine (zseq 0 (zlen contents)) contents) st)); [apply sout_weaken|apply NF; [|exact HL|exact HI|]].
  - intros i Hi [Hp|HQ]; [left; exact Hp|right]. destruct (nthZ_lt vs i Hi) as (v & Hv). destruct (pos_two o _ _ _ _ Hivs Hip i v Hv HQ) as (j & t & p & cv & A & B & C & D & E). exists t. pose proof (nthZ_Some _ _ _ D) as HR. pose proof (F2_zlen _ _ _ Di). split; [lia|].
    unfold Qtwo, itag. rewrite HQ, A, B, Z.eqb_refl. reflexivity.
  - unfold sumw. cbn [weight]. lia.
  - intros _. destruct (Z.eqb_spec (zlen contents) 0); [lia|]. apply orb_true_r.
  - intros p y Hy. rewrite Z.add_0_l. destruct (F2_nthZ _ _ _ _ _ Di Hy) as (yv & Hyv & Dy). eauto.
  - cbn [weight] in Hf. unfold sumw. lia.
Qed.
Lemma steps_ok xs : forall a P W ne st, (forall p x, nthZ xs p = Some x -> nthZ cs (a + p) = Some x) -> Forall (fun x => Forall leaf_ok (leaves x)) xs ->
  inv P W ne st -> (W + sumw xs + 1 <= fuel)%nat ->
  sout (fun i => P i \/ exists o, a <= o < a + zlen xs /\ Qone o i = true) (W + sumw xs) (ne || negb (zlen xs =? 0)) (foldm (simplify_step rc narrow refeq fuel domerge mb len tags_ index_) (combine (zseq a (a + zlen xs)) xs) st).
Proof.
  induction xs as [|x xs IH]; intros a P W ne st HX HL HI Hf.
  - rewrite combine_nil. cbn [foldm]. apply (sout_weaken P _ W _ ne); [intros i _ [H|(o' & H & _)]; [exact H|change (zlen (@nil content)) with 0 in H; lia]|lia|change (zlen (@nil content)) with 0; rewrite orb_false_r; auto|exact HI].
  - inversion HL; subst. pose proof (zlen_nonneg xs). rewrite zlen_cons in *. rewrite zseq_cons by lia. cbn [combine foldm]. pose proof (HX 0 x ltac:(rewrite nthZ_cons; reflexivity)) as Hx. rewrite Z.add_0_r in Hx. destruct (F2_nthZ _ _ _ _ _ Hcs Hx) as (xv & _ & Dx). cbv beta in Dx. sw.
    eapply sout_bind; [eapply step_ok; [exact Hx|exact Dx|assumption|exact HI|lia]|lia|]. intros st' HI'.
    replace (a + (1 + zlen xs)) with ((a + 1) + zlen xs) by lia. replace (a + (zlen xs + 1)) with ((a + 1) + zlen xs) by lia.
    assert (HX' : forall p x, nthZ xs p = Some x -> nthZ cs (a + 1 + p) = Some x).
    { intros p y Hy. pose proof (nthZ_Some _ _ _ Hy). replace (a + 1 + p) with (a + (p + 1)) by lia. apply HX. rewrite nthZ_cons; destruct (Z.eqb_spec (p + 1) 0); [lia|]; replace (p + 1 - 1) with p by lia; exact Hy. }
    pose proof (IH (a + 1) _ _ true st' HX' ltac:(assumption) HI' ltac:(lia)) as HH. revert HH. apply sout_weaken.
    + intros i _ [Hi|(o' & Ho' & HQ)]; [left; left; exact Hi|]. destruct (Z.eq_dec o' a) as [->|]; [left; right; exact HQ|right; exists o'; split; [lia|exact HQ]].
    + lia.
    + reflexivity.
Qed.

(** contents that can all be merged become one *)
Lemma plain_single o x xv c : domerge = true /\ True -> nthZ cs o = Some x -> den x = Some xv -> leaf_ok x -> fmc mb c x -> ufree c -> ufree x ->
  forall P W ne tags index st', inv P W ne (tags, index, [c]) -> (W + weight x + 1 <= fuel)%nat ->
  simplify_plain rc narrow refeq fuel domerge mb len tags_ index_ o x (tags, index, [c]) = Ok st' ->
  exists c', snd st' = [c'] /\ ufree c' /\ forall g, fm_ mb c g -> fm_ mb x g -> fm_ mb c' g.
Proof.
  intros HDM Ho Dx (Tx & Ox) HF Uc Ux P W ne tags index st' (L1 & L2 & HT & HO & HW & _ & vcs & HD & HP) Hf HE. unfold simplify_plain in HE. cbn [find_index] in HE.
  assert (EM : refeq c x || (domerge && mergeable mb c x) = true) by (rewrite (proj1 HDM), mergeable_form, HF; cbn [andb]; apply orb_true_r). rewrite EM in HE. change (rd [c] 0) with (Ok c) in HE. cbn [bind] in HE.
  destruct (refeq c x) eqn:ER.
  - binv HE. injection HE as <-. exists c. split; [reflexivity|]. split; [exact Uc|]. auto.
  - binv HE. inversion HD as [|? cv ? ? Dc _]; subst. inversion HT; subst. rewrite sumw_cons, sumw_nil in HW.
    assert (HM : outcome rc narrow mb [c; x] [cv; xv] (merge rc narrow fuel c x)).
    { unfold merge. apply mergemany_ok; [|sw; simpl length; lia]. split; [repeat constructor; assumption|]. split; [repeat constructor; assumption|]. split.
      - destruct OF; [right|left; repeat constructor; exact Ox]. specialize (HO eq_refl). inversion HO; subst. repeat constructor; assumption.
      - repeat constructor; exact HF. }
    change (wr [c] 0 a0) with (Ok [a0]) in E1. injection E1 as <-. injection HE as <-. exists a0. split; [reflexivity|].
    match goal with H : merge _ _ _ _ _ = Ok _ |- _ => rewrite H in HM end. destruct HM as (mv & Dm & _ & _ & _ & _ & Um & Mm). split; [apply Um; repeat constructor; assumption|]. intros g H1g H2g. apply Mm. repeat constructor; assumption.
Qed.
Lemma plain_first o x : forall tags index st', simplify_plain rc narrow refeq fuel domerge mb len tags_ index_ o x (tags, index, []) = Ok st' -> snd st' = [x].
Proof. intros tags index st' HE. unfold simplify_plain in HE. cbn [find_index] in HE. binv HE. injection HE as <-. reflexivity. Qed.
Lemma steps_single xs : domerge = true /\ True -> forall a P W ne tags index c st', (forall p x, nthZ xs p = Some x -> nthZ cs (a + p) = Some x) -> Forall (fun x => Forall leaf_ok (leaves x)) xs ->
  Forall ufree xs -> Forall (fmc mb c) xs -> ForallOrdPairs (fmc mb) xs -> ufree c ->
  inv P W ne (tags, index, [c]) -> (W + sumw xs + 1 <= fuel)%nat ->
  foldm (simplify_step rc narrow refeq fuel domerge mb len tags_ index_) (combine (zseq a (a + zlen xs)) xs) (tags, index, [c]) = Ok st' -> exists c', snd st' = [c'] /\ ufree c'.
Proof.
  intros HDM. induction xs as [|x xs IH]; intros a P W ne tags index c st' HX HL HU HF HPP Uc HI Hf HE.
  - rewrite combine_nil in HE. cbn [foldm] in HE. injection HE as <-. exists c. auto.
  - inversion HL as [|? ? HL1 HL2]; inversion HU as [|? ? HU1 HU2]; inversion HF; inversion HPP; subst. pose proof (zlen_nonneg xs). rewrite zlen_cons in *. rewrite zseq_cons in HE by lia. cbn [combine foldm] in HE. pose proof (HX 0 x ltac:(rewrite nthZ_cons; reflexivity)) as Hx. rewrite Z.add_0_r in Hx. destruct (F2_nthZ _ _ _ _ _ Hcs Hx) as (xv & _ & Dx). cbv beta in Dx. sw.
    assert (HLx : leaf_ok x) by (destruct x; try (inversion HL1; assumption); discriminate HU1).
    assert (ES : simplify_step rc narrow refeq fuel domerge mb len tags_ index_ (tags, index, [c]) (a, x) = simplify_plain rc narrow refeq fuel domerge mb len tags_ index_ a x (tags, index, [c])) by (destruct x; try reflexivity; discriminate HU1).
    pose proof (plain_ok a x xv Hx Dx HLx P W ne (tags, index, [c]) HI ltac:(lia)) as HS. rewrite ES in HE. destruct (simplify_plain rc narrow refeq fuel domerge mb len tags_ index_ a x (tags, index, [c])) as [[[t1 i1] c1]| |] eqn:E1; cbn [bind] in HE; try discriminate.
    destruct (plain_single a x xv c HDM Hx Dx HLx ltac:(assumption) Uc HU1 P W ne tags index _ HI ltac:(lia) E1) as (c' & Ec & Uc' & Mc'). simpl in Ec. subst c1.
    replace (a + (1 + zlen xs)) with ((a + 1) + zlen xs) in HE by lia. replace (a + (zlen xs + 1)) with ((a + 1) + zlen xs) in HE by lia.
    eapply (IH (a + 1) _ _ true t1 i1 c' st'); [|assumption|assumption| |assumption|exact Uc'|exact HS|lia|exact HE].
    + intros p y Hy. pose proof (nthZ_Some _ _ _ Hy). replace (a + 1 + p) with (a + (p + 1)) by lia. apply HX. rewrite nthZ_cons; destruct (Z.eqb_spec (p + 1) 0); [lia|]; replace (p + 1 - 1) with p by lia; exact Hy.
    + rewrite Forall_forall in *. intros y Hy. apply Mc'; [match goal with HA : forall y, In y xs -> fmc mb c y |- _ => apply HA; exact Hy end|]. match goal with HA : forall y, In y xs -> fmc mb x y |- _ => apply HA; exact Hy end.
Qed.
End PS.

Theorem simplify_ok' rc narrow mb domerge fuel OF refeq tags index cs vs : (forall a b, refeq a b = true -> a = b) -> den (Union tags index cs) = Some vs ->
  Forall (fun x => Forall (leaf_ok OF) (leaves x)) cs -> (sumw cs + 1 <= fuel)%nat ->
  match simplify_uniontype rc narrow refeq fuel domerge mb tags index cs with
  | Ok c' => exists vs', den c' = Some vs' /\ Forall2 (promotes rc) vs vs' /\ tidy c' /\ (OF = true -> ofree c') /\ (weight c' <= S (sumw cs))%nat
  | Err _ => (exists x, narrow x = true) \/ 127 < Z.of_nat (sumw cs)
  | UB => False
  end.
Proof.
  intros Hr Hd HL Hf. unfold simplify_uniontype. destruct (union_positions _ _ _ _ Hd) as (vss & Dcs & Hne & Ht & Hti & Hpos). destruct (Z.ltb_spec (zlen index) (zlen tags)); [lia|]. rewrite Ht.
  pose proof (zlen_nonneg vs).
  pose proof (steps_ok rc narrow mb domerge fuel vs OF refeq Hr tags index cs vss Dcs Hpos cs 0 (fun _ => False) 0 false (alloc (zlen vs), alloc (zlen vs), [])) as HS. rewrite !Z.add_0_l in HS.
  assert (HI : inv rc vs OF (fun _ => False) 0 false (alloc (zlen vs), alloc (zlen vs), [])).
  { split; [apply zlen_alloc; lia|]. split; [apply zlen_alloc; lia|]. split; [constructor|]. split; [intros; constructor|]. split; [rewrite sumw_nil; lia|]. split; [discriminate|]. exists []. split; [constructor|]. intros; contradiction. }
  specialize (HS (fun p x Hx => Hx) HL HI Hf). destruct (foldm _ _ _) as [[[tags' index'] contents]| |]; cbn [bind]; [|exact HS|exact HS].
  destruct HS as (L1 & L2 & HT & HO & HW & HN & vcs & HD & HP). destruct (Z.eqb_spec (zlen cs) 0); [lia|]. specialize (HN eq_refl). simpl in HW.
  assert (HP' : forall i v, nthZ vs i = Some v -> exists t p cv v', nthZ tags' i = Some t /\ nthZ index' i = Some p /\ nthZ vcs t = Some cv /\ nthZ cv p = Some v' /\ promotes rc v v').
  { intros i v Hv. apply HP; [exact Hv|right]. destruct (Hpos i v Hv) as (t & j & cv & A & B & C & D). exists t. pose proof (nthZ_Some _ _ _ C). pose proof (F2_zlen _ _ _ Dcs). split; [lia|]. unfold Qone. rewrite A, Z.eqb_refl. reflexivity. }
  unfold kMaxInt8. pose proof (zlen_sumw contents). destruct (Z.ltb_spec 127 (zlen contents)); [right; lia|].
  set (pick := fun ti : Z * Z => match nthZ vcs (fst ti) with Some vs => nthZ vs (snd ti) | None => None end).
  assert (HV : exists vs', omap pick (combine tags' index') = Some vs' /\ Forall2 (promotes rc) vs vs').
  { apply (omap_positions (promotes rc)); [rewrite zlen_combine_le by lia; lia|]. intros i [t p] v Htp Hv. rewrite nthZ_combine in Htp. destruct (HP' i v Hv) as (t' & p' & cv & v' & A & B & C & D & E). rewrite A, B in Htp. injection Htp as <- <-.
    exists v'. unfold pick. simpl. rewrite C. auto. }
  destruct HV as (vs' & Hv' & PV).
  assert (HU : match mkUnion tags' index' contents with Ok c' => exists vs', den c' = Some vs' /\ Forall2 (promotes rc) vs vs' /\ tidy c' /\ (OF = true -> ofree c') /\ (weight c' <= S (sumw cs))%nat | Err _ => (exists x, narrow x = true) \/ 127 < Z.of_nat (sumw cs) | UB => False end).
  { assert (H1c : 1 <= zlen contents) by (destruct contents; [congruence|rewrite zlen_cons; pose proof (zlen_nonneg contents); lia]).
    assert (EU : mkUnion tags' index' contents = Ok (Union tags' index' contents)) by (unfold mkUnion; destruct contents; [congruence|]; destruct (Z.ltb_spec (zlen index') (zlen tags')); [lia|reflexivity]).
    rewrite EU. exists vs'. split; [|split; [exact PV|split; [apply tidy_union; exact HT|split; [intros Ho; unfold ofree; cbn [form_of option_free]; apply forallb_forall; intros g Hg; apply in_map_iff in Hg as (x & <- & Hx); specialize (HO Ho); rewrite Forall_forall in HO; exact (HO x Hx)|unfold sumw in HW |- *; cbn [weight]; lia]]]]. cbn [den]. apply dens_omap in HD. rewrite HD. destruct (Z.leb_spec 1 (zlen contents)); [|lia]. destruct (Z.leb_spec (zlen tags') (zlen index')); [|lia]. exact Hv'. }
  destruct contents as [|c [|c1 contents]]; [exact HU| |exact HU]. clear HU.
  inversion HD as [|? cv ? vcs' Dc Dn]; subst. inversion Dn; subst.
  assert (HC : exists ws, omap (nthZ cv) index' = Some ws /\ Forall2 (promotes rc) vs ws).
  { apply (omap_positions (promotes rc)); [lia|]. intros i p v Hp Hv. destruct (HP' i v Hv) as (t' & p' & cv' & v' & A & B & C & D & E). rewrite B in Hp. injection Hp as <-. exists v'. split; [|exact E].
    pose proof (nthZ_Some _ _ _ C) as HR. change (zlen [cv]) with 1 in HR. assert (t' = 0) as -> by lia. rewrite nthZ_cons in C. simpl in C. injection C as ->. exact D. }
  destruct HC as (ws & Hw & PW). destruct (carry_den c cv index' ws true Dc Hw) as (c' & E & D). rewrite E. exists ws. split; [exact D|]. split; [exact PW|]. inversion HT; subst. split; [exact (carry_tidy c cv index' ws true c' Dc Hw ltac:(assumption) E)|]. pose proof (carry_weight_lazy c index' c' E). rewrite sumw_cons, sumw_nil in HW. split; [|lia].
  intros Ho. specialize (HO Ho). inversion HO; subst. unfold ofree. pose proof (proj1 (carry_same c index' true c' E)) as HF. rewrite HF. assumption.
Qed.

Theorem simplify_ok rc narrow mb domerge fuel OF refeq tags index cs vs : (forall a b, refeq a b = true -> a = b) -> den (Union tags index cs) = Some vs ->
  Forall (fun x => Forall (leaf_ok OF) (leaves x)) cs -> (sumw cs + 1 <= fuel)%nat ->
  match simplify_uniontype rc narrow refeq fuel domerge mb tags index cs with
  | Ok c' => exists vs', den c' = Some vs' /\ Forall2 (promotes rc) vs vs'
  | Err _ => (exists x, narrow x = true) \/ 127 < Z.of_nat (sumw cs)
  | UB => False
  end.
Proof.
  intros Hr Hd HL Hf. pose proof (simplify_ok' rc narrow mb domerge fuel OF refeq tags index cs vs Hr Hd HL Hf) as H. destruct (simplify_uniontype _ _ _ _ _ _ _ _ _); [|exact H|exact H]. destruct H as (vs' & A & B & _). eauto.
Qed.

Theorem simplify_single rc narrow mb fuel OF refeq tags index cs vs c' : (forall a b, refeq a b = true -> a = b) -> den (Union tags index cs) = Some vs ->
  Forall (leaf_ok OF) cs -> Forall ufree cs -> ForallOrdPairs (fmc mb) cs -> (sumw cs + 1 <= fuel)%nat ->
  simplify_uniontype rc narrow refeq fuel true mb tags index cs = Ok c' -> ufree c'.
Proof.
  intros Hr Hd HL HU HPP Hf HE. unfold simplify_uniontype in HE. destruct (union_positions _ _ _ _ Hd) as (vss & Dcs & Hne & Ht & Hti & Hpos). destruct (Z.ltb_spec (zlen index) (zlen tags)); [lia|]. rewrite Ht in HE.
  pose proof (zlen_nonneg vs). destruct cs as [|x xs]; [change (zlen (@nil content)) with 0 in Hne; lia|].
  inversion HL as [|? ? HL1 HL2]; inversion HU as [|? ? HU1 HU2]; inversion HPP as [|? ? HF1 HF2]; subst. pose proof (zlen_nonneg xs).
  assert (HI : inv rc vs OF (fun _ => False) 0 false (alloc (zlen vs), alloc (zlen vs), [])).
  { split; [apply zlen_alloc; lia|]. split; [apply zlen_alloc; lia|]. split; [constructor|]. split; [intros; constructor|]. split; [rewrite sumw_nil; lia|]. split; [discriminate|]. exists []. split; [constructor|]. intros; contradiction. }
  rewrite zlen_cons in HE. rewrite zseq_cons in HE by lia. cbn [combine foldm] in HE. inversion Dcs as [|? xv ? vss' Dx Dxs]; subst.
  assert (ES : simplify_step rc narrow refeq fuel true mb (zlen vs) tags index (alloc (zlen vs), alloc (zlen vs), []) (0, x) = simplify_plain rc narrow refeq fuel true mb (zlen vs) tags index 0 x (alloc (zlen vs), alloc (zlen vs), [])) by (destruct x; try reflexivity; discriminate HU1).
  rewrite ES in HE. sw.
  pose proof (plain_ok rc narrow mb true fuel vs OF refeq Hr tags index (x :: xs) (xv :: vss') Dcs Hpos 0 x xv ltac:(rewrite nthZ_cons; reflexivity) Dx HL1 _ 0 false _ HI ltac:(lia)) as HS.
  destruct (simplify_plain rc narrow refeq fuel true mb (zlen vs) tags index 0 x (alloc (zlen vs), alloc (zlen vs), [])) as [[[t1 i1] c1]| |] eqn:E1; cbn [bind] in HE; try discriminate.
  pose proof (plain_first rc narrow mb true fuel vs refeq tags index 0 x _ _ _ E1) as Ec. simpl in Ec. subst c1.
  destruct (foldm _ _ _) as [[[t2 i2] c2]| |] eqn:E2 in HE; cbn [bind] in HE; try discriminate.
  replace (1 + zlen xs) with ((0 + 1) + zlen xs) in E2 by lia. replace (zlen xs + 1) with ((0 + 1) + zlen xs) in E2 by lia.
  edestruct (steps_single rc narrow mb true fuel vs OF refeq Hr tags index (x :: xs) (xv :: vss') Dcs Hpos xs (conj eq_refl I) (0 + 1)) as (c3 & E3 & U3); [| |exact HU2|exact HF1|exact HF2|exact HU1|exact HS| |exact E2|].
  - intros p y Hy. pose proof (nthZ_Some _ _ _ Hy). rewrite nthZ_cons. destruct (Z.eqb_spec (0 + 1 + p) 0); [lia|]. replace (0 + 1 + p - 1) with p by lia. exact Hy.
  - rewrite Forall_forall in *. intros y Hy. specialize (HL2 y Hy). specialize (HU2 y Hy). destruct y; try discriminate HU2; (constructor; [exact HL2|constructor]).
  - lia.
  - simpl in E3. subst c2. destruct (kMaxInt8 <? zlen [c3]); [discriminate|]. destruct (carry_same _ _ _ _ HE) as [HF _]. unfold ufree. rewrite HF. exact U3.
Qed.
