(** Proofs about is_unique and unique of numbers. *)
From Coq Require Import Permutation.
From Verif Require Import Base BaseLemmas OmapLemmas LoopLemmas Content KCore Core KConvert Convert KOption Option KAxis Axis KMerge Merge KReduce Reduce KSort Sort Unique
  SpecArray SpecForm SpecSort SpecUnique PCore PCarry PList PConvert PForm PReduceK PReduceTop PQuick PSortK PSort.
Local Open Scope list_scope.
Local Open Scope Z_scope.
Local Notation get := KSort.get.

(** ** equal neighbours are dropped *)
Section Kernel.
Variable o : order.
Fixpoint dedup (p : Z) (l : list Z) : list Z :=
  match l with [] => [] | x :: l => if oeq o p x then dedup p l else x :: dedup x l end.
Lemma wr_app (a : list Z) x b y : wr (a ++ x :: b) (zlen a) y = Ok (a ++ y :: b).
Proof.
  unfold wr. pose proof (zlen_nonneg a). pose proof (zlen_nonneg b). rewrite zlen_app, zlen_cons. destruct (Z.leb_spec 0 (zlen a)); [|lia]. destruct (Z.ltb_spec (zlen a) (zlen a + (zlen b + 1))); [|lia]. cbn [andb].
  f_equal. clear. unfold zlen. rewrite Nat2Z.id. induction a as [|z a IH]; [reflexivity|]. cbn. now rewrite IH.
Qed.
Lemma rd_app (a : list Z) x b : rd (a ++ x :: b) (zlen a) = Ok x.
Proof. apply rd_Ok. rewrite nthZ_app. rewrite Z.ltb_irrefl, Z.sub_diag. reflexivity. Qed.
Lemma unique_loop l : forall kept p junk, exists junk',
  for_ (zlen kept + 1 + zlen junk) (zlen kept + 1 + zlen junk + zlen l) (fun i st =>
    let '(j, toptr) := st in
    let* a := rd toptr j in
    let* b := rd toptr i in
    if negb (oeq o a b) then let* toptr := wr toptr (j + 1) b in Ok (j + 1, toptr) else Ok (j, toptr)) (zlen kept, kept ++ p :: junk ++ l)
  = Ok (zlen kept + zlen (dedup p l), kept ++ p :: dedup p l ++ junk').
Proof.
  induction l as [|x l IH]; intros kept p junk.
  - rewrite for_nil by (change (zlen (@nil Z)) with 0; lia). exists junk. cbn [dedup]. rewrite app_nil_r. change (zlen (@nil Z)) with 0. rewrite Z.add_0_r. reflexivity.
  - rewrite for_step by (rewrite zlen_cons; pose proof (zlen_nonneg l); lia). cbn beta iota. rewrite rd_app. cbn [bind].
    assert (ER : rd (kept ++ p :: junk ++ x :: l) (zlen kept + 1 + zlen junk) = Ok x).
    { replace (kept ++ p :: junk ++ x :: l) with ((kept ++ p :: junk) ++ x :: l) by (rewrite <- app_assoc; reflexivity).
      replace (zlen kept + 1 + zlen junk) with (zlen (kept ++ p :: junk)) by (rewrite zlen_app, zlen_cons; lia). apply rd_app. }
    rewrite ER. cbn [bind dedup]. destruct (oeq o p x) eqn:Epx; cbn [negb].
    + cbn [bind]. specialize (IH kept p (junk ++ [x])). destruct IH as (junk' & IH). exists junk'.
      rewrite zlen_app in IH. change (zlen [x]) with 1 in IH. rewrite zlen_cons. rewrite <- app_assoc in IH. cbn [app] in IH.
      replace (zlen kept + 1 + zlen junk + 1) with (zlen kept + 1 + (zlen junk + 1)) by lia. replace (zlen kept + 1 + zlen junk + (zlen l + 1)) with (zlen kept + 1 + (zlen junk + 1) + zlen l) by lia. exact IH.
    + assert (EW : exists junk2, zlen junk2 = zlen junk /\ wr (kept ++ p :: junk ++ x :: l) (zlen kept + 1) x = Ok ((kept ++ [p]) ++ x :: junk2 ++ l)).
      { replace (zlen kept + 1) with (zlen (kept ++ [p])) by (rewrite zlen_app; reflexivity). destruct junk as [|q junk].
        - exists []. split; [reflexivity|]. cbn [app]. replace (kept ++ p :: x :: l) with ((kept ++ [p]) ++ x :: l) by (rewrite <- app_assoc; reflexivity). apply wr_app.
        - exists (junk ++ [x]). split; [rewrite zlen_app, !zlen_cons; reflexivity|]. cbn [app].
          replace (kept ++ p :: q :: junk ++ x :: l) with ((kept ++ [p]) ++ q :: junk ++ x :: l) by (rewrite <- app_assoc; reflexivity). rewrite wr_app. rewrite <- (app_assoc junk). reflexivity. }
      destruct EW as (junk2 & HL & ->). cbn [bind]. destruct (IH (kept ++ [p]) x junk2) as (junk' & IH'). exists junk'.
      rewrite zlen_app, HL in IH'. change (zlen [p]) with 1 in IH'. rewrite !zlen_cons.
      replace (zlen kept + 1 + zlen junk + 1) with (zlen kept + 1 + 1 + zlen junk) by lia. replace (zlen kept + 1 + zlen junk + (zlen l + 1)) with (zlen kept + 1 + 1 + zlen junk + zlen l) by lia.
      rewrite IH'. replace (zlen kept + 1 + zlen (dedup x l)) with (zlen kept + (zlen (dedup x l) + 1)) by lia. rewrite <- app_assoc. reflexivity.
Qed.
Lemma unique_spec p l : exists junk, awkward_unique o (p :: l) (zlen (p :: l)) = Ok (p :: dedup p l ++ junk, zlen (p :: dedup p l)).
Proof.
  unfold awkward_unique. destruct (unique_loop l [] p []) as (junk & E). exists junk. change (zlen (@nil Z)) with 0 in E. cbn [app] in E.
  rewrite zlen_cons. replace (0 + 1 + 0 + zlen l) with (zlen l + 1) in E by lia. change (0 + 1 + 0) with 1 in E. rewrite E. cbn [bind]. rewrite zlen_cons. do 2 f_equal. 
Qed.
Lemma dedup_In p l x : In x (dedup p l) -> In x l.
Proof. revert p; induction l as [|y l IH]; intros p; cbn [dedup]; [tauto|]. destruct (oeq o p y); cbn; [right; eauto|]. intros [->|H]; [now left|right; eauto]. Qed.
Lemma dedup_short p l : zlen (dedup p l) <= zlen l.
Proof. revert p; induction l as [|y l IH]; intros p; cbn [dedup]; [lia|]. destruct (oeq o p y); rewrite ?zlen_cons; [specialize (IH p)|specialize (IH y)]; lia. Qed.
Lemma dedup_full p l : zlen (dedup p l) = zlen l -> dedup p l = l.
Proof.
  revert p; induction l as [|y l IH]; intros p; cbn [dedup]; [reflexivity|]. destruct (oeq o p y); rewrite ?zlen_cons.
  - pose proof (dedup_short p l). lia.
  - intros H. f_equal. apply IH. lia.
Qed.

(** ** numbers in order *)
Definition proper (s : list Z) : Prop := total_order o (fun x => In x s) /\ (forall x y, In x s -> In y s -> oeq o x y = ole o x y && ole o y x).
Fixpoint chain (p : Z) (l : list Z) : Prop := match l with [] => True | x :: l => ole o p x = true /\ chain x l end.
Definition lt (x y : Z) : Prop := ole o x y = true /\ oeq o x y = false.
Lemma sorted_cons x l : sorted (ole o) (x :: l) -> sorted (ole o) l /\ forall y, In y l -> ole o x y = true.
Proof.
  intros HS. split.
  - intros i j a b Hij Ha Hb. apply (HS (i + 1) (j + 1)); [lia| |]; rewrite nthZ_cons; pose proof (nthZ_Some _ _ _ Ha); pose proof (nthZ_Some _ _ _ Hb).
    + destruct (Z.eqb_spec (i + 1) 0); [lia|]. now replace (i + 1 - 1) with i by lia.
    + destruct (Z.eqb_spec (j + 1) 0); [lia|]. now replace (j + 1 - 1) with j by lia.
  - intros y Hy. destruct (In_nthZ _ _ Hy) as [i Hi]. pose proof (nthZ_Some _ _ _ Hi). apply (HS 0 (i + 1)); [lia|reflexivity|]. rewrite nthZ_cons. destruct (Z.eqb_spec (i + 1) 0); [lia|]. now replace (i + 1 - 1) with i by lia.
Qed.
Fixpoint increasing_by (l : list Z) : Prop := match l with [] => True | x :: l => (forall y, In y l -> lt x y) /\ increasing_by l end.
(** in a list in order the kept numbers increase, and every number is kept once *)
Lemma dedup_spec s l : proper s -> forall p, (forall x, In x (p :: l) -> In x s) -> sorted (ole o) (p :: l) ->
  increasing_by (p :: dedup p l) /\ (forall x, In x (p :: l) -> exists y, In y (p :: dedup p l) /\ oeq o x y = true).
Proof.
  intros [HT HE]. induction l as [|x l IH]; intros p Hin HS.
  - split; [cbn; split; [intros y []|exact I]|]. intros x [<-|[]]. exists p. split; [now left|]. rewrite HE by (apply Hin; now left). assert (R : ole o p p = true) by (destruct HT as (HT & _); destruct (HT p p); auto; apply Hin; now left). now rewrite R.
  - destruct (sorted_cons _ _ HS) as [HS1 Hp]. cbn [dedup]. destruct HT as (H1 & H2 & H3 & H4). destruct (oeq o p x) eqn:Epx.
    + assert (HS' : sorted (ole o) (p :: l)).
      { intros i j a b Hij Ha Hb. rewrite nthZ_cons in Ha, Hb. pose proof (zlen_nonneg l). destruct (Z.eqb_spec j 0) as [->|Hj].
        - destruct (Z.eqb_spec i 0); [lia|]. pose proof (nthZ_Some _ _ _ Ha). lia.
        - destruct (Z.eqb_spec i 0) as [->|Hi].
          + injection Ha as <-. apply Hp. right. eapply nthZ_In; eassumption.
          + destruct (sorted_cons _ _ HS1) as [HS2 _]. apply (HS2 (i - 1) (j - 1)); [lia|assumption|assumption]. }
      destruct (IH p) as [A B]; [intros y Hy; apply Hin; cbn in *; tauto|exact HS'|]. split; [exact A|]. intros y Hy. destruct Hy as [<-|[<-|Hy]]; [apply B; now left| |apply B; now right].
      exists p. split; [now left|]. rewrite HE in * by (apply Hin; cbn; tauto). rewrite andb_comm. exact Epx.
    + destruct (IH x) as [A B]; [intros y Hy; apply Hin; now right|exact HS1|].
      assert (Lt : forall y, In y (x :: dedup x l) -> lt p y).
      { intros y Hy. assert (Hy' : In y (x :: l)) by (destruct Hy as [<-|Hy]; [now left|right; eapply dedup_In; eassumption]).
        split; [apply Hp; exact Hy'|]. destruct (oeq o p y) eqn:Epy; [|reflexivity]. exfalso.
        rewrite HE in Epx, Epy by (apply Hin; cbn in *; tauto). rewrite (Hp x (or_introl eq_refl)) in Epx. cbn in Epx. apply andb_prop in Epy. destruct Epy as [_ Epy].
        assert (Exy : ole o x y = true). { destruct Hy' as [<-|Hy']; [destruct (H1 x x) as [R|R]; try (apply Hin; cbn; tauto); exact R|]. apply (proj2 (sorted_cons _ _ HS1)). exact Hy'. }
        rewrite (H2 x y p) in Epx; try discriminate; try (apply Hin; cbn in *; tauto); assumption. }
      split; [cbn [increasing_by]; split; [exact Lt|exact A]|].
      intros y [<-|Hy].
      * exists p. split; [now left|]. rewrite HE by (apply Hin; now left). assert (R : ole o p p = true) by (destruct (H1 p p); auto; apply Hin; now left). now rewrite R.
      * destruct (B y Hy) as (z & Hz & Ez). exists z. split; [now right|exact Ez].
Qed.

(** ** the whole of an array *)
Definition distinctZ (s d : list Z) : Prop := increasing_by d /\ (forall x, In x d -> In x s) /\ (forall x, In x s -> exists y, In y d /\ oeq o x y = true).
Definition differentZ (s : list Z) : Prop := forall i j x y, i < j -> nthZ s i = Some x -> nthZ s j = Some y -> oeq o x y = false.
Lemma increasing_by_different l : increasing_by l -> differentZ l.
Proof.
  induction l as [|x l IH]; intros H i j a b Hij Ha Hb; [rewrite nthZ_nil in Ha; discriminate|]. destruct H as [H1 H2]. rewrite nthZ_cons in Ha, Hb. destruct (Z.eqb_spec j 0) as [->|].
  - destruct (Z.eqb_spec i 0); [lia|]. pose proof (nthZ_Some _ _ _ Ha). lia.
  - destruct (Z.eqb_spec i 0) as [->|]; [|eapply IH; [exact H2| |exact Ha|exact Hb]; lia]. injection Ha as <-. apply H1. eapply nthZ_In; eassumption.
Qed.
Lemma differentZ_cons x l : differentZ (x :: l) <-> (forall y, In y l -> oeq o x y = false) /\ differentZ l.
Proof.
  split.
  - intros H. split.
    + intros y Hy. destruct (In_nthZ _ _ Hy) as [i Hi]. pose proof (nthZ_Some _ _ _ Hi). apply (H 0 (i + 1)); [lia|reflexivity|]. rewrite nthZ_cons. destruct (Z.eqb_spec (i + 1) 0); [lia|]. now replace (i + 1 - 1) with i by lia.
    + intros i j a b Hij Ha Hb. apply (H (i + 1) (j + 1)); [lia| |]; rewrite nthZ_cons; pose proof (nthZ_Some _ _ _ Ha); pose proof (nthZ_Some _ _ _ Hb).
      * destruct (Z.eqb_spec (i + 1) 0); [lia|]. now replace (i + 1 - 1) with i by lia.
      * destruct (Z.eqb_spec (j + 1) 0); [lia|]. now replace (j + 1 - 1) with j by lia.
  - intros [H1 H2] i j a b Hij Ha Hb. rewrite nthZ_cons in Ha, Hb. destruct (Z.eqb_spec j 0) as [->|].
    + destruct (Z.eqb_spec i 0); [lia|]. pose proof (nthZ_Some _ _ _ Ha). lia.
    + destruct (Z.eqb_spec i 0) as [->|]; [|eapply H2; [|exact Ha|exact Hb]; lia]. injection Ha as <-. apply H1. eapply nthZ_In; eassumption.
Qed.
Lemma differentZ_perm_sym (base : list Z) s s' : (forall x y, In x base -> In y base -> oeq o x y = oeq o y x) -> Permutation s s' -> (forall x, In x s -> In x base) -> differentZ s -> differentZ s'.
Proof.
  intros HE Hp. induction Hp as [|x l l' Hp IH|x y l|l l' l'' H1 IH1 H2 IH2]; intros HI HD.
  - exact HD.
  - rewrite differentZ_cons in *. destruct HD as [D1 D2]. split; [|apply IH; auto; intros z Hz; apply HI; now right]. intros z Hz. apply D1. eapply Permutation_in; [apply Permutation_sym|]; eassumption.
  - rewrite !differentZ_cons in *. destruct HD as [D1 [D2 D3]]. repeat split; auto.
    + intros z [<-|Hz]; [|apply D2; exact Hz]. rewrite HE by (apply HI; cbn; tauto). apply D1. now left.
    + intros z Hz. apply D1. now right.
  - apply IH2; [intros z Hz; apply HI; eapply Permutation_in; [apply Permutation_sym; exact H1|exact Hz]|]. apply IH1; auto.
Qed.
Lemma differentZ_perm s s' : proper s -> Permutation s s' -> differentZ s -> differentZ s'.
Proof. intros [_ HE] Hp. apply (differentZ_perm_sym s); auto. intros x y Hx Hy. rewrite !HE by assumption. apply andb_comm. Qed.
Lemma proper_ext s s' : (forall x, In x s' -> In x s) -> proper s -> proper s'.
Proof. intros H [HT E]. split; [eapply total_order_mono; [|exact HT]; exact H|eauto]. Qed.

Lemma unique_data_spec data : proper data ->
  exists out, unique_data o data 0 (zlen data) = Ok out /\ distinctZ data out /\ (zlen out = zlen data <-> differentZ data).
Proof.
  intros HP. pose proof (zlen_nonneg data) as Hn. unfold unique_data. rewrite zeros_run by exact Hn. cbn [bind]. rewrite Z.add_0_l.
  assert (EV : view 0 (zlen data) data = Ok data).
  { unfold view. destruct (Z.eqb_spec 0 (zlen data)) as [Hz|Hz]; [symmetry in Hz; apply zlen_0 in Hz; subst; reflexivity|]. destruct (Z.leb_spec 0 0); [|lia]. destruct (Z.leb_spec 0 (zlen data)); [|lia]. destruct (Z.leb_spec (zlen data) (zlen data)); [|lia]. cbn [andb]. rewrite slice_full. reflexivity. }
  rewrite EV. cbn [bind].
  unfold array_unique. destruct (Z.eqb_spec (zlen data) 0) as [Hz|Hz].
  { apply zlen_0 in Hz. subst data. cbn [bind]. exists []. split; [reflexivity|]. split; [repeat split; cbn; tauto|]. split; [|reflexivity]. intros _ i j x y _ Hx. rewrite nthZ_nil in Hx. discriminate. }
  destruct (array_sort_groups o true true [data]) as (segs' & E & HF); [now left|]. cbn [concat map] in E. rewrite app_nil_r in E. inversion HF as [|? s' ? ? HS HF']; subst. inversion HF'; subst. cbn [concat] in E. rewrite app_nil_r in E.
  destruct (groups_prep true [data]) as (E1 & E2 & _ & _); [cbn [concat]; rewrite app_nil_r; lia|]. cbn [map] in E1, E2. unfold array_sort in E. destruct (Z.eqb_spec (zlen data) 0); [lia|].
  rewrite E1 in *. cbn [bind] in *. rewrite E2 in *. cbn [bind] in *. rewrite zlen_offsets_of, zlen_map in E. rewrite E. cbn [bind].
  destruct HS as [Hp Hso]. assert (HPs : proper s') by (eapply proper_ext; [|exact HP]; intros x Hx; eapply Permutation_in; [apply Permutation_sym|]; eassumption).
  specialize (Hso (proj1 HP)). assert (HL : zlen s' = zlen data) by (unfold zlen; rewrite (Permutation_length Hp); reflexivity). rewrite <- HL.
  destruct s' as [|p l]; [change (zlen (@nil Z)) with 0 in HL; lia|]. destruct (unique_spec p l) as (junk & ->). cbn [bind].
  exists (p :: dedup p l). split; [f_equal; change (p :: dedup p l ++ junk) with ((p :: dedup p l) ++ junk); apply slice_app|].
  change (predicate_of o true) with (ole o) in Hso. destruct (dedup_spec (p :: l) l HPs p (fun x Hx => Hx) Hso) as [A B].
  split.
  - split; [exact A|]. split.
    + intros x Hx. eapply Permutation_in; [apply Permutation_sym; exact Hp|]. destruct Hx as [<-|Hx]; [now left|right; eapply dedup_In; eassumption].
    + intros x Hx. apply B. eapply Permutation_in; eassumption.
  - rewrite !zlen_cons. split.
    + intros H'. assert (ED : dedup p l = l) by (apply dedup_full; lia). rewrite ED in A. eapply differentZ_perm; [exact HPs|apply Permutation_sym; exact Hp|]. apply increasing_by_different. exact A.
    + intros HD. apply (differentZ_perm _ _ HP Hp) in HD. f_equal. clear - HD. revert p HD. induction l as [|x l IH]; intros p HD; [reflexivity|]. cbn [dedup]. rewrite differentZ_cons in HD. destruct HD as [H1 H2]. rewrite (H1 x) by now left. rewrite !zlen_cons. f_equal. apply IH. exact H2.
Qed.
End Kernel.
