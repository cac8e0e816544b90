(** Proofs about the sorting kernels: sorting the runs of a list. *)
From Coq Require Import Permutation.
From Verif Require Import Base BaseLemmas LoopLemmas KCore Core KCombinations KMerge Merge KSort Sort SpecArray SpecSlice SpecForm SpecSort
  PCore PList PConvert PPadK PLocalIndex PMergeK PReduceK PReduceL PQuick.

Lemma nthZ_app_right {A} (a b : list A) i : zlen a <= i -> nthZ (a ++ b) i = nthZ b (i - zlen a).
Proof. intros. rewrite nthZ_app. destruct (Z.ltb_spec i (zlen a)); [lia|reflexivity]. Qed.

(** ** where the runs start *)
Fixpoint bounds (k p : Z) (l : list Z) : list Z :=
  match l with [] => [] | x :: l => if p =? x then bounds (k + 1) x l else k :: bounds (k + 1) x l end.
Lemma bounds_repeat p n l : forall k, bounds k p (repeat p n ++ l) = bounds (k + Z.of_nat n) p l.
Proof. induction n as [|n IH]; intros k; simpl repeat; cbn [app bounds]; [f_equal; lia|]. rewrite Z.eqb_refl, IH. f_equal. lia. Qed.
Lemma bounds_runs counts : nonneg_counts counts -> forall k p j, p < j -> bounds k p (runs j counts) ++ [k + sumZ counts] = match filter (fun n => 0 <? n) counts with [] => [k] | cs => offsets_from k cs end.
Proof.
  induction 1 as [|n counts Hn Hc IH]; intros k p j Hj; cbn [runs filter].
  - simpl. unfold sumZ. simpl. f_equal. lia.
  - replace (sumZ (n :: counts)) with (n + sumZ counts) by reflexivity. destruct (Z.ltb_spec 0 n).
    + replace (Z.to_nat n) with (S (Z.to_nat (n - 1))) by lia. simpl repeat. cbn [app bounds]. destruct (Z.eqb_spec p j); [lia|]. rewrite bounds_repeat.
      replace (k + 1 + Z.of_nat (Z.to_nat (n - 1))) with (k + n) by lia. cbn [app offsets_from]. f_equal. rewrite Z.add_assoc.
      rewrite (IH (k + n) j (j + 1)) by lia. destruct (filter _ counts); reflexivity.
    + replace n with 0 by lia. simpl. change (Z.to_nat 0) with O. simpl. apply IH. lia.
Qed.
Lemma ranges_length l : forall pre p acc, for_ (zlen pre + 1) (zlen pre + 1 + zlen l) (fun i length =>
    let* a := rd (pre ++ p :: l) (i - 1) in let* b := rd (pre ++ p :: l) i in Ok (if negb (a =? b) then length + 1 else length)) acc
  = Ok (acc + zlen (bounds (zlen pre + 1) p l)).
Proof.
  induction l as [|x l IH]; intros pre p acc; [rewrite for_nil by (change (zlen (@nil Z)) with 0; lia); f_equal; change (zlen (bounds (zlen pre + 1) p [])) with 0; lia|].
  rewrite zlen_cons. pose proof (zlen_nonneg l). rewrite for_step by lia.
  replace (zlen pre + 1 - 1) with (zlen pre) by lia.
  assert (R1 : rd (pre ++ p :: x :: l) (zlen pre) = Ok p) by (unfold rd; rewrite nthZ_app_right by lia; rewrite Z.sub_diag; reflexivity).
  assert (R2 : rd (pre ++ p :: x :: l) (zlen pre + 1) = Ok x) by (unfold rd; rewrite nthZ_app_right by lia; replace (zlen pre + 1 - zlen pre) with 1 by lia; reflexivity).
  rewrite R1, R2. cbn [bind]. specialize (IH (pre ++ [p]) x). rewrite <- app_assoc in IH. cbn [app] in IH. rewrite zlen_app in IH. change (zlen [p]) with 1 in IH.
  replace (zlen pre + 1 + (zlen l + 1)) with (zlen pre + 1 + 1 + zlen l) by lia. rewrite IH. f_equal. cbn [bounds]. destruct (p =? x); cbn [negb]; rewrite ?zlen_cons; lia.
Qed.
Lemma ranges_fill l : forall pre p d r, zlen r = zlen (bounds (zlen pre + 1) p l) + 1 ->
  exists y, for_ (zlen pre + 1) (zlen pre + 1 + zlen l) (fun i st =>
    let '(j, k, toindex) := st in
    let* a := rd (pre ++ p :: l) (i - 1) in let* b := rd (pre ++ p :: l) i in
    if negb (a =? b) then let* toindex := wr toindex j k in Ok (j + 1, k + 1, toindex) else Ok (j, k + 1, toindex)) (zlen d, zlen pre + 1, d ++ r)
  = Ok (zlen (d ++ bounds (zlen pre + 1) p l), zlen pre + 1 + zlen l, (d ++ bounds (zlen pre + 1) p l) ++ [y]).
Proof.
  induction l as [|x l IH]; intros pre p d r Hr.
  - cbn [bounds] in *. change (zlen (@nil Z)) with 0 in *. rewrite for_nil by lia. destruct r as [|y [|z r]]; rewrite ?zlen_cons in Hr; [change (zlen (@nil Z)) with 0 in Hr; lia| |pose proof (zlen_nonneg r); lia].
    exists y. rewrite app_nil_r, Z.add_0_r. reflexivity.
  - rewrite zlen_cons. pose proof (zlen_nonneg l). rewrite for_step by lia.
    replace (zlen pre + 1 - 1) with (zlen pre) by lia.
    assert (R1 : rd (pre ++ p :: x :: l) (zlen pre) = Ok p) by (unfold rd; rewrite nthZ_app_right by lia; rewrite Z.sub_diag; reflexivity).
    assert (R2 : rd (pre ++ p :: x :: l) (zlen pre + 1) = Ok x) by (unfold rd; rewrite nthZ_app_right by lia; replace (zlen pre + 1 - zlen pre) with 1 by lia; reflexivity).
    rewrite R1, R2. cbn [bind]. specialize (IH (pre ++ [p]) x). rewrite <- app_assoc in IH. cbn [app] in IH. rewrite zlen_app in IH. change (zlen [p]) with 1 in IH.
    replace (zlen pre + 1 + (zlen l + 1)) with (zlen pre + 1 + 1 + zlen l) by lia. cbn [bounds] in *. destruct (p =? x); cbn [negb].
    + apply IH. exact Hr.
    + rewrite zlen_cons in Hr. destruct r as [|y r]; [change (zlen (@nil Z)) with 0 in Hr; pose proof (zlen_nonneg (bounds (zlen pre + 1 + 1) x l)); lia|]. rewrite zlen_cons in Hr.
      rewrite wr_push. cbn [bind]. replace (zlen d + 1) with (zlen (d ++ [zlen pre + 1])) by (rewrite zlen_app; reflexivity).
      destruct (IH (d ++ [zlen pre + 1]) r) as (y' & E); [lia|]. exists y'. rewrite E. rewrite <- !app_assoc. reflexivity.
Qed.
Lemma sorting_ranges_spec counts : nonneg_counts counts -> 0 < sumZ counts ->
  let cs := filter (fun n => 0 <? n) counts in
  awkward_sorting_ranges_length (runs 0 counts) (zlen (runs 0 counts)) = Ok (zlen cs + 1) /\
  awkward_sorting_ranges (alloc (zlen cs + 1)) (zlen cs + 1) (runs 0 counts) (zlen (runs 0 counts)) = Ok (offsets_of cs).
Proof.
  intros Hn Hs cs.
  assert (HB : exists p l, runs 0 counts = p :: l /\ 0 :: bounds 1 p l ++ [zlen (runs 0 counts)] = offsets_of cs).
  { pose proof (bounds_runs counts Hn 0 (-1) 0 ltac:(lia)) as HB. rewrite <- (zlen_runs counts Hn 0) in Hs, HB. fold cs in HB. destruct (runs 0 counts) as [|p l] eqn:E; [change (zlen (@nil Z)) with 0 in Hs; lia|].
    exists p, l. split; [reflexivity|]. assert (Hp : 0 <= p) by (pose proof (runs_range counts Hn 0) as F; rewrite E in F; inversion F; subst; lia). cbn [bounds] in HB. destruct (Z.eqb_spec (-1) p); [lia|].
    cbn [app] in HB. change (0 + zlen (p :: l)) with (zlen (p :: l)) in HB. change (0 + 1) with 1 in HB. rewrite HB. destruct cs; reflexivity. }
  destruct HB as (p & l & E & HB). rewrite E in *.
  assert (HL : zlen (bounds 1 p l) + 2 = zlen cs + 1). { apply (f_equal zlen) in HB. rewrite zlen_cons, zlen_app, zlen_offsets_of in HB. change (zlen [zlen (p :: l)]) with 1 in HB. lia. }
  rewrite zlen_cons in *. split.
  - unfold awkward_sorting_ranges_length. rewrite (Z.add_comm (zlen l)). pose proof (ranges_length l [] p 2) as R. cbn [app] in R. change (zlen (@nil Z)) with 0 in R. change (0 + 1) with 1 in R. rewrite R. f_equal. lia.
  - unfold awkward_sorting_ranges. pose proof (zlen_nonneg (bounds 1 p l)).
    assert (HA : exists r, alloc (zlen cs + 1) = poison :: r /\ zlen r = zlen (bounds 1 p l) + 1).
    { unfold alloc. replace (Z.to_nat (zlen cs + 1)) with (S (Z.to_nat (zlen cs))) by lia. simpl repeat. eexists. split; [reflexivity|]. rewrite zlen_repeat. lia. }
    destruct HA as (r & -> & Hr). rewrite (wr_push [] poison r 0 : wr (poison :: r) 0 0 = Ok (0 :: r)). cbn [bind].
    destruct (ranges_fill l [] p [0] r Hr) as (y & R). cbn [app] in R. change (zlen (@nil Z)) with 0 in R. change (zlen [0]) with 1 in R. change (0 + 1) with 1 in R. rewrite (Z.add_comm (zlen l)). rewrite R. cbn [bind].
    replace (zlen cs + 1 - 1) with (zlen (0 :: bounds 1 p l)) by (rewrite zlen_cons; lia). change (0 :: bounds 1 p l ++ [y]) with ((0 :: bounds 1 p l) ++ [y]). rewrite wr_push. f_equal.
    rewrite app_nil_r. rewrite <- HB. cbn [app]. rewrite (Z.add_comm 1). reflexivity.
Qed.

(** ** loops over ranges *)
Lemma slice_0_cons {A} (x : A) l j : 0 <= j -> slice 0 (j + 1) (x :: l) = x :: slice 0 j l.
Proof. intros Hj. unfold slice. replace (Z.to_nat (j + 1 - 0)) with (S (Z.to_nat (j - 0))) by lia. reflexivity. Qed.
Fixpoint inits (ini : Z -> list Z -> list Z) (b : Z) (segs : list (list Z)) : list Z :=
  match segs with [] => [] | s :: segs => ini b s ++ inits ini (b + zlen s) segs end.
Lemma ranges_loop {S T} (mk : list Z -> S -> T) (ini : Z -> list Z -> list Z) (R : list Z -> list Z -> Prop) (Q : list Z -> Prop) (I : S -> Prop) (D o : list Z) (body : Z -> T -> res T) :
  (forall i dpre dpost pre s post e, D = dpre ++ s ++ dpost -> zlen dpre = zlen pre -> zlen D = zlen pre + zlen s + zlen post ->
     nthZ o i = Some (zlen pre) -> nthZ o (i + 1) = Some (zlen pre + zlen s) -> Q s -> I e ->
     exists s' e', body i (mk (pre ++ ini (zlen pre) s ++ post) e) = Ok (mk (pre ++ s' ++ post) e') /\ R s s' /\ zlen s' = zlen s /\ I e') ->
  (forall b s, zlen (ini b s) = zlen s) ->
  forall segs i0 dpre pre e, D = dpre ++ concat segs -> zlen dpre = zlen pre -> Forall Q segs -> I e -> (forall j, 0 <= j <= zlen segs -> nthZ o (i0 + j) = Some (zlen pre + before (map zlen segs) j)) ->
  exists segs' e', for_ i0 (i0 + zlen segs) body (mk (pre ++ inits ini (zlen pre) segs) e) = Ok (mk (pre ++ concat segs') e') /\ Forall2 R segs segs' /\ map zlen segs' = map zlen segs /\ I e'.
Proof.
  intros HB Hini. induction segs as [|s segs IH]; intros i0 dpre pre e HD Hpre HQ HI Ho.
  - exists [], e. rewrite for_nil by (change (zlen (@nil (list Z))) with 0; lia). repeat split; [constructor|exact HI].
  - inversion HQ as [|? ? HQ1 HQ2]; subst x l. rewrite zlen_cons in *. pose proof (zlen_nonneg segs). rewrite for_step by lia. cbn [concat inits] in *.
    assert (HZ : forall segs b, zlen (inits ini b segs) = zlen (concat segs)) by (clear - Hini; induction segs as [|s segs IH]; intros b; [reflexivity|]; cbn [inits concat]; rewrite !zlen_app, IH, Hini; reflexivity).
    destruct (HB i0 dpre (concat segs) pre s (inits ini (zlen pre + zlen s) segs) e) as (s' & e' & E & HR & HL & HI'); try assumption.
    + rewrite HD, !zlen_app, HZ. lia.
    + rewrite <- (Z.add_0_r i0). rewrite Ho by lia. rewrite before_0. f_equal. lia.
    + rewrite Ho by lia. rewrite (before_step _ 0 (zlen s)) by reflexivity. rewrite before_0. f_equal.
    + rewrite E. cbn [bind]. destruct (IH (i0 + 1) (dpre ++ s) (pre ++ s') e') as (segs' & e'' & E2 & H2 & L2 & HI2).
      * rewrite <- app_assoc. exact HD.
      * rewrite !zlen_app. lia.
      * exact HQ2.
      * exact HI'.
      * intros j Hj. replace (i0 + 1 + j) with (i0 + (j + 1)) by lia. rewrite Ho by lia. rewrite zlen_app, HL. f_equal. rewrite <- Z.add_assoc. f_equal.
        unfold before. cbn [map]. rewrite (slice_0_cons (zlen s)) by lia. reflexivity.
      * exists (s' :: segs'), e''. rewrite <- app_assoc, zlen_app, HL in E2. replace (i0 + (zlen segs + 1)) with (i0 + 1 + zlen segs) by lia. rewrite E2. cbn [concat]. rewrite <- app_assoc.
        split; [reflexivity|]. split; [constructor; assumption|]. split; [cbn [map]; congruence|exact HI2].
Qed.
(** empty groups do not matter *)
Lemma nonempty_groups (R : list Z -> list Z -> Prop) segs : R [] [] -> forall ne', Forall2 R (filter (fun s => 0 <? zlen s) segs) ne' -> exists segs', concat segs' = concat ne' /\ Forall2 R segs segs'.
Proof.
  intros R0. induction segs as [|s segs IH]; intros ne' H; [exists ne'; split; [reflexivity|exact H]|]. cbn [filter] in H. destruct (Z.ltb_spec 0 (zlen s)).
  - inversion H as [|? s' ? ne2 H1 H2]; subst. destruct (IH _ H2) as (segs' & E & F). exists (s' :: segs'). split; [cbn [concat]; congruence|constructor; assumption].
  - destruct s as [|x s]; [|rewrite zlen_cons in *; pose proof (zlen_nonneg s); lia]. destruct (IH _ H) as (segs' & E & F). exists ([] :: segs'). split; [exact E|constructor; assumption].
Qed.
Lemma filter_counts (segs : list (list Z)) : filter (fun n => 0 <? n) (map zlen segs) = map zlen (filter (fun s => 0 <? zlen s) segs).
Proof. induction segs as [|s segs IH]; [reflexivity|]. cbn [map filter]. destruct (0 <? zlen s); cbn [map]; rewrite IH; reflexivity. Qed.
Lemma concat_nonempty (segs : list (list Z)) : concat (filter (fun s => 0 <? zlen s) segs) = concat segs.
Proof. induction segs as [|s segs IH]; [reflexivity|]. cbn [filter concat]. destruct (Z.ltb_spec 0 (zlen s)); cbn [concat]; rewrite IH; [reflexivity|]. destruct s as [|x s]; [reflexivity|]. rewrite zlen_cons in *. pose proof (zlen_nonneg s). lia. Qed.

(** ** std::stable_sort *)
Lemma insert_perm bf x l : Permutation (x :: l) (insert bf x l).
Proof. induction l as [|y l IH]; simpl; [apply Permutation_refl|]. destruct (bf y x); [|apply Permutation_refl]. etransitivity; [apply perm_swap|]. constructor. exact IH. Qed.
Lemma stable_sort_perm bf l : Permutation l (stable_sort bf l).
Proof. induction l as [|x l IH]; [constructor|]. change (stable_sort bf (x :: l)) with (insert bf x (stable_sort bf l)). etransitivity; [|apply insert_perm]. constructor. exact IH. Qed.
(** in order, and ties in the order of the list *)
Fixpoint in_order (bf : Z -> Z -> bool) (l : list Z) : Prop :=
  match l with [] => True | x :: l => (forall y, In y l -> bf y x = false /\ (bf x y = false -> x < y)) /\ in_order bf l end.
Fixpoint increasing (l : list Z) : Prop := match l with [] => True | x :: l => (forall y, In y l -> x < y) /\ increasing l end.
Lemma increasing_zseq n : forall a, increasing (zseq_nat a n).
Proof. induction n as [|n IH]; intros a; simpl; [exact I|]. split; [|apply IH]. intros y Hy. clear IH. assert (G : forall n b, In y (zseq_nat b n) -> b <= y). { clear. induction n as [|n IH]; intros b H; [destruct H|]. destruct H as [->|H]; [lia|]. specialize (IH _ H). lia. } specialize (G _ _ Hy). lia. Qed.
Lemma insert_order bf x l : (forall y, In y l -> x < y) ->
  (forall y, In y (x :: l) -> bf y y = false) ->
  (forall u v, In u (x :: l) -> In v (x :: l) -> bf u v = true -> bf v u = false) ->
  (forall u v w, In u (x :: l) -> In v (x :: l) -> In w (x :: l) -> bf u v = false -> bf v w = false -> bf u w = false) ->
  in_order bf l -> in_order bf (insert bf x l).
Proof.
  induction l as [|y l IH]; intros Hlt Hir Has Htr HO; cbn [insert]; [split; [intros ? []|exact I]|]. destruct HO as [HO1 HO2]. destruct (bf y x) eqn:E.
  - split.
    + intros z Hz. apply (Permutation_in _ (Permutation_sym (insert_perm bf x l))) in Hz. destruct Hz as [<-|Hz].
      * split; [|congruence]. apply Has; [right; left; reflexivity|left; reflexivity|exact E].
      * apply HO1. exact Hz.
    + apply IH; auto.
      * intros z Hz. apply Hlt. right; exact Hz.
      * intros z [<-|Hz]; apply Hir; [left; reflexivity|right; right; exact Hz].
      * intros u v [<-|Hu] [<-|Hv]; apply Has; (left; reflexivity) || (right; right; assumption).
      * intros u v w [<-|Hu] [<-|Hv] [<-|Hw]; apply Htr; (left; reflexivity) || (right; right; assumption).
  - split; [|split; [exact HO1|exact HO2]]. intros z [<-|Hz].
    + split; [exact E|]. intros _. apply Hlt. left; reflexivity.
    + split; [|intros _; apply Hlt; right; exact Hz]. apply (Htr z y x); [right; right; exact Hz|right; left; reflexivity|left; reflexivity|apply HO1; exact Hz|exact E].
Qed.
Lemma stable_sort_order bf l : increasing l ->
  (forall u v, In u l -> In v l -> bf u v = true -> bf v u = false) ->
  (forall u v w, In u l -> In v l -> In w l -> bf u v = false -> bf v w = false -> bf u w = false) ->
  in_order bf (stable_sort bf l).
Proof.
  induction l as [|x l IH]; intros HI Has Htr; [exact I|]. destruct HI as [HI1 HI2]. change (stable_sort bf (x :: l)) with (insert bf x (stable_sort bf l)).
  assert (HP : forall y, In y (x :: stable_sort bf l) -> In y (x :: l)). { intros y [->|H]; [left; reflexivity|right]. exact (Permutation_in _ (Permutation_sym (stable_sort_perm bf l)) H). }
  apply insert_order.
  - intros y Hy. apply HI1. exact (Permutation_in _ (Permutation_sym (stable_sort_perm bf l)) Hy).
  - intros y Hy. apply HP in Hy. destruct (bf y y) eqn:E; [|reflexivity]. rewrite <- E. apply Has; assumption.
  - intros u v Hu Hv. apply Has; apply HP; assumption.
  - intros u v w Hu Hv Hw. apply Htr; apply HP; assumption.
  - apply IH; [exact HI2| |].
    + intros u v Hu Hv. apply Has; right; assumption.
    + intros u v w Hu Hv Hw. apply (Htr u v w); right; assumption.
Qed.
Lemma in_order_nth bf l : in_order bf l -> forall i j x y, i < j -> nthZ l i = Some x -> nthZ l j = Some y -> bf y x = false /\ (bf x y = false -> x < y).
Proof.
  induction l as [|z l IH]; intros HO i j x y Hij Hx Hy; [pose proof (nthZ_Some _ _ _ Hx); change (zlen (@nil Z)) with 0 in *; lia|]. destruct HO as [HO1 HO2].
  pose proof (nthZ_Some _ _ _ Hx). rewrite nthZ_cons in Hx, Hy. destruct (Z.eqb_spec j 0); [lia|]. destruct (Z.eqb_spec i 0).
  - injection Hx as <-. apply HO1. eapply nthZ_In. exact Hy.
  - eapply (IH HO2 (i - 1) (j - 1)); [lia|exact Hx|exact Hy].
Qed.

(** ** one range *)
Local Notation get := KSort.get.
Lemma get_app_l a b i : i < zlen a -> get (a ++ b) i = get a i.
Proof. intros. unfold get. rewrite nthZ_app. destruct (Z.ltb_spec i (zlen a)); [reflexivity|lia]. Qed.
Lemma get_app_r a b i : zlen a <= i -> get (a ++ b) i = get b (i - zlen a).
Proof. intros. unfold get. rewrite nthZ_app_right by assumption. reflexivity. Qed.
Lemma slice_mid {A} (pre s post : list A) : slice (zlen pre) (zlen pre + zlen s) (pre ++ s ++ post) = s.
Proof.
  pose proof (zlen_nonneg pre); pose proof (zlen_nonneg s); pose proof (zlen_nonneg post).
  apply list_eqZ; [rewrite zlen_slice; rewrite ?zlen_app; lia|].
  intros i Hi. rewrite zlen_slice in Hi by (rewrite ?zlen_app; lia).
  rewrite nthZ_slice by (rewrite ?zlen_app; lia). rewrite nthZ_app_right by lia. replace (zlen pre + i - zlen pre) with i by lia. rewrite nthZ_app. destruct (Z.ltb_spec i (zlen s)); [reflexivity|lia].
Qed.
Lemma slice_mid' {A} (pre s post : list A) n m : n = zlen pre -> m = zlen pre + zlen s -> slice n m (pre ++ s ++ post) = s.
Proof. intros -> ->. apply slice_mid. Qed.
Lemma split3 pre s post a' : zlen a' = zlen (pre ++ s ++ post) -> (forall k, k < zlen pre \/ zlen pre + zlen s <= k -> get a' k = get (pre ++ s ++ post) k) ->
  a' = pre ++ slice (zlen pre) (zlen pre + zlen s) a' ++ post.
Proof.
  intros HL HG. pose proof (zlen_nonneg pre). pose proof (zlen_nonneg s). pose proof (zlen_nonneg post).
  assert (HS : zlen (slice (zlen pre) (zlen pre + zlen s) a') = zlen s) by (rewrite zlen_slice; rewrite ?HL, ?zlen_app; lia).
  apply list_eqZ; [rewrite HL, !zlen_app, HS; reflexivity|]. intros i Hi. rewrite HL, !zlen_app in Hi.
  assert (HI : nthZ a' i = Some (get a' i)) by (apply get_nth; rewrite HL, !zlen_app; lia). rewrite HI.
  rewrite nthZ_app. destruct (Z.ltb_spec i (zlen pre)).
  - rewrite HG by lia. rewrite get_app_l by lia. symmetry. apply get_nth. lia.
  - rewrite nthZ_app, HS. destruct (Z.ltb_spec (i - zlen pre) (zlen s)).
    + rewrite nthZ_slice by (rewrite ?HL, ?zlen_app; lia). replace (zlen pre + (i - zlen pre)) with i by lia. symmetry. exact HI.
    + rewrite HG by lia. rewrite !get_app_r by lia. symmetry. apply get_nth. lia.
Qed.
Section Range.
Variable o : order.
Variable ascending : bool.
Notation pred := (predicate_of o ascending).
Definition total (s : list Z) : Prop := total_order o (fun x => In x s).
(** what a sort, an argsort does with one range *)
Definition sortR (s s' : list Z) : Prop := Permutation s s' /\ (total s -> sorted pred s').
Definition argR (stable : bool) (s ps : list Z) : Prop := Permutation (zseq 0 (zlen s)) ps /\
  (total s -> forall a b i j, a < b -> nthZ ps a = Some i -> nthZ ps b = Some j -> pred (get s i) (get s j) = true /\ (stable = true -> pred (get s j) (get s i) = true -> i < j)).
Lemma pred_total s : total s -> (forall x y, In x s -> In y s -> pred x y = true \/ pred y x = true) /\
  (forall x y z, In x s -> In y s -> In z s -> pred x y = true -> pred y z = true -> pred x z = true) /\
  (forall x y, In x s -> In y s -> before_of o ascending x y = negb (pred y x)) /\
  (forall x y, In x s -> In y s -> oeq o x y = true -> pred x y = true /\ pred y x = true).
Proof.
  intros (H1 & H2 & H3 & H4). unfold predicate_of, before_of. destruct ascending.
  - split; [exact H1|]. split; [exact H2|]. split; [exact H3|exact H4].
  - split; [|split; [|split]].
    + intros x y Hx Hy. destruct (H1 x y Hx Hy); auto.
    + intros x y z Hx Hy Hz A B. apply (H2 z y x); auto.
    + intros x y Hx Hy. apply H3; auto.
    + intros x y Hx Hy E. destruct (H4 x y Hx Hy E); auto.
Qed.
Lemma get_In s i : 0 <= i < zlen s -> In (get s i) s.
Proof. intros. eapply nthZ_In. apply get_nth. assumption. Qed.
Lemma quick_sort_range pre s post beg end_ : zlen s < 2 ^ kMaxLevels -> zlen beg = kMaxLevels -> zlen end_ = kMaxLevels ->
  exists s' beg' end_', quick (fun x => Ok x) pred (oeq o) (zlen pre) (pre ++ s ++ post) (zlen s) beg end_ kMaxLevels = Ok (pre ++ s' ++ post, beg', end_') /\
    sortR s s' /\ zlen s' = zlen s /\ zlen beg' = kMaxLevels /\ zlen end_' = kMaxLevels.
Proof.
  intros Hs Hb He. pose proof (zlen_nonneg pre). pose proof (zlen_nonneg s). pose proof (zlen_nonneg post).
  assert (HG : forall q, 0 <= q < zlen s -> get (pre ++ s ++ post) (zlen pre + q) = get s q) by (intros q Hq; rewrite get_app_r by lia; rewrite get_app_l by lia; f_equal; lia).
  destruct (quick_spec (fun x => Ok x) pred (oeq o) (zlen pre) (fun x => In x s) (fun x => x) ltac:(lia) (fun x _ => eq_refl) (pre ++ s ++ post) (zlen s) beg end_ kMaxLevels)
    as (a' & beg' & end_' & E & Lb & Le & HP & HO & _ & HS); try assumption; try (unfold kMaxLevels; lia); try (rewrite !zlen_app; lia).
  { intros q Hq. rewrite HG by assumption. apply get_In. exact Hq. }
  assert (HL : zlen a' = zlen (pre ++ s ++ post)) by (unfold zlen; rewrite (Permutation_length HP); reflexivity).
  pose proof (split3 pre s post a' HL HO) as E3. set (s' := slice (zlen pre) (zlen pre + zlen s) a') in *.
  assert (HZ : zlen s' = zlen s) by (unfold s'; rewrite zlen_slice; rewrite ?HL, ?zlen_app; lia).
  exists s', beg', end_'. rewrite E, E3 at 1. split; [reflexivity|]. split; [|auto]. split.
  - rewrite <- (slice_mid pre s post). unfold s'. apply perm_slice; try assumption; try lia. rewrite !zlen_app; lia.
  - intros HT. destruct (pred_total s HT) as (T1 & T2 & _ & T4). intros i j x y Hij Hx Hy. pose proof (nthZ_Some _ _ _ Hx). pose proof (nthZ_Some _ _ _ Hy). rewrite HZ in *.
    assert (HO' : ordered pred (oeq o) (fun x => In x s) (fun x => x)) by (split; [exact T1|split; [exact T2|exact T4]]).
    specialize (HS HO' i j ltac:(lia) ltac:(lia)). rewrite E3 in HS. rewrite !(get_app_r pre), !get_app_l in HS by lia. unfold get in HS.
    replace (zlen pre + i - zlen pre) with i in HS by lia. replace (zlen pre + j - zlen pre) with j in HS by lia. rewrite Hx, Hy in HS. exact HS.
Qed.
Lemma quick_argsort_range dpre dpost pre s post beg end_ : zlen dpre = zlen pre -> zlen s < 2 ^ kMaxLevels -> zlen beg = kMaxLevels -> zlen end_ = kMaxLevels ->
  exists s' beg' end_', quick (fun x => rd (dpre ++ s ++ dpost) (zlen pre + x)) pred Z.eqb (zlen pre) (pre ++ zseq 0 (zlen s) ++ post) (zlen s) beg end_ kMaxLevels = Ok (pre ++ s' ++ post, beg', end_') /\
    argR false s s' /\ zlen s' = zlen s /\ zlen beg' = kMaxLevels /\ zlen end_' = kMaxLevels.
Proof.
  intros Hd Hs Hb He. pose proof (zlen_nonneg pre). pose proof (zlen_nonneg s). pose proof (zlen_nonneg post). pose proof (zlen_nonneg dpost).
  set (ix := zseq 0 (zlen s)). assert (HI : zlen ix = zlen s) by (unfold ix; rewrite zlen_zseq; lia).
  assert (HG : forall q, 0 <= q < zlen s -> get (pre ++ ix ++ post) (zlen pre + q) = q).
  { intros q Hq. rewrite get_app_r by lia. rewrite get_app_l by lia. replace (zlen pre + q - zlen pre) with q by lia. unfold get, ix. rewrite nthZ_zseq by lia. lia. }
  assert (HK : forall x, 0 <= x < zlen s -> rd (dpre ++ s ++ dpost) (zlen pre + x) = Ok (get s x)).
  { intros x Hx. rewrite rd_get by (rewrite !zlen_app; lia). rewrite get_app_r by lia. rewrite get_app_l by lia. do 2 f_equal. lia. }
  destruct (quick_spec (fun x => rd (dpre ++ s ++ dpost) (zlen pre + x)) pred Z.eqb (zlen pre) (fun x => 0 <= x < zlen s) (get s) ltac:(lia) HK (pre ++ ix ++ post) (zlen s) beg end_ kMaxLevels)
    as (a' & beg' & end_' & E & Lb & Le & HP & HO & Hgood & HS); try assumption; try (unfold kMaxLevels; lia); try (rewrite !zlen_app; lia).
  assert (HO2 : forall k, k < zlen pre \/ zlen pre + zlen ix <= k -> get a' k = get (pre ++ ix ++ post) k) by (intros k Hk; apply HO; lia).
  assert (HL : zlen a' = zlen (pre ++ ix ++ post)) by (unfold zlen; rewrite (Permutation_length HP); reflexivity).
  pose proof (split3 pre ix post a' HL HO2) as E3. set (s' := slice (zlen pre) (zlen pre + zlen ix) a') in *.
  assert (HZ : zlen s' = zlen s) by (unfold s'; rewrite zlen_slice; rewrite ?HL, ?zlen_app; lia).
  exists s', beg', end_'. rewrite E, E3 at 1. split; [reflexivity|]. split; [|auto]. split.
  - fold ix. rewrite <- (slice_mid pre ix post). unfold s'. apply perm_slice; try assumption; try lia. rewrite !zlen_app; lia.
  - intros HT. destruct (pred_total s HT) as (T1 & T2 & _ & T4). intros i j x y Hij Hx Hy. pose proof (nthZ_Some _ _ _ Hx). pose proof (nthZ_Some _ _ _ Hy). rewrite HZ in *. split; [|discriminate].
    assert (HO' : ordered pred Z.eqb (fun x => 0 <= x < zlen s) (get s)).
    { split; [|split]; intros; [apply T1|eapply (T2 (get s x0) (get s y0) (get s z))|]; try (apply get_In; assumption); try assumption.
      assert (x0 = y0) as -> by (apply Z.eqb_eq; assumption). destruct (T1 (get s y0) (get s y0)); try (apply get_In; assumption); auto. }
    specialize (HS HO' i j ltac:(lia) ltac:(lia)). rewrite E3 in HS. rewrite !(get_app_r pre), !get_app_l in HS by lia.
    replace (zlen pre + i - zlen pre) with i in HS by lia. replace (zlen pre + j - zlen pre) with j in HS by lia. unfold get at 2 4 in HS. rewrite Hx, Hy in HS. exact HS.
Qed.
End Range.

(** ** all ranges *)
Lemma zseq_shift b n : 0 <= n -> zseq b (b + n) = map (fun i => b + i) (zseq 0 n).
Proof. intros. apply list_eqZ; [rewrite zlen_map, !zlen_zseq by lia; lia|]. intros i Hi. rewrite zlen_zseq in Hi by lia. rewrite nthZ_map, !nthZ_zseq by lia. simpl. f_equal. Qed.
Lemma increasing_zseqZ a b : increasing (zseq a b).
Proof. unfold zseq. apply increasing_zseq. Qed.
Lemma get_seg dpre s dpost i : zlen dpre <= i < zlen dpre + zlen s -> get (dpre ++ s ++ dpost) i = get s (i - zlen dpre).
Proof. intros. rewrite get_app_r by lia. rewrite get_app_l by lia. reflexivity. Qed.
(** the positions of a range, in order *)
Lemma stable_range o ascending dpre s dpost : let b := zlen dpre in
  let ps := stable_sort (fun i1 i2 => before_of o ascending (get (dpre ++ s ++ dpost) i1) (get (dpre ++ s ++ dpost) i2)) (zseq b (b + zlen s)) in
  zlen ps = zlen s /\ argR o ascending true s (map (fun i => i - b) ps) /\ Forall (fun i => b <= i < b + zlen s) ps.
Proof.
  intros b ps. pose proof (zlen_nonneg s). pose proof (zlen_nonneg dpre).
  set (bf := fun i1 i2 => before_of o ascending (get (dpre ++ s ++ dpost) i1) (get (dpre ++ s ++ dpost) i2)) in *.
  pose proof (stable_sort_perm bf (zseq b (b + zlen s))) as HP. fold ps in HP.
  assert (HR : Forall (fun i => b <= i < b + zlen s) ps). { apply Forall_forall. intros x Hx. apply (Permutation_in _ (Permutation_sym HP)) in Hx. apply In_zseq. exact Hx. }
  split; [|split; [|exact HR]].
  - unfold zlen. rewrite <- (Permutation_length HP). change (zlen (zseq b (b + zlen s)) = zlen s). rewrite zlen_zseq; lia.
  - split.
    + rewrite zseq_shift in HP by lia. apply (Permutation_map (fun i => i - b)) in HP. rewrite map_map in HP. rewrite (map_ext _ (fun i => i)) in HP by (intros; lia). rewrite map_id in HP. exact HP.
    + intros HT a1 b1 i j Hab Hi Hj. destruct (pred_total o ascending s HT) as (T1 & T2 & T3 & _).
      rewrite nthZ_map in Hi, Hj. destruct (nthZ ps a1) as [i0|] eqn:Ei; [|discriminate]. destruct (nthZ ps b1) as [j0|] eqn:Ej; [|discriminate]. cbn [option_map] in Hi, Hj. injection Hi as <-. injection Hj as <-.
      assert (HB : forall x y, b <= x < b + zlen s -> b <= y < b + zlen s -> bf x y = negb (predicate_of o ascending (get s (y - b)) (get s (x - b)))).
      { intros x y Hx Hy. unfold bf. rewrite !get_seg by (fold b; lia). apply T3; apply get_In; lia. }
      rewrite Forall_forall in HR. pose proof (HR _ (nthZ_In _ _ _ Ei)) as Hi0. pose proof (HR _ (nthZ_In _ _ _ Ej)) as Hj0.
      assert (HOr : in_order bf ps).
      { apply stable_sort_order; [apply increasing_zseqZ| |].
        - intros u v Hu Hv. apply In_zseq in Hu, Hv. rewrite !HB by assumption. intros E. destruct (T1 (get s (u - b)) (get s (v - b))) as [A|A]; try (apply get_In; lia); rewrite A in *; [reflexivity|discriminate].
        - intros u v w Hu Hv Hw. apply In_zseq in Hu, Hv, Hw. rewrite !HB by assumption. rewrite !negb_false_iff. intros A B. eapply T2; [| | |exact B|exact A]; apply get_In; lia. }
      destruct (in_order_nth bf ps HOr a1 b1 i0 j0 Hab Ei Ej) as [O1 O2]. rewrite HB in O1, O2 by assumption. rewrite negb_false_iff in O1, O2. split; [exact O1|]. intros _ HT2. specialize (O2 HT2). lia.
Qed.
Lemma inits_self b segs : inits (fun _ s => s) b segs = concat segs.
Proof. revert b. induction segs as [|s segs IH]; intros b; [reflexivity|]. cbn [inits concat]. rewrite IH. reflexivity. Qed.
Lemma inits_zseq segs : forall b, inits (fun b s => zseq b (b + zlen s)) b segs = zseq b (b + sumZ (map zlen segs)).
Proof.
  induction segs as [|s segs IH]; intros b; cbn [inits map].
  - replace (b + sumZ []) with b by (unfold sumZ; simpl; lia). unfold zseq. rewrite Z.sub_diag. reflexivity.
  - rewrite IH. replace (sumZ (zlen s :: map zlen segs)) with (zlen s + sumZ (map zlen segs)) by reflexivity. rewrite (zseq_split b (b + zlen s) (b + (zlen s + sumZ (map zlen segs)))); [|pose proof (zlen_nonneg s); pose proof (sumZ_nonneg _ (nonneg_zlens segs)); lia]. f_equal. f_equal. lia.
Qed.
Lemma before_offsets (segs : list (list Z)) : forall j, 0 <= j <= zlen segs -> nthZ (offsets_of (map zlen segs)) (0 + j) = Some (zlen (@nil Z) + before (map zlen segs) j).
Proof. intros j Hj. rewrite Z.add_0_l. rewrite nthZ_offsets_before by (rewrite zlen_map; exact Hj). reflexivity. Qed.
Lemma empty_total (segs : list (list Z)) : zlen (concat segs) = 0 -> Forall (fun s => s = []) segs.
Proof. induction segs as [|s segs IH]; intros H; constructor; cbn [concat] in H; rewrite zlen_app in H; pose proof (zlen_nonneg s); pose proof (zlen_nonneg (concat segs)). - destruct s; [reflexivity|]. rewrite zlen_cons in *. pose proof (zlen_nonneg s). lia. - apply IH. lia. Qed.

Section Groups.
Variable o : order.
Variable ascending stable : bool.
Definition fits_levels (segs : list (list Z)) : Prop := stable = true \/ Forall (fun s => zlen s < 2 ^ kMaxLevels) segs.

Lemma groups_prep segs : 0 < zlen (concat segs) -> let ne := filter (fun s => 0 <? zlen s) segs in
  awkward_sorting_ranges_length (runs 0 (map zlen segs)) (zlen (runs 0 (map zlen segs))) = Ok (zlen ne + 1) /\
  awkward_sorting_ranges (alloc (zlen ne + 1)) (zlen ne + 1) (runs 0 (map zlen segs)) (zlen (runs 0 (map zlen segs))) = Ok (offsets_of (map zlen ne)) /\
  concat segs = concat ne /\ (fits_levels segs -> fits_levels ne).
Proof.
  intros H ne. pose proof (sorting_ranges_spec (map zlen segs) (nonneg_zlens segs)) as HS. rewrite zlen_concat in H. specialize (HS H). cbv zeta in HS. rewrite filter_counts, zlen_map in HS. destruct HS as [A B].
  split; [exact A|]. split; [exact B|]. split; [symmetry; apply concat_nonempty|]. intros [F|F]; [left; exact F|right]. rewrite Forall_forall in *. intros s Hs. apply F. apply filter_In in Hs. apply Hs.
Qed.
Lemma array_sort_groups segs : fits_levels segs ->
  exists segs', array_sort o (concat segs) (runs 0 (map zlen segs)) ascending stable = Ok (concat segs') /\ Forall2 (sortR o ascending) segs segs'.
Proof.
  intros Hfit. unfold array_sort. destruct (Z.eqb_spec (zlen (concat segs)) 0) as [Hz|Hz].
  { exists segs. rewrite Hz. split.
    - destruct (concat segs) as [|x l]; [reflexivity|]. rewrite zlen_cons in Hz. pose proof (zlen_nonneg l). lia.
    - apply empty_total in Hz. clear Hfit. induction Hz as [|s segs -> HF IH]; constructor; [|exact IH]. split; [constructor|]. intros _ i j x y _ Hx. pose proof (nthZ_Some _ _ _ Hx). change (zlen (@nil Z)) with 0 in *. lia. }
  pose proof (zlen_nonneg (concat segs)). destruct (groups_prep segs ltac:(lia)) as (E1 & E2 & E3 & HF). specialize (HF Hfit). rewrite E1. cbn [bind]. rewrite E2. cbn [bind].
  set (ne := filter (fun s => 0 <? zlen s) segs) in *.
  assert (HZR : zlen (runs 0 (map zlen segs)) = zlen (concat segs)) by (rewrite zlen_runs by apply nonneg_zlens; rewrite zlen_concat; reflexivity).
  assert (G : exists ne', (if stable then awkward_sort o ascending (alloc (zlen (concat segs))) (concat segs) (zlen (concat segs)) (offsets_of (map zlen ne)) (zlen (offsets_of (map zlen ne))) (zlen (runs 0 (map zlen segs)))
       else let* ptr := awkward_NumpyArray_fill (alloc (zlen (concat segs))) 0 (concat segs) (zlen (concat segs)) (fun x => x) in
            let* sort_starts := make_starts (offsets_of (map zlen ne)) in let* sort_stops := make_stops (offsets_of (map zlen ne)) in
            awkward_quick_sort o ascending ptr (alloc kMaxLevels) (alloc kMaxLevels) sort_starts sort_stops (zlen sort_starts) kMaxLevels) = Ok (concat ne') /\ Forall2 (sortR o ascending) ne ne').
  2:{ destruct G as (ne' & E & F). destruct (nonempty_groups (sortR o ascending) segs) with (ne' := ne') as (segs' & E4 & F4); [|exact F|exists segs'; split; [rewrite E, E4; reflexivity|exact F4]].
      split; [constructor|]. intros _ i j x y _ Hx. pose proof (nthZ_Some _ _ _ Hx). change (zlen (@nil Z)) with 0 in *. lia. }
  rewrite HZR, E3. clearbody ne. clear E1 E2 E3 Hz H HZR Hfit segs. pose proof (zlen_nonneg (concat ne)).
  pose proof (zlen_nonneg ne). unfold fits_levels in HF. destruct stable.
  - unfold awkward_sort. rewrite Z.ltb_irrefl. rewrite zlen_offsets_of, zlen_map. replace (zlen ne + 1 - 1) with (0 + zlen ne) by lia.
    set (D := concat ne) in *. set (bf := fun i1 i2 => before_of o ascending (get D i1) (get D i2)).
    destruct (ranges_loop (S := unit) (fun l _ => l) (fun b s => zseq b (b + zlen s))
      (fun s s' => sortR o ascending s (map (get D) s') /\ Forall (fun i => 0 <= i < zlen D) s') (fun _ => True) (fun _ => True) D (offsets_of (map zlen ne))
      (fun i index => let* a := rd (offsets_of (map zlen ne)) i in let* b := rd (offsets_of (map zlen ne)) (i + 1) in stable_sort_range bf a b index))
      with (segs := ne) (i0 := 0) (dpre := @nil Z) (pre := @nil Z) (e := tt) as (segs' & e' & E & HF2 & HL & _); try reflexivity; try (apply Forall_forall; intros; exact I); try exact I.
    + intros i dpre dpost pre s post [] HD Hpre HDl Ho1 Ho2 _ _. unfold rd. rewrite Ho1, Ho2. cbn [bind].
      pose proof (zlen_nonneg pre). pose proof (zlen_nonneg s). pose proof (zlen_nonneg post).
      pose proof (stable_range o ascending dpre s dpost) as SR. cbv zeta in SR. rewrite <- HD in SR. fold bf in SR. rewrite Hpre in SR. set (ps := stable_sort bf (zseq (zlen pre) (zlen pre + zlen s))) in *. destruct SR as (S1 & S2 & S3).
      assert (HZ : zlen (zseq (zlen pre) (zlen pre + zlen s)) = zlen s) by (rewrite zlen_zseq; lia).
      exists ps, tt. split; [|split; [|split; [exact S1|exact I]]].
      * unfold stable_sort_range. rewrite !zlen_app, HZ. destruct (Z.leb_spec 0 (zlen pre)); [|lia]. destruct (Z.leb_spec (zlen pre) (zlen pre + zlen s)); [|lia]. destruct (Z.leb_spec (zlen pre + zlen s) (zlen pre + (zlen s + zlen post))); [|lia]. cbn [andb].
        rewrite (slice_mid' pre (zseq (zlen pre) (zlen pre + zlen s)) post (zlen pre) (zlen pre + zlen s)) by lia. fold ps.
        rewrite (slice_mid' (@nil Z) pre (zseq (zlen pre) (zlen pre + zlen s) ++ post) 0 (zlen pre) eq_refl eq_refl : slice 0 (zlen pre) (pre ++ zseq (zlen pre) (zlen pre + zlen s) ++ post) = pre).
        do 3 f_equal. pose proof (slice_mid' (pre ++ zseq (zlen pre) (zlen pre + zlen s)) post [] (zlen pre + zlen s) (zlen pre + (zlen s + zlen post))) as SM. rewrite app_nil_r, <- app_assoc in SM. apply SM; rewrite zlen_app; lia.
      * destruct S2 as [P1 P2]. split.
        -- assert (EM : map (get D) ps = map (get s) (map (fun i => i - zlen pre) ps)).
           { rewrite map_map. apply map_ext_in. intros x Hx. rewrite Forall_forall in S3. specialize (S3 x Hx). rewrite HD. rewrite get_seg by lia. rewrite Hpre. reflexivity. }
           split.
           ++ rewrite EM. apply (Permutation_map (get s)) in P1. replace s with (map (get s) (zseq 0 (zlen s))) at 1; [exact P1|]. symmetry. apply list_eqZ; [rewrite zlen_map, zlen_zseq; lia|]. intros q Hq. rewrite nthZ_map, nthZ_zseq by lia. simpl. apply get_nth. exact Hq.
           ++ intros HT. rewrite EM. intros a1 b1 x y Hab Hx Hy. rewrite nthZ_map in Hx, Hy. destruct (nthZ (map (fun i => i - zlen pre) ps) a1) as [i1|] eqn:Ei; [|discriminate]. destruct (nthZ (map (fun i => i - zlen pre) ps) b1) as [j1|] eqn:Ej; [|discriminate].
              injection Hx as <-. injection Hy as <-. eapply P2; eassumption.
        -- eapply Forall_impl; [|exact S3]. intros x Hx. cbv beta in Hx. rewrite HDl. lia.
    + intros b s. rewrite zlen_zseq; pose proof (zlen_nonneg s); lia.
    + apply before_offsets.
    + cbn [app] in E. change (zlen (@nil Z)) with 0 in E. rewrite inits_zseq, <- zlen_concat in E. fold D in E. change (0 + zlen D) with (zlen D) in E. rewrite E. cbn [bind].
      rewrite (for_fill_all _ (fun i => get D (get (concat segs') i))).
      * exists (map (map (get D)) segs'). split.
        -- f_equal. rewrite <- concat_map. assert (HC : zlen (concat segs') = zlen D) by (unfold D; rewrite !zlen_concat, HL; reflexivity). apply list_eqZ; [rewrite !zlen_map, zlen_zseq; lia|]. intros i Hi. rewrite zlen_map, zlen_zseq in Hi by lia. rewrite !nthZ_map, nthZ_zseq by lia. rewrite (get_nth (concat segs')) by lia. reflexivity.
        -- clearbody D. clear - HF2. induction HF2 as [|s s' l l' [A _] _ IH]; constructor; assumption.
      * apply zlen_alloc. lia.
      * intros i out' Hi _. rewrite rd_get by (rewrite zlen_concat, HL, <- zlen_concat; exact Hi). cbn [bind]. rewrite rd_get; [reflexivity|].
        assert (HA : Forall (fun i => 0 <= i < zlen D) (concat segs')). { clearbody D. clear - HF2. induction HF2 as [|s s' l l' [_ A] _ IH]; [constructor|]. cbn [concat]. apply Forall_app. split; assumption. }
        rewrite Forall_forall in HA. apply HA. apply get_In. rewrite zlen_concat, HL, <- zlen_concat. exact Hi.
  - destruct HF as [HF|HF]; [discriminate|].
    assert (EF : awkward_NumpyArray_fill (alloc (zlen (concat ne))) 0 (concat ne) (zlen (concat ne)) (fun x => x) = Ok (concat ne)).
    { unfold awkward_NumpyArray_fill. rewrite (for_fill_all _ (get (concat ne))); [|apply zlen_alloc; lia|intros i out' Hi _; rewrite rd_get by exact Hi; reflexivity].
      f_equal. apply list_eqZ; [rewrite zlen_map, zlen_zseq; lia|]. intros i Hi. rewrite zlen_map, zlen_zseq in Hi by lia. rewrite nthZ_map, nthZ_zseq by lia. symmetry. apply get_nth. lia. }
    rewrite EF. cbn [bind]. assert (Ho : 1 <= zlen (offsets_of (map zlen ne))) by (rewrite zlen_offsets_of, zlen_map; lia).
    rewrite make_starts_spec, make_stops_spec by exact Ho. cbn [bind]. unfold awkward_quick_sort. rewrite zlen_slice by lia. rewrite zlen_offsets_of, zlen_map.
    replace (zlen ne + 1 - 1 - 0) with (0 + zlen ne) by lia. replace (zlen ne + 1 - 1) with (zlen ne) by lia.
    destruct (ranges_loop (fun l (e : list Z * list Z) => (l, fst e, snd e)) (fun _ s => s) (sortR o ascending) (fun s => zlen s < 2 ^ kMaxLevels) (fun e => zlen (fst e) = kMaxLevels /\ zlen (snd e) = kMaxLevels) (concat ne) (offsets_of (map zlen ne))
      (fun i st => let '(tmpptr, beg, end_) := st in let* start := rd (slice 0 (zlen ne) (offsets_of (map zlen ne))) i in let* stop := rd (slice 1 (zlen ne + 1) (offsets_of (map zlen ne))) i in
         quick (fun x => Ok x) (predicate_of o ascending) (oeq o) start tmpptr (stop - start) beg end_ kMaxLevels))
      with (segs := ne) (i0 := 0) (dpre := @nil Z) (pre := @nil Z) (e := (alloc kMaxLevels, alloc kMaxLevels)) as (segs' & [b' e'] & E & HF2 & HL & _); try reflexivity.
    + intros i dpre dpost pre s post [beg end_] HD Hpre HDl Ho1 Ho2 HQ [HI1 HI2]. cbn [fst snd] in *. pose proof (nthZ_Some _ _ _ Ho1). pose proof (nthZ_Some _ _ _ Ho2). rewrite zlen_offsets_of, zlen_map in *.
      unfold rd. rewrite !nthZ_slice by lia. rewrite Z.add_0_l, Ho1, (Z.add_comm 1 i), Ho2. cbn [bind]. replace (zlen pre + zlen s - zlen pre) with (zlen s) by lia.
      destruct (quick_sort_range o ascending pre s post beg end_ HQ HI1 HI2) as (s' & b' & e' & E & A & B & C). exists s', (b', e'). rewrite E. auto.
    + exact HF.
    + split; apply zlen_alloc; unfold kMaxLevels; lia.
    + apply before_offsets.
    + cbn [app fst snd] in E. rewrite inits_self in E. rewrite E. cbn [bind]. exists segs'. split; [reflexivity|exact HF2].
Qed.

Lemma inits_alloc segs : forall b, inits (fun _ s => alloc (zlen s)) b segs = alloc (sumZ (map zlen segs)).
Proof.
  induction segs as [|s segs IH]; intros b; cbn [inits map]; [reflexivity|]. rewrite IH. replace (sumZ (zlen s :: map zlen segs)) with (zlen s + sumZ (map zlen segs)) by reflexivity.
  unfold alloc. pose proof (zlen_nonneg s). pose proof (sumZ_nonneg _ (nonneg_zlens segs)). rewrite Z2Nat.inj_add by lia. rewrite repeat_app. reflexivity.
Qed.
Lemma inits_concat (f : list Z -> list Z) segs : forall b, inits (fun _ s => f s) b segs = concat (map f segs).
Proof. induction segs as [|s segs IH]; intros b; [reflexivity|]. cbn [inits map concat]. rewrite IH. reflexivity. Qed.
Lemma fill_seg pre s post (g : Z -> Z) (body : Z -> list Z -> res (list Z)) n : n = zlen s -> (forall j out, 0 <= j < n -> zlen out = zlen (pre ++ s ++ post) -> (forall k, zlen pre + j <= k < zlen pre + n -> get out k = get (pre ++ s ++ post) k) -> body j out = wr out (zlen pre + j) (g j)) ->
  for_ 0 n body (pre ++ s ++ post) = Ok (pre ++ map g (zseq 0 n) ++ post).
Proof.
  intros -> HB. pose proof (zlen_nonneg pre). pose proof (zlen_nonneg s). pose proof (zlen_nonneg post).
  destruct (for_inv (fun i out => out = pre ++ map g (zseq 0 i) ++ slice i (zlen s) s ++ post) 0 (zlen s) body (pre ++ s ++ post)) as (s' & E & ->).
  - lia.
  - rewrite (zseq_nil 0 0) by lia. cbn [map app]. rewrite slice_full. reflexivity.
  - intros i out Hi ->. assert (HS : exists x r, slice i (zlen s) s = x :: r /\ r = slice (i + 1) (zlen s) s). { destruct (nthZ_lt s i) as [x Hx]; [lia|]. exists x, (slice (i + 1) (zlen s) s). split; [apply slice_cons_nth; [lia|exact Hx]|reflexivity]. }
    assert (HL : zlen (slice i (zlen s) s) = zlen s - i) by (apply zlen_slice; lia).
    rewrite HB.
    + destruct HS as (x & r & -> & ->). rewrite app_assoc. cbn [app]. replace (zlen pre + i) with (zlen (pre ++ map g (zseq 0 i))) by (rewrite zlen_app, zlen_map, zlen_zseq by lia; lia). rewrite wr_push.
      eexists. split; [reflexivity|]. rewrite zseq_snoc, map_app by lia. rewrite <- !app_assoc. reflexivity.
    + lia.
    + rewrite !zlen_app, zlen_map, zlen_zseq, HL by lia. lia.
    + intros k Hk. rewrite !(get_app_r pre) by lia. rewrite (get_app_r (map g (zseq 0 i))) by (rewrite zlen_map, zlen_zseq by lia; lia). rewrite zlen_map, zlen_zseq by lia.
      rewrite !get_app_l by lia. unfold get. rewrite nthZ_slice by lia. replace (i + (k - zlen pre - (i - 0))) with (k - zlen pre) by lia. reflexivity.
  - rewrite E. f_equal. rewrite slice_empty by lia. reflexivity.
Qed.

Lemma argR_empty : argR o ascending stable [] [].
Proof. split; [reflexivity|]. intros _ a b i j _ Hx. pose proof (nthZ_Some _ _ _ Hx). change (zlen (@nil Z)) with 0 in *. lia. Qed.
Lemma index_sort_groups segs : fits_levels segs ->
  exists segs', index_sort o (concat segs) (runs 0 (map zlen segs)) ascending stable = Ok (concat segs') /\ Forall2 (argR o ascending stable) segs segs'.
Proof.
  intros Hfit. unfold index_sort. destruct (Z.eqb_spec (zlen (concat segs)) 0) as [Hz|Hz].
  { exists segs. rewrite Hz. split.
    - destruct (concat segs) as [|x l]; [reflexivity|]. rewrite zlen_cons in Hz. pose proof (zlen_nonneg l). lia.
    - apply empty_total in Hz. clear Hfit. induction Hz as [|s segs -> HF IH]; constructor; [apply argR_empty|exact IH]. }
  pose proof (zlen_nonneg (concat segs)). destruct (groups_prep segs ltac:(lia)) as (E1 & E2 & E3 & HF). specialize (HF Hfit). rewrite E1. cbn [bind]. rewrite E2. cbn [bind].
  set (ne := filter (fun s => 0 <? zlen s) segs) in *.
  assert (G : exists ne', (if stable then awkward_argsort o ascending (alloc (zlen (concat segs))) (concat segs) (zlen (concat segs)) (offsets_of (map zlen ne)) (zlen (offsets_of (map zlen ne)))
       else awkward_quick_argsort o ascending (alloc (zlen (concat segs))) (concat segs) (alloc kMaxLevels) (alloc kMaxLevels) (offsets_of (map zlen ne)) (zlen (offsets_of (map zlen ne))) kMaxLevels) = Ok (concat ne') /\ Forall2 (argR o ascending stable) ne ne').
  2:{ destruct G as (ne' & E & F). destruct (nonempty_groups (argR o ascending stable) segs argR_empty ne' F) as (segs' & E4 & F4). exists segs'; split; [rewrite E, E4; reflexivity|exact F4]. }
  rewrite E3. clearbody ne. clear E1 E2 E3 Hz H Hfit segs. pose proof (zlen_nonneg (concat ne)).
  pose proof (zlen_nonneg ne). unfold fits_levels in HF. rewrite zlen_offsets_of, zlen_map. destruct stable.
  - unfold awkward_argsort. rewrite Z.ltb_irrefl. replace (zlen ne + 1 - 1) with (0 + zlen ne) by lia.
    set (D := concat ne) in *. set (bf := fun i1 i2 => before_of o ascending (get D i1) (get D i2)).
    destruct (ranges_loop (S := unit) (fun l _ => l) (fun b s => zseq b (b + zlen s)) (argR o ascending true) (fun _ => True) (fun _ => True) D (offsets_of (map zlen ne))
      (fun i result => let* a := rd (offsets_of (map zlen ne)) i in let* b := rd (offsets_of (map zlen ne)) (i + 1) in let* result := stable_sort_range bf a b result in for_ a b (fun j result => let* x := rd result j in wr result j (x - a)) result))
      with (segs := ne) (i0 := 0) (dpre := @nil Z) (pre := @nil Z) (e := tt) as (segs' & e' & E & HF2 & HL & _); try reflexivity; try (apply Forall_forall; intros; exact I); try exact I.
    + intros i dpre dpost pre s post [] HD Hpre HDl Ho1 Ho2 _ _. unfold rd at 1 2. rewrite Ho1, Ho2. cbn [bind].
      pose proof (zlen_nonneg pre). pose proof (zlen_nonneg s). pose proof (zlen_nonneg post).
      pose proof (stable_range o ascending dpre s dpost) as SR. cbv zeta in SR. rewrite <- HD in SR. fold bf in SR. rewrite Hpre in SR. set (ps := stable_sort bf (zseq (zlen pre) (zlen pre + zlen s))) in *. destruct SR as (S1 & S2 & S3).
      assert (HZ : zlen (zseq (zlen pre) (zlen pre + zlen s)) = zlen s) by (rewrite zlen_zseq; lia).
      assert (ES : stable_sort_range bf (zlen pre) (zlen pre + zlen s) (pre ++ zseq (zlen pre) (zlen pre + zlen s) ++ post) = Ok (pre ++ ps ++ post)).
      { unfold stable_sort_range. rewrite !zlen_app, HZ. destruct (Z.leb_spec 0 (zlen pre)); [|lia]. destruct (Z.leb_spec (zlen pre) (zlen pre + zlen s)); [|lia]. destruct (Z.leb_spec (zlen pre + zlen s) (zlen pre + (zlen s + zlen post))); [|lia]. cbn [andb].
        rewrite (slice_mid' pre (zseq (zlen pre) (zlen pre + zlen s)) post (zlen pre) (zlen pre + zlen s)) by lia. fold ps.
        rewrite (slice_mid' (@nil Z) pre (zseq (zlen pre) (zlen pre + zlen s) ++ post) 0 (zlen pre) eq_refl eq_refl : slice 0 (zlen pre) (pre ++ zseq (zlen pre) (zlen pre + zlen s) ++ post) = pre).
        do 3 f_equal. pose proof (slice_mid' (pre ++ zseq (zlen pre) (zlen pre + zlen s)) post [] (zlen pre + zlen s) (zlen pre + (zlen s + zlen post))) as SM. rewrite app_nil_r, <- app_assoc in SM. apply SM; rewrite zlen_app; lia. }
      rewrite ES. cbn [bind]. rewrite for_shift. replace (zlen pre + zlen s - zlen pre) with (zlen ps) by lia.
      rewrite (fill_seg pre ps post (fun j => get ps j - zlen pre)).
      * exists (map (fun i => i - zlen pre) ps), tt. split; [|split; [exact S2|split; [rewrite zlen_map; exact S1|exact I]]]. do 3 f_equal. apply list_eqZ; [rewrite !zlen_map, zlen_zseq; lia|]. intros q Hq. rewrite zlen_map, zlen_zseq in Hq by lia. rewrite !nthZ_map, nthZ_zseq by lia. simpl. rewrite get_nth by lia. reflexivity.
      * reflexivity.
      * intros j out Hj Hlen Hg. rewrite rd_get by (rewrite Hlen, !zlen_app; lia). cbn [bind]. rewrite Hg by lia. f_equal. f_equal. rewrite get_seg by lia. f_equal. lia.
    + intros b s. rewrite zlen_zseq; pose proof (zlen_nonneg s); lia.
    + apply before_offsets.
    + cbn [app] in E. change (zlen (@nil Z)) with 0 in E. rewrite inits_zseq, <- zlen_concat in E. fold D in E. change (0 + zlen D) with (zlen D) in E. rewrite E. cbn [bind].
      assert (HC : zlen (concat segs') = zlen D) by (unfold D; rewrite !zlen_concat, HL; reflexivity).
      rewrite (for_fill_all _ (get (concat segs'))); [|apply zlen_alloc; lia|intros i out' Hi _; rewrite rd_get by lia; reflexivity].
      exists segs'. split; [|exact HF2]. f_equal. apply list_eqZ; [rewrite zlen_map, zlen_zseq; lia|]. intros i Hi. rewrite zlen_map, zlen_zseq in Hi by lia. rewrite nthZ_map, nthZ_zseq by lia. symmetry. apply get_nth. lia.
  - destruct HF as [HF|HF]; [discriminate|]. unfold awkward_quick_argsort. replace (zlen ne + 1 - 1) with (0 + zlen ne) by lia.
    destruct (ranges_loop (S := unit) (fun l _ => l) (fun _ s => alloc (zlen s)) (fun s s' => s' = zseq 0 (zlen s)) (fun _ => True) (fun _ => True) (concat ne) (offsets_of (map zlen ne))
      (fun i toptr => let* start := rd (offsets_of (map zlen ne)) i in let* stop := rd (offsets_of (map zlen ne)) (i + 1) in for_ 0 (stop - start) (fun j toptr => wr toptr (start + j) j) toptr))
      with (segs := ne) (i0 := 0) (dpre := @nil Z) (pre := @nil Z) (e := tt) as (segs1 & e1 & E1 & HF1 & HL1 & _); try reflexivity; try (apply Forall_forall; intros; exact I); try exact I.
    + intros i dpre dpost pre s post [] HD Hpre HDl Ho1 Ho2 _ _. unfold rd. rewrite Ho1, Ho2. cbn [bind]. replace (zlen pre + zlen s - zlen pre) with (zlen s) by lia. pose proof (zlen_nonneg s).
      rewrite (fill_seg pre (alloc (zlen s)) post (fun j => j)); [|rewrite zlen_alloc; lia|intros; reflexivity]. exists (zseq 0 (zlen s)), tt. rewrite map_id. rewrite zlen_zseq by lia. repeat split. lia.
    + intros b s. apply zlen_alloc. apply zlen_nonneg.
    + apply before_offsets.
    + cbn [app] in E1. rewrite inits_alloc, <- zlen_concat in E1. rewrite E1. cbn [bind].
      assert (EI : concat segs1 = inits (fun _ s => zseq 0 (zlen s)) 0 ne). { rewrite inits_concat. f_equal. clear - HF1. induction HF1; [reflexivity|]. cbn [map]. congruence. }
      rewrite EI.
      destruct (ranges_loop (fun l (e : list Z * list Z) => (l, fst e, snd e)) (fun _ s => zseq 0 (zlen s)) (argR o ascending false) (fun s => zlen s < 2 ^ kMaxLevels) (fun e => zlen (fst e) = kMaxLevels /\ zlen (snd e) = kMaxLevels) (concat ne) (offsets_of (map zlen ne))
        (fun i st => let '(toptr, beg, end_) := st in let* start := rd (offsets_of (map zlen ne)) i in let* stop := rd (offsets_of (map zlen ne)) (i + 1) in
           quick (fun x => rd (concat ne) (start + x)) (predicate_of o ascending) Z.eqb start toptr (stop - start) beg end_ kMaxLevels))
        with (segs := ne) (i0 := 0) (dpre := @nil Z) (pre := @nil Z) (e := (alloc kMaxLevels, alloc kMaxLevels)) as (segs' & [b' e'] & E & HF2 & HL & _); try reflexivity.
      * intros i dpre dpost pre s post [beg end_] HD Hpre HDl Ho1 Ho2 HQ [HI1 HI2]. cbn [fst snd] in *.
        unfold rd at 1 2. rewrite Ho1, Ho2. cbn [bind]. replace (zlen pre + zlen s - zlen pre) with (zlen s) by lia. rewrite HD.
        destruct (quick_argsort_range o ascending dpre dpost pre s post beg end_ Hpre HQ HI1 HI2) as (s' & b' & e' & E & A & B & C). exists s', (b', e'). rewrite E. auto.
      * intros b s. rewrite zlen_zseq; pose proof (zlen_nonneg s); lia.
      * exact HF.
      * split; apply zlen_alloc; unfold kMaxLevels; lia.
      * apply before_offsets.
      * cbn [app fst snd] in E. change (zlen (@nil Z)) with 0 in E. rewrite E. cbn [bind]. exists segs'. split; [reflexivity|exact HF2].
Qed.
End Groups.
