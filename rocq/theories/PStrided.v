(** Strided arrays: contiguous strides, copies of rows, making contiguous *)
From Verif Require Import Base BaseLemmas LoopLemmas OmapLemmas Content KRange KGetitem KCore Core SpecSlice PCarry Strided SpecStrided.
Local Open Scope list_scope.
Local Open Scope Z_scope.

Definition prod (sh : list Z) : Z := fold_right Z.mul 1 sh.
Fixpoint cst (isz : Z) (sh : list Z) : list Z := match sh with [] => [] | _ :: t => isz * prod t :: cst isz t end.

Lemma prod_nonneg sh : Forall (fun n => 0 <= n) sh -> 0 <= prod sh.
Proof. induction 1; cbn [prod fold_right]; [lia|]. fold (prod l). nia. Qed.
Lemma prod_cons n sh : prod (n :: sh) = n * prod sh.
Proof. reflexivity. Qed.
Lemma prod_app a b : prod (a ++ b) = prod a * prod b.
Proof. induction a as [|x a IH]; [change (prod (@nil Z)) with 1; rewrite app_nil_l; lia|]. cbn [app]. rewrite !prod_cons, IH. lia. Qed.
Lemma prod_rev a : prod (rev a) = prod a.
Proof. induction a as [|x a IH]; [reflexivity|]. cbn [rev]. rewrite prod_app, IH, !prod_cons. cbn. lia. Qed.
Lemma fold_left_prod sh : forall x, fold_left Z.mul sh x = x * prod sh.
Proof. induction sh as [|n sh IH]; intros x; cbn [fold_left]; [cbn; lia|]. rewrite IH, prod_cons. lia. Qed.
Lemma cst_len isz sh : zlen (cst isz sh) = zlen sh.
Proof. induction sh as [|n sh IH]; [reflexivity|]. cbn [cst]. rewrite !zlen_cons, IH. reflexivity. Qed.

Lemma contig_snoc n s : forall a b x, zlen a = zlen b -> iscontiguous_from x (a ++ [n]) (b ++ [s]) = iscontiguous_from x a b && (x * prod a =? s).
Proof.
  induction a as [|m a IH]; intros [|t b] x E; rewrite ?zlen_nil, ?zlen_cons in E; try (pose proof (zlen_nonneg b); lia); try (pose proof (zlen_nonneg a); lia).
  - cbn. rewrite Bool.andb_true_r. now rewrite Z.mul_1_r.
  - cbn [app iscontiguous_from]. rewrite IH by lia. rewrite Bool.andb_assoc, prod_cons. now rewrite Z.mul_assoc.
Qed.
Lemma zlen_rev' {A} (l : list A) : zlen (rev l) = zlen l.
Proof. unfold zlen. now rewrite rev_length. Qed.
Lemma contig_cst isz : forall sh st, zlen sh = zlen st -> iscontiguous_from isz (rev sh) (rev st) = true <-> st = cst isz sh.
Proof.
  induction sh as [|n sh IH]; intros [|s st] E; rewrite ?zlen_nil, ?zlen_cons in E; try (pose proof (zlen_nonneg st); lia); try (pose proof (zlen_nonneg sh); lia).
  - cbn. split; reflexivity.
  - cbn [rev cst]. rewrite contig_snoc by (rewrite !zlen_rev'; lia). rewrite Bool.andb_true_iff, IH by lia. rewrite prod_rev, Z.eqb_eq.
    split; [intros [-> <-]; reflexivity|intros H; injection H as -> ->; auto].
Qed.

(** ** Indices inside a shape *)
Lemma inside_len sh idx : inside sh idx -> zlen idx = zlen sh.
Proof. induction 1; [reflexivity|rewrite !zlen_cons; lia]. Qed.
Lemma inside_cons n sh i idx : inside (n :: sh) (i :: idx) <-> 0 <= i < n /\ inside sh idx.
Proof. split; [intros H; inversion H; auto|intros [? ?]; constructor; auto]. Qed.
Lemma inside_inv n sh idx : inside (n :: sh) idx -> exists i idx', idx = i :: idx' /\ 0 <= i < n /\ inside sh idx'.
Proof. intros H; inversion H; subst; eauto. Qed.
Lemma inside_nil idx : inside [] idx -> idx = [].
Proof. intros H; now inversion H. Qed.
Lemma inside_app a b p q : inside a p -> inside b q -> inside (a ++ b) (p ++ q).
Proof. apply Forall2_app. Qed.
Lemma inside_app_inv a b idx : inside (a ++ b) idx -> exists p q, idx = p ++ q /\ inside a p /\ inside b q.
Proof. intros H. apply Forall2_app_inv_l in H as (p & q & Hp & Hq & ->). eauto. Qed.
Lemma inside_prod sh idx : inside sh idx -> 0 < prod sh.
Proof. induction 1; [cbn; lia|]. rewrite prod_cons. nia. Qed.
Lemma dot_app : forall p q s t, zlen p = zlen s -> dot (p ++ q) (s ++ t) = dot p s + dot q t.
Proof.
  induction p as [|i p IH]; intros q [|x s] t E; rewrite ?zlen_nil, ?zlen_cons in E; try (pose proof (zlen_nonneg s); lia); try (pose proof (zlen_nonneg p); lia).
  - reflexivity.
  - cbn [app dot]. rewrite IH by lia. lia.
Qed.
Lemma dot_cst isz sh idx : 0 < isz -> inside sh idx -> 0 <= dot idx (cst isz sh) /\ dot idx (cst isz sh) + isz <= isz * prod sh.
Proof.
  intros Hi. induction 1 as [|n i sh idx H1 H2 IH]; [cbn; lia|]. cbn [cst dot]. rewrite prod_cons. fold (inside sh idx) in H2. pose proof (inside_prod _ _ H2). nia.
Qed.
Lemma inside_first sh : Forall (fun n => 0 <= n) sh -> prod sh <> 0 -> exists a, inside sh a /\ forall st, dot a st = 0.
Proof.
  induction 1 as [|n sh Hn H IH]; intros P; [exists []; split; [constructor|reflexivity]|]. rewrite prod_cons in P. assert (n <> 0) by (intros ->; lia). destruct IH as (a & Ha & Hd); [intros E0; rewrite E0 in P; lia|].
  exists (0 :: a). split; [apply inside_cons; split; [lia|exact Ha]|]. intros [|s st]; [reflexivity|]. cbn [dot]. rewrite Hd. lia.
Qed.
Lemma inside_last isz sh : Forall (fun n => 0 <= n) sh -> prod sh <> 0 -> exists a, inside sh a /\ dot a (cst isz sh) = isz * prod sh - isz.
Proof.
  induction 1 as [|n sh Hn H IH]; intros P; [exists []; split; [constructor|cbn; lia]|]. rewrite prod_cons in P. assert (n <> 0) by (intros ->; lia). destruct IH as (a & Ha & Hd); [intros E0; rewrite E0 in P; lia|].
  exists (n - 1 :: a). split; [apply inside_cons; split; [lia|exact Ha]|]. cbn [dot cst]. rewrite Hd, prod_cons. lia.
Qed.

(** ** Blocks *)
Lemma block_Some mem q n : block mem q n <> None -> 0 <= q /\ q + n <= zlen mem.
Proof. unfold block. destruct (Z.leb_spec 0 q), (Z.leb_spec (q + n) (zlen mem)); cbn [andb]; try congruence; auto. Qed.
Lemma block_in mem q n : 0 <= q -> q + n <= zlen mem -> block mem q n = Some (slice q (q + n) mem).
Proof. intros. unfold block. destruct (Z.leb_spec 0 q), (Z.leb_spec (q + n) (zlen mem)); cbn [andb]; try lia. reflexivity. Qed.
(** all the elements of a box with contiguous strides are in memory: the whole box is *)
Lemma box_in mem q isz sh : 0 < isz -> Forall (fun n => 0 <= n) sh -> (forall idx, inside sh idx -> block mem (q + dot idx (cst isz sh)) isz <> None) ->
  isz * prod sh = 0 \/ (0 <= q /\ q + isz * prod sh <= zlen mem).
Proof.
  intros Hi F H. destruct (Z.eq_dec (prod sh) 0) as [E|P]; [left; lia|right].
  destruct (inside_first sh F P) as (f & Hf & Df). destruct (inside_last isz sh F P) as (l & Hl & Dl).
  pose proof (block_Some _ _ _ (H f Hf)) as B1. pose proof (block_Some _ _ _ (H l Hl)) as B2. rewrite Df in B1. rewrite Dl in B2. lia.
Qed.

(** ** Copies of rows *)
Lemma bytes_ok mem q n : n = 0 \/ (0 <= q /\ 0 < n /\ q + n <= zlen mem) -> exists b, bytes mem q n = Ok b /\ zlen b = n /\
  forall d k, 0 <= d -> d + k <= n -> 0 < k -> block b d k = block mem (q + d) k.
Proof.
  intros H. unfold bytes. destruct (Z.eqb_spec n 0) as [->|].
  - exists []. split; [reflexivity|]. split; [reflexivity|]. intros; lia.
  - destruct H as [?|(? & ? & ?)]; [lia|]. destruct (Z.leb_spec 0 q), (Z.leb_spec 0 n), (Z.leb_spec (q + n) (zlen mem)); try lia. cbn [andb].
    eexists; split; [reflexivity|]. assert (L : zlen (slice q (q + n) mem) = n) by (rewrite zlen_slice by lia; lia). split; [exact L|].
    intros d k Hd Hk Hk'. rewrite !block_in by lia. f_equal. rewrite slice_slice by lia. f_equal; lia.
Qed.
Lemma concat_rows (R : Z) : forall rows, Forall (fun r : list Z => zlen r = R) rows -> zlen (concat rows) = zlen rows * R.
Proof. induction 1 as [|r rows Hr H IH]; [reflexivity|]. cbn [concat]. rewrite zlen_app, zlen_cons, IH, Hr. lia. Qed.
Lemma concat_row (R : Z) : forall rows i r, Forall (fun r : list Z => zlen r = R) rows -> nthZ rows i = Some r ->
  forall d k, 0 <= d -> d + k <= R -> 0 < k -> block (concat rows) (i * R + d) k = block r d k.
Proof.
  induction rows as [|x rows IH]; intros i r F E d k Hd Hk Hk'; [pose proof (nthZ_Some _ _ _ E); change (zlen (@nil (list Z))) with 0 in *; lia|].
  pose proof (nthZ_Some _ _ _ E) as B. rewrite zlen_cons in B. inversion F as [|? ? Fx Fr]; subst. pose proof (concat_rows _ _ Fr) as C. pose proof (zlen_nonneg rows). pose proof (zlen_nonneg (concat rows)). assert (0 <= i * zlen x) by nia. assert (i = 0 \/ i * zlen x <= zlen rows * zlen x) by nia. assert (i = 0 \/ zlen x <= i * zlen x) by nia.
  cbn [concat]. rewrite nthZ_cons in E. destruct (Z.eqb_spec i 0) as [->|].
  - injection E as ->.
    rewrite !block_in by (rewrite ?zlen_app; lia). f_equal. rewrite Z.mul_0_l, Z.add_0_l. apply slice_app_l; lia.
  - rewrite <- (IH (i - 1) r Fr E d k) by lia. pose proof (zlen_nonneg x). rewrite !block_in by (rewrite ?zlen_app; lia). f_equal. rewrite slice_app_shift by lia. f_equal; lia.
Qed.
Lemma mapres_rd {A} (g : Z -> res A) : forall l, mapres (fun i => let* p := rd l i in g p) (zseq 0 (zlen l)) = mapres g l.
Proof.
  intros l. assert (G : forall k, mapres (fun i => let* p := rd (slice 0 k l ++ slice k (zlen l) l) i in g p) (zseq k (zlen l)) = mapres g (slice k (zlen l) l) \/ ~ 0 <= k <= zlen l).
  { intros k. destruct (Z.le_gt_cases 0 k); [|right; lia]. destruct (Z.le_gt_cases k (zlen l)); [left|right; lia].
    remember (Z.to_nat (zlen l - k)) as m eqn:Em. revert k H H0 Em. induction m as [|m IH]; intros k Hk Hk' Em.
    - rewrite zseq_nil by lia. rewrite (slice_empty k) by lia. reflexivity.
    - rewrite zseq_cons by lia. destruct (nthZ_lt l k) as (x & Ex); [lia|]. rewrite <- slice_split, slice_full by lia.
      rewrite (slice_cons_nth k _ l x) by (auto; lia). cbn [mapres]. unfold rd at 1. rewrite Ex. cbn [bind].
      specialize (IH (k + 1) ltac:(lia) ltac:(lia) ltac:(lia)). rewrite <- slice_split, slice_full in IH by lia. rewrite IH. reflexivity. }
  destruct (G 0) as [E|E]; [|pose proof (zlen_nonneg l); lia]. rewrite slice_nil, slice_full in E. exact E.
Qed.
Lemma mapres_rows mem R (f : Z -> Z) : 0 <= R -> forall l, Forall (fun p => R = 0 \/ (0 <= f p /\ f p + R <= zlen mem)) l ->
  exists rows, mapres (fun p => bytes mem (f p) R) l = Ok rows /\ zlen rows = zlen l /\ Forall (fun r => zlen r = R) rows /\
  forall i p r, nthZ l i = Some p -> nthZ rows i = Some r -> forall d k, 0 <= d -> d + k <= R -> 0 < k -> block r d k = block mem (f p + d) k.
Proof.
  intros HR. induction 1 as [|p l Hp H IH].
  - exists []. repeat split; auto. intros i p r E. pose proof (nthZ_Some _ _ _ E). change (zlen (@nil Z)) with 0 in *. lia.
  - destruct IH as (rows & E & L & F & G). destruct (bytes_ok mem (f p) R) as (b & Eb & Lb & Gb); [lia|].
    exists (b :: rows). cbn [mapres]. rewrite Eb. cbn [bind]. rewrite E. split; [reflexivity|]. rewrite !zlen_cons, L. split; [reflexivity|]. split; [auto|].
    intros i q r E1 E2. rewrite nthZ_cons in E1. rewrite nthZ_cons in E2. destruct (i =? 0); [injection E1 as ->; injection E2 as ->; exact Gb|eapply G; eauto].
Qed.
(** [f p] is where the row of entry [p] begins *)
Lemma copy_rows mem R (f : Z -> Z) l : 0 <= R -> (forall p, In p l -> R = 0 \/ (0 <= f p /\ f p + R <= zlen mem)) ->
  exists out, (let* rows := mapres (fun i => let* p := rd l i in bytes mem (f p) R) (zseq 0 (zlen l)) in Ok (concat rows)) = Ok out /\ zlen out = zlen l * R /\
  forall i p, nthZ l i = Some p -> forall d k, 0 <= d -> d + k <= R -> 0 < k -> block out (i * R + d) k = block mem (f p + d) k.
Proof.
  intros HR H. rewrite mapres_rd. destruct (mapres_rows mem R f HR l) as (rows & E & L & F & G); [apply Forall_forall; exact H|]. rewrite E. cbn [bind].
  eexists; split; [reflexivity|]. split; [rewrite (concat_rows _ _ F), L; reflexivity|]. intros i p Ei d k Hd Hk Hk'.
  destruct (nthZ_lt rows i) as (r & Er); [rewrite L; eapply nthZ_Some; eauto|]. rewrite (concat_row R rows i r F Er) by auto. eapply G; eauto.
Qed.

(** ** Tables filled by two loops *)
Definition grid {A} (g : Z -> Z -> A) (n m : Z) : list A := concat (map (fun i => map (g i) (zseq 0 m)) (zseq 0 n)).
Lemma grid_snoc {A} (g : Z -> Z -> A) n m : 0 <= n -> grid g (n + 1) m = grid g n m ++ map (g n) (zseq 0 m).
Proof. intros. unfold grid. rewrite (zseq_snoc 0 n), map_app, concat_app by lia. cbn [map concat]. now rewrite app_nil_r. Qed.
Lemma zlen_grid {A} (g : Z -> Z -> A) n m : 0 <= n -> 0 <= m -> zlen (grid g n m) = n * m.
Proof.
  intros Hn Hm. pattern n. apply natlike_ind; [reflexivity| |exact Hn]. intros k Hk IH. replace (Z.succ k) with (k + 1) by lia.
  rewrite grid_snoc, zlen_app, IH, zlen_map, zlen_zseq by lia. lia.
Qed.
Lemma nthZ_grid {A} (g : Z -> Z -> A) n m i j : 0 <= i < n -> 0 <= j < m -> nthZ (grid g n m) (i * m + j) = Some (g i j).
Proof.
  intros Hi Hj. assert (Hn : 0 <= n) by lia. revert Hi. pattern n. apply natlike_ind; [lia| |exact Hn]. intros k Hk IH Hi. replace (Z.succ k) with (k + 1) by lia.
  rewrite grid_snoc by lia. rewrite nthZ_app, zlen_grid by lia. destruct (Z.ltb_spec (i * m + j) (k * m)).
  - apply IH. nia.
  - assert (i = k) by nia. subst i. rewrite nthZ_map. replace (k * m + j - k * m) with j by lia. rewrite nthZ_zseq by lia. reflexivity.
Qed.
Lemma nthZ_grid_inv {A} (g : Z -> Z -> A) n m k x : 0 <= n -> 0 <= m -> nthZ (grid g n m) k = Some x -> exists i j, 0 <= i < n /\ 0 <= j < m /\ k = i * m + j /\ x = g i j.
Proof.
  intros Hn Hm E. pose proof (nthZ_Some _ _ _ E) as B. rewrite zlen_grid in B by auto. assert (0 < m) by nia.
  pose proof (Z.div_mod k m ltac:(lia)) as D. pose proof (Z.mod_pos_bound k m ltac:(lia)) as M. assert (0 <= k / m < n) by (split; [apply Z.div_pos; lia|apply Z.div_lt_upper_bound; lia]).
  exists (k / m), (k mod m). split; [auto|]. split; [auto|]. split; [lia|]. rewrite D in E. rewrite (Z.mul_comm m) in E. rewrite nthZ_grid in E by auto. congruence.
Qed.
Lemma fill_grid {A} (body : Z -> Z -> list A -> res (list A)) (g : Z -> Z -> A) n m out :
  0 <= n -> 0 <= m -> zlen out = n * m ->
  (forall i j o, 0 <= i < n -> 0 <= j < m -> zlen o = n * m -> body i j o = wr o (i * m + j) (g i j)) ->
  for_ 0 n (fun i o => for_ 0 m (body i) o) out = Ok (grid g n m).
Proof.
  intros Hn Hm L H. destruct (for_fill2 body g n m out Hn Hm ltac:(lia)) as (rest & E & Lr); [intros; apply H; auto; lia|].
  rewrite E. rewrite (zlen_0 rest) by lia. now rewrite app_nil_r.
Qed.

(** ** Making contiguous *)
Lemma next_pos P m s : 0 <= m -> awkward_NumpyArray_contiguous_next (alloc (zlen P * m)) P (zlen P) m s = Ok (grid (fun i j => match nthZ P i with Some p => p + j * s | None => 0 end) (zlen P) m).
Proof.
  intros Hm. pose proof (zlen_nonneg P). unfold awkward_NumpyArray_contiguous_next. rewrite (fill_grid _ (fun i j => match nthZ P i with Some p => p + j * s | None => 0 end)); auto; [apply zlen_alloc; nia|].
  intros i j o Hi Hj _. unfold rd. destruct (nthZ_lt P i) as (p & ->); [lia|]. reflexivity.
Qed.
Lemma contiguous_next_step mem off isz n0 n1 sh s0 s1 st P : contiguous_next mem off isz (n0 :: n1 :: sh) (s0 :: s1 :: st) P =
  if nd_iscontiguous (mkND mem (n0 :: n1 :: sh) (s0 :: s1 :: st) off isz) then
    let* out := awkward_NumpyArray_contiguous_copy mem off (zlen P) s0 P in Ok (mkND out (n0 :: n1 :: sh) (s0 :: s1 :: st) 0 isz)
  else
    let* nextbytepos := awkward_NumpyArray_contiguous_next (alloc (zlen P * n1)) P (zlen P) n1 s1 in
    let* out := contiguous_next mem off isz (n0 * n1 :: sh) (s1 :: st) nextbytepos in
    match nd_strides out with t :: _ => Ok (mkND (nd_mem out) (n0 :: n1 :: sh) (n1 * t :: nd_strides out) (nd_offset out) isz) | [] => UB end.
Proof. reflexivity. Qed.
Section Next.
Variables (mem : list Z) (off isz : Z).
Hypothesis Hisz : 0 < isz.
Lemma contiguous_next_ok : forall st sh n0 s0 P, zlen sh = zlen st -> Forall (fun n => 0 <= n) sh ->
  (forall p idx, In p P -> inside sh idx -> block mem (off + p + dot idx st) isz <> None) ->
  exists out, contiguous_next mem off isz (n0 :: sh) (s0 :: st) P = Ok out /\ nd_shape out = n0 :: sh /\ nd_strides out = cst isz (n0 :: sh) /\ nd_offset out = 0 /\ nd_itemsize out = isz /\
  forall i p idx, nthZ P i = Some p -> inside sh idx -> element out (i :: idx) = block mem (off + p + dot idx st) isz.
Proof.
  induction st as [|s1 st IH]; intros sh n0 s0 P L F H.
  - destruct sh as [|? sh]; [|rewrite zlen_cons, zlen_nil in L; pose proof (zlen_nonneg sh); lia].
    destruct (copy_rows mem isz (fun p => off + p) P) as (out & E & Lo & G); [lia|intros p Hp; specialize (H p [] Hp ltac:(constructor)); apply block_Some in H; cbn [dot] in H; lia|].
    cbn [contiguous_next]. destruct (nd_iscontiguous _) eqn:C.
    + apply contig_cst in C; [|reflexivity]. cbn [nd_strides nd_shape nd_itemsize cst] in C. injection C as ->. cbn [prod fold_right]. rewrite Z.mul_1_r.
      unfold awkward_NumpyArray_contiguous_copy. rewrite E. cbn [bind]. eexists; split; [reflexivity|]. cbn [nd_shape nd_strides nd_offset nd_itemsize]. repeat split; auto; [cbn; rewrite Z.mul_1_r; reflexivity|].
      intros i p idx Ei I. apply inside_nil in I as ->. unfold element. cbn [nd_mem nd_offset nd_strides nd_itemsize dot]. rewrite <- (G i p Ei 0 isz) by lia. f_equal; lia.
    + unfold awkward_NumpyArray_contiguous_copy. rewrite E. cbn [bind]. eexists; split; [reflexivity|]. cbn [nd_shape nd_strides nd_offset nd_itemsize]. repeat split; auto; [cbn; rewrite Z.mul_1_r; reflexivity|].
      intros i p idx Ei I. apply inside_nil in I as ->. unfold element. cbn [nd_mem nd_offset nd_strides nd_itemsize dot]. rewrite <- (G i p Ei 0 isz) by lia. f_equal; lia.
  - destruct sh as [|n1 sh]; [rewrite zlen_cons, zlen_nil in L; pose proof (zlen_nonneg st); lia|]. rewrite !zlen_cons in L. inversion F as [|? ? F1 F2]; subst.
    rewrite contiguous_next_step. destruct (nd_iscontiguous _) eqn:C.
    + apply contig_cst in C; [|cbn [nd_shape nd_strides]; rewrite !zlen_cons; lia]. cbn [nd_strides nd_shape nd_itemsize cst] in C. injection C as -> -> ->.
      pose proof (prod_nonneg _ F) as PN. set (R := isz * prod (n1 :: sh)) in *.
      destruct (copy_rows mem R (fun p => off + p) P) as (out & E & Lo & G); [subst R; nia|intros p Hp; apply box_in; auto|].
      unfold awkward_NumpyArray_contiguous_copy. change (isz * (n1 * prod sh)) with R. rewrite E. cbn [bind]. eexists; split; [reflexivity|]. cbn [nd_shape nd_strides nd_offset nd_itemsize]. repeat split; auto.
      intros i p idx Ei I. unfold element. cbn [nd_mem nd_offset nd_strides nd_itemsize]. change (dot (i :: idx) (R :: isz * prod sh :: cst isz sh)) with (i * R + dot idx (cst isz (n1 :: sh))).
      pose proof (dot_cst isz _ _ Hisz I). rewrite Z.add_0_l, (G i p Ei) by lia. reflexivity.
    + rewrite next_pos by auto. cbn [bind]. set (P' := grid _ _ _). pose proof (zlen_nonneg P) as LP.
      assert (HP' : forall k x, nthZ P' k = Some x -> exists i j p, nthZ P i = Some p /\ 0 <= j < n1 /\ k = i * n1 + j /\ x = p + j * s1).
      { intros k x E. apply nthZ_grid_inv in E as (i & j & Hi & Hj & -> & ->); auto. destruct (nthZ_lt P i Hi) as (p & Ep). exists i, j, p. rewrite Ep. auto. }
      destruct (IH sh (n0 * n1) s1 P') as (out & E & Es & Et & Eo & Ei & G); [lia|exact F2| |].
      * intros x idx Hx I. apply In_nthZ in Hx as (k & Hx). destruct (HP' k x Hx) as (i & j & p & Ep & Hj & _ & ->).
        specialize (H p (j :: idx) (nthZ_In _ _ _ Ep) ltac:(apply inside_cons; auto)). cbn [dot] in H. replace (off + (p + j * s1) + dot idx st) with (off + p + (j * s1 + dot idx st)) by lia. exact H.
      * rewrite E. cbn [bind]. rewrite Et. cbn [cst]. eexists; split; [reflexivity|]. cbn [nd_shape nd_strides nd_offset nd_itemsize]. repeat split; auto; [cbn [cst]; rewrite prod_cons; f_equal; lia|].
        intros i p idx Ep I. apply inside_inv in I as (j & idx' & -> & Hj & I). pose proof (nthZ_Some _ _ _ Ep).
        assert (Ek : nthZ P' (i * n1 + j) = Some (p + j * s1)) by (subst P'; rewrite nthZ_grid by lia; rewrite Ep; reflexivity).
        specialize (G _ _ idx' Ek I). unfold element in *. cbn [nd_mem nd_offset nd_strides nd_itemsize]. rewrite Et, Eo, Ei in G. rewrite Eo. cbn [dot cst] in *. 
        replace (off + p + (j * s1 + dot idx' st)) with (off + (p + j * s1) + dot idx' st) by lia. rewrite <- G. f_equal; lia.
Qed.
End Next.

Lemma contiguous_ok a : wellformed a ->
  exists c, nd_contiguous a = Ok c /\ nd_shape c = nd_shape a /\ nd_strides c = cst (nd_itemsize a) (nd_shape a) /\ nd_itemsize c = nd_itemsize a /\
    forall idx, inside (nd_shape a) idx -> element c idx = element a idx.
Proof.
  intros (L & F & Hi & W). unfold nd_contiguous. destruct (nd_iscontiguous a) eqn:C.
  - exists a. apply contig_cst in C; auto.
  - destruct a as [mem shape strides off isz]; cbn [nd_mem nd_shape nd_strides nd_offset nd_itemsize] in *.
    destruct shape as [|n sh], strides as [|s st]; rewrite ?zlen_nil, ?zlen_cons in L; try (pose proof (zlen_nonneg st); lia); try (pose proof (zlen_nonneg sh); lia); [discriminate C|].
    inversion F as [|? ? Fn Fs]; subst. unfold awkward_NumpyArray_contiguous_init. rewrite (for_fill_all _ (fun i => i * s)) by (try (apply zlen_alloc; lia); reflexivity). cbn [bind].
    destruct (contiguous_next_ok mem off isz Hi st sh n s (map (fun i => i * s) (zseq 0 n))) as (out & E & Es & Et & Eo & Ei & G); auto; [lia| |].
    + intros p idx Hp I. apply in_map_iff in Hp as (i & <- & Hin). apply In_zseq in Hin. specialize (W (i :: idx) ltac:(apply inside_cons; auto)). unfold element in W. cbn [nd_mem nd_offset nd_strides nd_itemsize dot] in W.
      replace (off + i * s + dot idx st) with (off + (i * s + dot idx st)) by lia. exact W.
    + exists out. rewrite E. repeat split; auto. intros idx I. apply inside_inv in I as (i & idx' & -> & Hj & I). rewrite (G i (i * s) idx').
      * unfold element. cbn [nd_mem nd_offset nd_strides nd_itemsize dot]. f_equal; lia.
      * rewrite nthZ_map, nthZ_zseq by lia. cbn [option_map]. f_equal; lia.
      * exact I.
Qed.
Lemma contiguous_wellformed a c : wellformed a -> nd_contiguous a = Ok c -> wellformed c.
Proof.
  intros W E. destruct (contiguous_ok a W) as (c' & E' & Es & Et & Ei & G). assert (c' = c) by congruence. subst c'. destruct W as (L & F & Hi & W).
  unfold wellformed. rewrite Es, Et, Ei, cst_len. repeat split; auto. intros idx I. rewrite G by exact I. apply W, I.
Qed.
