(** The quicksort of the library: it ends, it only rearranges, it sorts, and it does not run out of levels. *)
From Coq Require Import Permutation.
From Verif Require Import BaseLemmas KCombinations KSort.

Lemma while_spec {S} (Inv : S -> Prop) (m : S -> Z) cond body : forall fuel s,
  Inv s -> 0 <= m s < Z.of_nat fuel ->
  (forall t, Inv t -> exists b, cond t = Ok b /\ (b = true -> exists t', body t = Ok t' /\ Inv t' /\ 0 <= m t' < m t)) ->
  exists s', while_ fuel cond body s = Ok s' /\ Inv s' /\ cond s' = Ok false.
Proof.
  intros fuel. induction fuel as [|fuel IH]; intros s Hs Hm H; [lia|].
  destruct (H s Hs) as [b [Hc Hb]]. cbn [while_]. rewrite Hc. cbn [bind]. destruct b.
  - destruct (Hb eq_refl) as [t' [Ht [Hi Hm']]]. rewrite Ht. cbn [bind]. apply IH; [exact Hi|lia|exact H].
  - exists s. split; [reflexivity|]. split; [exact Hs|exact Hc].
Qed.

(** ** arrays *)
Lemma get_nth l i : 0 <= i < zlen l -> nthZ l i = Some (get l i).
Proof. intros H. unfold get. destruct (nthZ_lt l i H) as [x Hx]. rewrite Hx. reflexivity. Qed.
Lemma rd_get l i : 0 <= i < zlen l -> rd l i = Ok (get l i).
Proof. intros H. apply rd_Ok. apply get_nth. exact H. Qed.
Definition put (l : list Z) (i x : Z) : list Z := upd l (Z.to_nat i) x.
Lemma zlen_put l i x : zlen (put l i x) = zlen l.
Proof. apply zlen_upd. Qed.
Lemma wr_put l i x : 0 <= i < zlen l -> wr l i x = Ok (put l i x).
Proof. apply wr_Ok. Qed.
Lemma get_put l i x j : 0 <= i < zlen l -> get (put l i x) j = if j =? i then x else get l j.
Proof.
  intros H. unfold get, put. rewrite nthZ_upd by lia. rewrite Z2Nat.id by lia. destruct (j =? i); reflexivity.
Qed.
Lemma put_nat l n x v : Z.of_nat n < zlen l ->
  (count_occ Z.eq_dec (upd l n x) v + (if Z.eq_dec (nth n l 0%Z) v then 1 else 0) = count_occ Z.eq_dec l v + (if Z.eq_dec x v then 1 else 0))%nat.
Proof.
  revert n. induction l as [|y l IH]; intros n H; [unfold zlen in H; cbn in H; lia|].
  destruct n as [|n]; cbn [upd nth count_occ].
  - destruct (Z.eq_dec x v), (Z.eq_dec y v); lia.
  - specialize (IH n). rewrite zlen_cons in H. specialize (IH ltac:(lia)). destruct (Z.eq_dec y v); lia.
Qed.
Lemma get_nat l i : 0 <= i < zlen l -> get l i = nth (Z.to_nat i) l 0.
Proof.
  intros H. unfold get, nthZ. destruct (i <? 0) eqn:E; [lia|].
  rewrite (nth_error_nth' l 0); [reflexivity|]. unfold zlen in H. lia.
Qed.
Lemma count_put l i x v : 0 <= i < zlen l ->
  (count_occ Z.eq_dec (put l i x) v + (if Z.eq_dec (get l i) v then 1 else 0) = count_occ Z.eq_dec l v + (if Z.eq_dec x v then 1 else 0))%nat.
Proof. intros H. unfold put. rewrite get_nat by lia. apply put_nat. lia. Qed.
(** moving an element into the hole moves the hole *)
Lemma perm_hole l i j p : 0 <= i < zlen l -> 0 <= j < zlen l -> i <> j -> Permutation (put l i p) (put (put l i (get l j)) j p).
Proof.
  intros Hi Hj Hne. apply (Permutation_count_occ Z.eq_dec). intros v.
  pose proof (count_put l i p v Hi) as H1. pose proof (count_put l i (get l j) v Hi) as H2.
  pose proof (count_put (put l i (get l j)) j p v) as H3. rewrite zlen_put in H3. specialize (H3 Hj).
  rewrite get_put in H3 by lia. replace (j =? i) with false in H3 by lia. lia.
Qed.
Lemma put_same l i : 0 <= i < zlen l -> put l i (get l i) = l.
Proof.
  intros H. apply list_eqZ; [apply zlen_put|]. intros k Hk. rewrite zlen_put in Hk. rewrite get_nth by (rewrite zlen_put; lia).
  rewrite get_put by lia. rewrite (get_nth l k Hk). destruct (k =? i) eqn:E; [|reflexivity]. replace k with i by lia. reflexivity.
Qed.
Lemma put_put l i x y : 0 <= i < zlen l -> put (put l i x) i y = put l i y.
Proof.
  intros H. apply list_eqZ; [rewrite !zlen_put; reflexivity|]. intros k Hk. rewrite !zlen_put in Hk.
  rewrite !get_nth by (rewrite ?zlen_put; lia). rewrite !get_put by (rewrite ?zlen_put; lia). destruct (k =? i); reflexivity.
Qed.

(** equal outside a range and rearranged as a whole means rearranged inside the range *)
Lemma perm_slice a a' b e : Permutation a a' -> 0 <= b <= e -> e <= zlen a ->
  (forall i, i < b \/ e <= i -> get a' i = get a i) -> Permutation (slice b e a) (slice b e a').
Proof.
  intros HP Hb He Ho. assert (Hlen : zlen a' = zlen a) by (unfold zlen; rewrite (Permutation_length HP); reflexivity).
  assert (E : forall x y, 0 <= x <= y -> y <= zlen a -> (forall i, x <= i < y -> i < b \/ e <= i) -> slice x y a' = slice x y a).
  { intros x y Hx Hy Hi. apply list_eqZ; [rewrite !zlen_slice by lia; reflexivity|]. intros k Hk. rewrite zlen_slice in Hk by lia.
    rewrite !nthZ_slice by lia. rewrite !get_nth by lia. rewrite Ho; [reflexivity|]. apply Hi. lia. }
  pose proof (slice_full a) as F1. pose proof (slice_full a') as F2. rewrite Hlen in F2.
  rewrite (slice_split 0 b (zlen a)) in F1, F2 by lia. rewrite (slice_split b e (zlen a)) in F1, F2 by lia.
  rewrite (E 0 b), (E e (zlen a)) in F2 by lia. rewrite <- F1 in HP. rewrite <- F2 in HP at 1.
  apply Permutation_app_inv_l in HP. apply Permutation_app_inv_r in HP. exact HP.
Qed.
Lemma perm_from a a' b e i : Permutation a a' -> 0 <= b <= e -> e <= zlen a ->
  (forall i, i < b \/ e <= i -> get a' i = get a i) -> b <= i < e -> exists j, b <= j < e /\ get a' i = get a j.
Proof.
  intros HP Hb He Ho Hi. pose proof (perm_slice a a' b e HP Hb He Ho) as HS.
  assert (Hlen : zlen a' = zlen a) by (unfold zlen; rewrite (Permutation_length HP); reflexivity).
  assert (Hin : In (get a' i) (slice b e a')).
  { apply (nthZ_In _ (i - b)). rewrite nthZ_slice by lia. replace (b + (i - b)) with i by lia. apply get_nth. lia. }
  apply (Permutation_in _ (Permutation_sym HS)) in Hin. apply In_nthZ in Hin. destruct Hin as [k Hk].
  pose proof (nthZ_Some _ _ _ Hk) as Hk'. rewrite zlen_slice in Hk' by lia. rewrite nthZ_slice in Hk by lia.
  exists (b + k). split; [lia|]. unfold get at 2. rewrite Hk. reflexivity.
Qed.

Section Quick.
Variable key : Z -> res Z.
Variable pred : Z -> Z -> bool.
Variable same : Z -> Z -> bool.
Variable base : Z.
Variable good : Z -> Prop.      (* the elements of the range *)
Variable K : Z -> Z.
Hypothesis Hbase : 0 <= base.
Hypothesis Hkey : forall x, good x -> key x = Ok (K x).
(** the predicate is a total order up to ties and [same] only holds for ties *)
Definition ordered : Prop :=
  (forall x y, good x -> good y -> pred (K x) (K y) = true \/ pred (K y) (K x) = true) /\
  (forall x y z, good x -> good y -> good z -> pred (K x) (K y) = true -> pred (K y) (K z) = true -> pred (K x) (K z) = true) /\
  (forall x y, good x -> good y -> same x y = true -> pred (K x) (K y) = true /\ pred (K y) (K x) = true).
Let at_ (a : list Z) (p : Z) : Z := get a (base + p).

Lemma scan_down_spec fuel a pivot low high n :
  0 <= low <= high -> high < n -> base + n <= zlen a -> high - low < Z.of_nat fuel ->
  (forall p, low <= p <= high -> good (at_ a p)) ->
  exists h, scan_down key pred base fuel a pivot low high = Ok h /\ low <= h <= high /\
    (forall p, h < p <= high -> pred pivot (K (at_ a p)) = true) /\ (low < h -> pred pivot (K (at_ a h)) = false).
Proof.
  intros Hl Hh Hn Hf Hg. unfold scan_down.
  destruct (while_spec (fun h => low <= h <= high /\ forall p, h < p <= high -> pred pivot (K (at_ a p)) = true) (fun h => h - low)
    (fun high => let* x := rd a (base + high) in let* x := key x in Ok (pred pivot x && (low <? high))) (fun high => Ok (high - 1)) fuel high) as [h [E [[Hh1 Hh2] Hc]]].
  - split; [lia|]. intros; lia.
  - lia.
  - intros t [Ht1 Ht2]. rewrite rd_get by lia. cbn [bind]. rewrite Hkey by (apply Hg; lia). cbn [bind].
    eexists. split; [reflexivity|]. intros Hb. exists (t - 1). split; [reflexivity|]. apply andb_true_iff in Hb. destruct Hb as [Hb1 Hb2].
    split; [|lia]. split; [lia|]. intros p Hp. destruct (Z.eq_dec p t) as [->|]; [exact Hb1|apply Ht2; lia].
  - exists h. split; [exact E|]. split; [lia|]. split; [exact Hh2|]. intros Hlt. rewrite rd_get in Hc by lia. cbn [bind] in Hc. rewrite Hkey in Hc by (apply Hg; lia). cbn [bind] in Hc.
    injection Hc as Hc. apply andb_false_iff in Hc. destruct Hc as [Hc|Hc]; [exact Hc|lia].
Qed.
Lemma scan_up_spec fuel a pivot low high n :
  0 <= low <= high -> high < n -> base + n <= zlen a -> high - low < Z.of_nat fuel ->
  (forall p, low <= p <= high -> good (at_ a p)) ->
  exists l, scan_up key pred base fuel a pivot low high = Ok l /\ low <= l <= high /\
    (forall p, low <= p < l -> pred (K (at_ a p)) pivot = true) /\ (l < high -> pred (K (at_ a l)) pivot = false).
Proof.
  intros Hl Hh Hn Hf Hg. unfold scan_up.
  destruct (while_spec (fun l => low <= l <= high /\ forall p, low <= p < l -> pred (K (at_ a p)) pivot = true) (fun l => high - l)
    (fun low => let* x := rd a (base + low) in let* x := key x in Ok (pred x pivot && (low <? high))) (fun low => Ok (low + 1)) fuel low) as [l [E [[Hh1 Hh2] Hc]]].
  - split; [lia|]. intros; lia.
  - lia.
  - intros t [Ht1 Ht2]. rewrite rd_get by lia. cbn [bind]. rewrite Hkey by (apply Hg; lia). cbn [bind].
    eexists. split; [reflexivity|]. intros Hb. exists (t + 1). split; [reflexivity|]. apply andb_true_iff in Hb. destruct Hb as [Hb1 Hb2].
    split; [|lia]. split; [lia|]. intros p Hp. destruct (Z.eq_dec p t) as [->|]; [exact Hb1|apply Ht2; lia].
  - exists l. split; [exact E|]. split; [lia|]. split; [exact Hh2|]. intros Hlt. rewrite rd_get in Hc by lia. cbn [bind] in Hc. rewrite Hkey in Hc by (apply Hg; lia). cbn [bind] in Hc.
    injection Hc as Hc. apply andb_false_iff in Hc. destruct Hc as [Hc|Hc]; [exact Hc|lia].
Qed.

(** the state of the partitioning loop: the hole is at [low], and putting [p] there gives a rearrangement of [a0] *)
Definition part_inv (a0 : list Z) (b e p : Z) (a : list Z) (hole low high : Z) : Prop :=
  b <= low <= high /\ high < e /\ Permutation a0 (put a (base + hole) p) /\
  (forall i, i < base + b \/ base + e <= i -> get a i = get a0 i) /\
  (forall q, b <= q < e -> good (at_ a q)) /\
  (ordered -> (forall q, b <= q < low -> pred (K (at_ a q)) (K p) = true) /\ (forall q, high < q < e -> pred (K p) (K (at_ a q)) = true)).

Lemma partition_spec fuel a0 b e p a :
  0 <= b -> base + e <= zlen a0 -> good p -> part_inv a0 b e p a b b (e - 1) -> e - b < Z.of_nat fuel ->
  exists a' l, partition key pred base fuel (K p) a b (e - 1) = Ok (a', l, l) /\ part_inv a0 b e p a' l l l.
Proof.
  intros Hb He Hp H0 Hf. unfold partition.
  match goal with |- context [while_ _ ?c ?bd _] =>
    destruct (while_spec (fun st : list Z * Z * Z => let '(a, low, high) := st in part_inv a0 b e p a low low high) (fun st : list Z * Z * Z => let '(_, low, high) := st in high - low) c bd fuel (a, b, e - 1)) as [[[a' l] h] [E [HI Hc]]]
  end.
  - exact H0.
  - destruct H0 as (? & ? & _). lia.
  - intros [[a1 low] high] HI. eexists. split; [reflexivity|]. intros Hlt. cbn beta iota in Hlt.
    assert (Hlt' : low < high) by lia. clear Hlt. cbn beta iota. destruct HI as (Hr & He' & HP & Ho & Hg & Hord).
    assert (Hlen : zlen a1 = zlen a0). { rewrite <- (zlen_put a1 (base + low) p). unfold zlen. rewrite (Permutation_length HP). reflexivity. }
    destruct (scan_down_spec fuel a1 (K p) low high e) as [h [Eh [Hh1 [Hh2 Hh3]]]]; [lia|lia|lia|lia|intros; apply Hg; lia|].
    rewrite Eh. cbn [bind]. destruct (low <? h) eqn:Elh.
    + assert (Elh' : low < h) by lia. rewrite rd_get by lia. cbn [bind]. rewrite wr_put by lia. cbn [bind].
      set (a2 := put a1 (base + low) (get a1 (base + h))).
      assert (Hlen2 : zlen a2 = zlen a0) by (unfold a2; rewrite zlen_put; exact Hlen).
      assert (Hat2 : forall q, at_ a2 q = if q =? low then at_ a1 h else at_ a1 q).
      { intros q. unfold at_, a2. rewrite get_put by lia. destruct (base + q =? base + low) eqn:E1, (q =? low) eqn:E2; try lia; reflexivity. }
      assert (Hg2 : forall q, b <= q < e -> good (at_ a2 q)).
      { intros q Hq. rewrite Hat2. destruct (q =? low); apply Hg; lia. }
      assert (HP2 : Permutation a0 (put a2 (base + h) p)).
      { eapply Permutation_trans; [exact HP|]. apply perm_hole; lia. }
      assert (Ho2 : forall i, i < base + b \/ base + e <= i -> get a2 i = get a0 i).
      { intros i Hi. unfold a2. rewrite get_put by lia. replace (i =? base + low) with false by lia. apply Ho. exact Hi. }
      assert (Hord2 : ordered -> (forall q, b <= q < low + 1 -> pred (K (at_ a2 q)) (K p) = true) /\ (forall q, h < q < e -> pred (K p) (K (at_ a2 q)) = true)).
      { intros HO. destruct (Hord HO) as [H1 H2]. split; intros q Hq; rewrite Hat2.
        - destruct (q =? low) eqn:Eq; [|apply H1; lia]. destruct HO as [HT _]. destruct (HT (at_ a1 h) p) as [H|H]; [apply Hg; lia|exact Hp|exact H|]. rewrite (Hh3 Elh') in H. discriminate H.
        - replace (q =? low) with false by lia. destruct (Z_le_gt_dec q high); [apply Hh2; lia|apply H2; lia]. }
      destruct (scan_up_spec fuel a2 (K p) (low + 1) h e) as [l [El [Hl1 [Hl2 Hl3]]]]; [lia|lia|lia|lia|intros; apply Hg2; lia|].
      rewrite El. cbn [bind]. destruct (l <? h) eqn:Elh2.
      * assert (Elh3 : l < h) by lia. rewrite rd_get by lia. cbn [bind]. rewrite wr_put by lia. cbn [bind]. eexists. split; [reflexivity|]. cbn beta iota. split; [|lia].
        set (a3 := put a2 (base + h) (get a2 (base + l))).
        assert (Hat3 : forall q, at_ a3 q = if q =? h then at_ a2 l else at_ a2 q).
        { intros q. unfold at_, a3. rewrite get_put by lia. destruct (base + q =? base + h) eqn:E1, (q =? h) eqn:E2; try lia; reflexivity. }
        split; [lia|]. split; [lia|]. split; [|split; [|split]].
        -- eapply Permutation_trans; [exact HP2|]. apply perm_hole; lia.
        -- intros i Hi. unfold a3. rewrite get_put by lia. replace (i =? base + h) with false by lia. apply Ho2. exact Hi.
        -- intros q Hq. rewrite Hat3. destruct (q =? h); apply Hg2; lia.
        -- intros HO. destruct (Hord2 HO) as [H1 H2]. split; intros q Hq; rewrite Hat3.
           ++ replace (q =? h) with false by lia. destruct (Z_lt_ge_dec q (low + 1)); [apply H1; lia|apply Hl2; lia].
           ++ destruct (q =? h) eqn:Eq; [|apply H2; lia]. destruct HO as [HT _]. destruct (HT (at_ a2 l) p) as [H|H]; [apply Hg2; lia|exact Hp| |exact H]. rewrite (Hl3 Elh3) in H. discriminate H.
      * assert (l = h) by lia. subst l. eexists. split; [reflexivity|]. cbn beta iota. split; [|lia]. split; [lia|]. split; [lia|]. split; [exact HP2|]. split; [exact Ho2|]. split; [exact Hg2|].
        intros HO. destruct (Hord2 HO) as [H1 H2]. split; [|exact H2]. intros q Hq. destruct (Z_lt_ge_dec q (low + 1)); [apply H1; lia|apply Hl2; lia].
    + assert (h = low) by lia. subst h. cbn [bind].
      destruct (scan_up_spec fuel a1 (K p) low low e) as [l [El [Hl1 [Hl2 Hl3]]]]; [lia|lia|lia|lia|intros; apply Hg; lia|].
      rewrite El. cbn [bind]. assert (l = low) by lia. subst l. rewrite Z.ltb_irrefl. eexists. split; [reflexivity|]. cbn beta iota. split; [|lia].
      split; [lia|]. split; [lia|]. split; [exact HP|]. split; [exact Ho|]. split; [exact Hg|]. intros HO. destruct (Hord HO) as [H1 H2]. split; [exact H1|].
      intros q Hq. destruct (Z_le_gt_dec q high); [apply Hh2; lia|apply H2; lia].
  - rewrite E. destruct HI as (Hr & HI). injection Hc as Hc. assert (h = l) by lia. subst h. exists a', l. split; [reflexivity|]. split; [lia|exact HI].
Qed.

Lemma skip_down_spec fuel a p b low :
  0 <= b <= low -> base + low < zlen a -> low - b < Z.of_nat fuel -> exists l, skip_down same base fuel a p b low = Ok l /\ b <= l <= low /\ forall q, l <= q < low -> same (at_ a q) p = true.
Proof.
  intros Hb Hl Hf. unfold skip_down.
  match goal with |- context [while_ _ ?c ?bd _] =>
    destruct (while_spec (fun l => b <= l <= low /\ forall q, l <= q < low -> same (at_ a q) p = true) (fun l => l - b) c bd fuel low) as [l [E [HI _]]]
  end.
  - split; [lia|intros; lia].
  - lia.
  - intros t [Ht1 Ht2]. destruct (b <? t) eqn:Eb.
    + rewrite rd_get by lia. cbn [bind]. eexists. split; [reflexivity|]. intros Hs. exists (t - 1). split; [reflexivity|]. split; [|lia]. split; [lia|].
      intros q Hq. destruct (Z.eq_dec q (t - 1)) as [->|]; [exact Hs|apply Ht2; lia].
    + eexists. split; [reflexivity|discriminate].
  - exists l. split; [exact E|]. exact HI.
Qed.
Lemma skip_up_spec fuel a p e mid :
  0 <= mid <= e -> base + e <= zlen a -> e - mid < Z.of_nat fuel -> exists m, skip_up same base fuel a p e mid = Ok m /\ mid <= m <= e /\ forall q, mid <= q < m -> same (at_ a q) p = true.
Proof.
  intros Hb Hl Hf. unfold skip_up.
  match goal with |- context [while_ _ ?c ?bd _] =>
    destruct (while_spec (fun l => mid <= l <= e /\ forall q, mid <= q < l -> same (at_ a q) p = true) (fun l => e - l) c bd fuel mid) as [l [E [HI _]]]
  end.
  - split; [lia|intros; lia].
  - lia.
  - intros t [Ht1 Ht2]. destruct (t <? e) eqn:Eb.
    + rewrite rd_get by lia. cbn [bind]. eexists. split; [reflexivity|]. intros Hs. exists (t + 1). split; [reflexivity|]. split; [|lia]. split; [lia|].
      intros q Hq. destruct (Z.eq_dec q t) as [->|]; [exact Hs|apply Ht2; lia].
    + eexists. split; [reflexivity|discriminate].
  - exists l. split; [exact E|]. exact HI.
Qed.

(** ** the stack of ranges that are not sorted yet, the top one first *)
Fixpoint stack_ok (stk : list (Z * Z)) (beg end_ : list Z) (i : Z) : Prop :=
  match stk with
  | [] => i = -1
  | (b, e) :: r => nthZ beg i = Some b /\ nthZ end_ i = Some e /\ stack_ok r beg end_ (i - 1)
  end.
Lemma stack_ok_len stk : forall beg end_ i, stack_ok stk beg end_ i -> i = zlen stk - 1.
Proof.
  induction stk as [|[b e] r IH]; intros beg end_ i H; cbn [stack_ok] in H; [rewrite H; reflexivity|].
  destruct H as (_ & _ & H). apply IH in H. rewrite zlen_cons. lia.
Qed.
Lemma stack_ok_ext stk : forall beg end_ beg' end_' i,
  (forall k, k <= i -> nthZ beg' k = nthZ beg k) -> (forall k, k <= i -> nthZ end_' k = nthZ end_ k) -> stack_ok stk beg end_ i -> stack_ok stk beg' end_' i.
Proof.
  induction stk as [|[b e] r IH]; intros beg end_ beg' end_' i H1 H2 H; cbn [stack_ok] in *; [exact H|].
  destruct H as (Hb & He & H). rewrite H1, H2 by lia. split; [exact Hb|]. split; [exact He|]. apply (IH beg end_); [intros; apply H1; lia|intros; apply H2; lia|exact H].
Qed.
Fixpoint work (stk : list (Z * Z)) : Z := match stk with [] => 0 | (b, e) :: r => 2 * (e - b) + 1 + work r end.
Fixpoint fits (n : Z) (stk : list (Z * Z)) : Prop :=
  match stk with [] => True | (b, e) :: r => 0 <= b <= e /\ e <= n /\ (e - b) * 2 ^ zlen r <= n /\ fits n r end.
Fixpoint apart (stk : list (Z * Z)) : Prop :=
  match stk with [] => True | (b, e) :: r => (forall b' e', In (b', e') r -> e <= b' \/ e' <= b \/ b = e \/ b' = e') /\ apart r end.
Lemma work_pos stk n : fits n stk -> 0 <= work stk.
Proof. induction stk as [|[b e] r IH]; cbn; [lia|]. intros (H1 & H2 & H3 & H4). specialize (IH H4). lia. Qed.

Lemma quick_round_spec fuel a0 n maxlevels i a beg end_ stk :
  n < 2 ^ maxlevels -> 1 <= maxlevels -> base + n <= zlen a0 -> n < Z.of_nat fuel ->
  0 <= i ->
  stack_ok stk beg end_ i -> fits n stk -> apart stk -> zlen beg = maxlevels -> zlen end_ = maxlevels ->
  Permutation a0 a -> (forall k, k < base \/ base + n <= k -> get a k = get a0 k) -> (forall q, 0 <= q < n -> good (at_ a q)) ->
  (ordered -> forall p q, 0 <= p < q -> q < n -> (exists b e, In (b, e) stk /\ b <= p /\ q < e) \/ pred (K (at_ a p)) (K (at_ a q)) = true) ->
  exists i' a' beg' end_' stk', quick_round key pred same base fuel maxlevels (i, a, beg, end_) = Ok (i', a', beg', end_') /\
    stack_ok stk' beg' end_' i' /\ fits n stk' /\ apart stk' /\ zlen beg' = maxlevels /\ zlen end_' = maxlevels /\
    Permutation a0 a' /\ (forall k, k < base \/ base + n <= k -> get a' k = get a0 k) /\ (forall q, 0 <= q < n -> good (at_ a' q)) /\
    (ordered -> forall p q, 0 <= p < q -> q < n -> (exists b e, In (b, e) stk' /\ b <= p /\ q < e) \/ pred (K (at_ a' p)) (K (at_ a' q)) = true) /\
    work stk' < work stk.
Proof.
  intros Hn Hml Hlen Hf Hi HS HF HA Hbl Hel HP Ho Hg Hord.
  destruct stk as [|[b e] r]; [cbn in HS; lia|].
  pose proof (stack_ok_len _ _ _ _ HS) as Hi'. rewrite zlen_cons in Hi'. pose proof (zlen_nonneg r) as Hzr.
  cbn [stack_ok] in HS. destruct HS as (Hb & He & HS).
  cbn [fits] in HF. destruct HF as (Hbe & Hen & Hsz & HF). cbn [apart] in HA. destruct HA as [HA1 HA].
  unfold quick_round. apply rd_Ok in Hb, He. rewrite Hb, He. cbn [bind].
  assert (Hlena : zlen a = zlen a0) by (unfold zlen; rewrite (Permutation_length HP); reflexivity).
  destruct (1 <? e - b) eqn:Ebig.
  - assert (Ebig' : 1 < e - b) by lia. clear Ebig.
    assert (Hmid : 1 <= Z.shiftr (e - b) 1 <= e - b - 1). { rewrite Z.shiftr_div_pow2 by lia. change (2 ^ 1) with 2. lia. }
    set (mid := b + Z.shiftr (e - b) 1) in *.
    rewrite (rd_get a (base + mid)) by lia. cbn [bind]. rewrite (Hkey (get a (base + mid))) by (apply (Hg mid); lia). cbn [bind].
    rewrite (rd_get a (base + b)) by lia. cbn [bind]. rewrite wr_put by lia. cbn [bind].
    assert (Elev : i < maxlevels - 1).
    { destruct (Z_lt_ge_dec i (maxlevels - 1)) as [Hlt|Hge]; [exact Hlt|exfalso]. 
      assert (2 ^ maxlevels <= 2 ^ (zlen r + 1)) by (apply Z.pow_le_mono_r; lia).
      rewrite Z.pow_add_r in H by lia. change (2 ^ 1) with 2 in H. nia. }
    replace (i =? maxlevels - 1) with false by lia.
    set (p := get a (base + mid)). set (a1 := put a (base + mid) (get a (base + b))).
    assert (Hpg : good p) by (apply (Hg mid); lia).
    assert (Hat1 : forall q, at_ a1 q = if q =? mid then at_ a b else at_ a q).
    { intros q. unfold at_, a1. rewrite get_put by lia. destruct (base + q =? base + mid) eqn:E1, (q =? mid) eqn:E2; try lia; reflexivity. }
    destruct (partition_spec fuel a b e p a1) as [a2 [l [E2 HI]]]; [lia|lia|exact Hpg| |lia|].
    { split; [lia|]. split; [lia|]. split; [|split; [|split]].
      - unfold a1. rewrite <- (put_same a (base + mid)) at 1 by lia. fold p. apply perm_hole; lia.
      - intros k Hk. unfold a1. rewrite get_put by lia. replace (k =? base + mid) with false by lia. reflexivity.
      - intros q Hq. rewrite Hat1. destruct (q =? mid); apply Hg; lia.
      - intros _. split; intros; lia. }
    rewrite E2. cbn [bind]. cbn beta iota. destruct HI as (Hl & Hle & HP2 & Ho2 & Hg2 & Hord2).
    assert (Hlen2 : zlen a2 = zlen a0). { rewrite <- (zlen_put a2 (base + l) p). unfold zlen. rewrite <- (Permutation_length HP2). exact Hlena. }
    rewrite wr_put by lia. cbn [bind]. set (a3 := put a2 (base + l) p) in *.
    assert (Hlen3 : zlen a3 = zlen a0) by (unfold a3; rewrite zlen_put; exact Hlen2).
    assert (Hat3 : forall q, at_ a3 q = if q =? l then p else at_ a2 q).
    { intros q. unfold at_, a3. rewrite get_put by lia. destruct (base + q =? base + l) eqn:E1, (q =? l) eqn:E3; try lia; reflexivity. }
    assert (Ho3 : forall k, k < base + b \/ base + e <= k -> get a3 k = get a k).
    { intros k Hk. unfold a3. rewrite get_put by lia. replace (k =? base + l) with false by lia. apply Ho2. exact Hk. }
    destruct (skip_down_spec fuel a3 p b l) as [l' [El' [Hl' Hs1]]]; [lia|lia|lia|]. rewrite El'. cbn [bind].
    destruct (skip_up_spec fuel a3 p e (l + 1)) as [m [Em [Hm Hs2]]]; [lia|lia|lia|]. rewrite Em. cbn [bind].
    assert (Hg3 : forall q, 0 <= q < n -> good (at_ a3 q)).
    { intros q Hq. rewrite Hat3. destruct (q =? l) eqn:Eq; [exact Hpg|]. destruct (Z_lt_ge_dec q b) as [Hqb|Hqb].
      - unfold at_. rewrite Ho2 by lia. apply (Hg q). lia.
      - destruct (Z_lt_ge_dec q e) as [Hqe|Hqe]; [apply Hg2; lia|]. unfold at_. rewrite Ho2 by lia. apply (Hg q). lia. }
    assert (HP3 : Permutation a0 a3) by (eapply Permutation_trans; [exact HP|exact HP2]).
    assert (Houter : forall k, k < base \/ base + n <= k -> get a3 k = get a0 k).
    { intros k Hk. rewrite Ho3 by lia. apply Ho. exact Hk. }
    assert (HX : ordered -> forall p0 q, 0 <= p0 < q -> q < n ->
      (exists b' e', ((b', e') = (b, l') \/ (b', e') = (m, e) \/ In (b', e') r) /\ b' <= p0 /\ q < e') \/ pred (K (at_ a3 p0)) (K (at_ a3 q)) = true).
    { intros HO p0 q Hpq Hqn. destruct (Hord2 HO) as [HL HR]. specialize (Hord HO).
      pose proof HO as [HT [HTr HSm]].
      assert (Hrefl : pred (K p) (K p) = true) by (destruct (HT p p Hpg Hpg); assumption).
      assert (HLp : forall q, b <= q < m -> pred (K (at_ a3 q)) (K p) = true).
      { intros x Hx. destruct (Z_lt_ge_dec x l) as [H1|H1]; [rewrite Hat3; replace (x =? l) with false by lia; apply HL; lia|].
        destruct (Z.eq_dec x l) as [->|H2]; [rewrite Hat3, Z.eqb_refl; exact Hrefl|]. apply (HSm (at_ a3 x) p); [apply Hg3; lia|exact Hpg|apply Hs2; lia]. }
      assert (HRp : forall q, l' <= q < e -> pred (K p) (K (at_ a3 q)) = true).
      { intros x Hx. destruct (Z_lt_ge_dec l x) as [H1|H1]; [rewrite Hat3; replace (x =? l) with false by lia; apply HR; lia|].
        destruct (Z.eq_dec x l) as [->|H2]; [rewrite Hat3, Z.eqb_refl; exact Hrefl|]. apply (HSm (at_ a3 x) p); [apply Hg3; lia|exact Hpg|apply Hs1; lia]. }
      assert (Hfrom : forall x, b <= x < e -> exists y, b <= y < e /\ at_ a3 x = at_ a y).
      { intros x Hx. destruct (perm_from a a3 (base + b) (base + e) (base + x)) as [j [Hj1 Hj2]]; [exact HP2|lia|lia|exact Ho3|lia|].
        exists (j - base). split; [lia|]. unfold at_. rewrite Hj2. f_equal. lia. }
      destruct (Z_lt_ge_dec p0 b) as [Hpb|Hpb]; [|destruct (Z_lt_ge_dec p0 e) as [Hpe|Hpe]].
      - (* p0 before the range *)
        assert (Hp0 : at_ a3 p0 = at_ a p0) by (unfold at_; apply Ho3; lia). rewrite Hp0.
        destruct (Z_lt_ge_dec q b) as [Hqb|Hqb]; [|destruct (Z_lt_ge_dec q e) as [Hqe|Hqe]].
        + assert (Hq0 : at_ a3 q = at_ a q) by (unfold at_; apply Ho3; lia). rewrite Hq0. destruct (Hord p0 q ltac:(lia) Hqn) as [(b' & e' & [Hin|Hin] & Hb' & He')|H]; [injection Hin as <- <-; lia| |right; exact H].
          left. exists b', e'. auto.
        + destruct (Hfrom q ltac:(lia)) as [y [Hy1 Hy2]]. rewrite Hy2. destruct (Hord p0 y ltac:(lia) ltac:(lia)) as [(b' & e' & [Hin|Hin] & Hb' & He')|H]; [injection Hin as <- <-; lia| |right; exact H].
          destruct (HA1 b' e' Hin) as [H|[H|[H|H]]]; lia.
        + assert (Hq0 : at_ a3 q = at_ a q) by (unfold at_; apply Ho3; lia). rewrite Hq0. destruct (Hord p0 q ltac:(lia) Hqn) as [(b' & e' & [Hin|Hin] & Hb' & He')|H]; [injection Hin as <- <-; lia| |right; exact H].
          left. exists b', e'. auto.
      - destruct (Z_lt_ge_dec q e) as [Hqe|Hqe].
        + (* both inside *)
          destruct (Z_lt_ge_dec q l') as [H1|H1]; [left; exists b, l'; split; [auto|lia]|].
          destruct (Z_lt_ge_dec p0 m) as [H2|H2]; [|left; exists m, e; split; [auto|lia]].
          right. apply (HTr (at_ a3 p0) p (at_ a3 q)); [apply Hg3; lia|exact Hpg|apply Hg3; lia|apply HLp; lia|apply HRp; lia].
        + assert (Hq0 : at_ a3 q = at_ a q) by (unfold at_; apply Ho3; lia). rewrite Hq0.
          destruct (Hfrom p0 ltac:(lia)) as [y [Hy1 Hy2]]. rewrite Hy2. destruct (Hord y q ltac:(lia) ltac:(lia)) as [(b' & e' & [Hin|Hin] & Hb' & He')|H]; [injection Hin as <- <-; lia| |right; exact H].
          destruct (HA1 b' e' Hin) as [H|[H|[H|H]]]; lia.
      - assert (Hp0 : at_ a3 p0 = at_ a p0) by (unfold at_; apply Ho3; lia). rewrite Hp0.
        assert (Hq0 : at_ a3 q = at_ a q) by (unfold at_; apply Ho3; lia). rewrite Hq0. destruct (Hord p0 q ltac:(lia) Hqn) as [(b' & e' & [Hin|Hin] & Hb' & He')|H]; [injection Hin as <- <-; lia| |right; exact H].
        left. exists b', e'. auto. }
    assert (HpowS : 2 ^ (zlen r + 1) = 2 * 2 ^ zlen r) by (rewrite Z.pow_add_r by lia; change (2 ^ 1) with 2; lia).
    assert (Hpow : 0 < 2 ^ zlen r) by (apply Z.pow_pos_nonneg; lia).
    assert (Hzi : i = zlen r) by lia.
    destruct (e - m <? l' - b) eqn:Ecmp.
    + destruct (wr_spec beg (i + 1) m ltac:(lia)) as [beg' [Eb1 [Hbl' Hbn]]]. rewrite Eb1. cbn [bind].
      destruct (wr_spec end_ (i + 1) e ltac:(lia)) as [end1 [Ee1 [Hel1 Hen1]]]. rewrite Ee1. cbn [bind].
      destruct (wr_spec end1 i l' ltac:(lia)) as [end2 [Ee2 [Hel2 Hen2]]]. rewrite Ee2. cbn [bind].
      exists (i + 1), a3, beg', end2, ((m, e) :: (b, l') :: r). split; [reflexivity|].
      split; [|split; [|split; [|split; [lia|split; [lia|split; [exact HP3|split; [exact Houter|split; [exact Hg3|split]]]]]]]].
      * cbn [stack_ok]. rewrite !Hbn, !Hen2, !Hen1. replace (i + 1 =? i + 1) with true by lia. replace (i + 1 =? i) with false by lia.
        replace (i + 1 - 1) with i by lia. replace (i =? i + 1) with false by lia. rewrite Z.eqb_refl. apply rd_Ok in Hb. split; [reflexivity|]. split; [reflexivity|]. split; [exact Hb|]. split; [reflexivity|].
        apply (stack_ok_ext r beg end_); [| |exact HS]; intros k Hk; rewrite ?Hbn, ?Hen2, ?Hen1.
        -- replace (k =? i + 1) with false by lia. reflexivity.
        -- replace (k =? i) with false by lia. replace (k =? i + 1) with false by lia. reflexivity.
      * cbn [fits]. rewrite zlen_cons. rewrite HpowS. split; [lia|]. split; [lia|]. split; [nia|]. split; [lia|]. split; [lia|]. split; [nia|exact HF].
      * cbn [apart]. split; [|split; [|exact HA]].
        -- intros b' e' [Hin|Hin]; [injection Hin as <- <-; lia|]. destruct (HA1 b' e' Hin) as [H|[H|[H|H]]]; lia.
        -- intros b' e' Hin. destruct (HA1 b' e' Hin) as [H|[H|[H|H]]]; lia.
      * intros HO p0 q Hpq Hqn. destruct (HX HO p0 q Hpq Hqn) as [(b' & e' & Hin & Hb' & He')|H]; [|right; exact H]. left. exists b', e'. split; [|lia]. cbn [In]. destruct Hin as [Hin|[Hin|Hin]]; [rewrite Hin; auto|rewrite Hin; auto|auto].
      * cbn [work]. lia.
    + destruct (wr_spec beg (i + 1) b ltac:(lia)) as [beg1 [Eb1 [Hbl1 Hbn1]]]. rewrite Eb1. cbn [bind].
      destruct (wr_spec end_ (i + 1) l' ltac:(lia)) as [end1 [Ee1 [Hel1 Hen1]]]. rewrite Ee1. cbn [bind].
      destruct (wr_spec beg1 i m ltac:(lia)) as [beg2 [Eb2 [Hbl2 Hbn2]]]. rewrite Eb2. cbn [bind].
      exists (i + 1), a3, beg2, end1, ((b, l') :: (m, e) :: r). split; [reflexivity|].
      split; [|split; [|split; [|split; [lia|split; [lia|split; [exact HP3|split; [exact Houter|split; [exact Hg3|split]]]]]]]].
      * cbn [stack_ok]. rewrite !Hbn2, !Hbn1, !Hen1. replace (i + 1 =? i + 1) with true by lia. replace (i + 1 =? i) with false by lia.
        replace (i + 1 - 1) with i by lia. replace (i =? i + 1) with false by lia. rewrite Z.eqb_refl. apply rd_Ok in He. split; [reflexivity|]. split; [reflexivity|]. split; [reflexivity|]. split; [exact He|].
        apply (stack_ok_ext r beg end_); [| |exact HS]; intros k Hk; rewrite ?Hbn2, ?Hbn1, ?Hen1.
        -- replace (k =? i) with false by lia. replace (k =? i + 1) with false by lia. reflexivity.
        -- replace (k =? i + 1) with false by lia. reflexivity.
      * cbn [fits]. rewrite zlen_cons. rewrite HpowS. split; [lia|]. split; [lia|]. split; [nia|]. split; [lia|]. split; [lia|]. split; [nia|exact HF].
      * cbn [apart]. split; [|split; [|exact HA]].
        -- intros b' e' [Hin|Hin]; [injection Hin as <- <-; lia|]. destruct (HA1 b' e' Hin) as [H|[H|[H|H]]]; lia.
        -- intros b' e' Hin. destruct (HA1 b' e' Hin) as [H|[H|[H|H]]]; lia.
      * intros HO p0 q Hpq Hqn. destruct (HX HO p0 q Hpq Hqn) as [(b' & e' & Hin & Hb' & He')|H]; [|right; exact H]. left. exists b', e'. split; [|lia]. cbn [In]. destruct Hin as [Hin|[Hin|Hin]]; [rewrite Hin; auto|rewrite Hin; auto|auto].
      * cbn [work]. lia.
  - exists (i - 1), a, beg, end_, r. split; [reflexivity|]. split; [exact HS|]. split; [exact HF|]. split; [exact HA|]. split; [exact Hbl|]. split; [exact Hel|]. split; [exact HP|]. split; [exact Ho|]. split; [exact Hg|]. split.
    + intros HO p q Hpq Hqn. destruct (Hord HO p q Hpq Hqn) as [(b' & e' & [Hin|Hin] & Hb' & He')|H]; [injection Hin as <- <-; lia|left; exists b', e'; auto|right; exact H].
    + cbn [work]. lia.
Qed.

Lemma quick_spec a n beg end_ maxlevels :
  0 <= n -> n < 2 ^ maxlevels -> 1 <= maxlevels -> base + n <= zlen a -> zlen beg = maxlevels -> zlen end_ = maxlevels ->
  (forall q, 0 <= q < n -> good (get a (base + q))) ->
  exists a' beg' end_', quick key pred same base a n beg end_ maxlevels = Ok (a', beg', end_') /\ zlen beg' = maxlevels /\ zlen end_' = maxlevels /\
    Permutation a a' /\ (forall k, k < base \/ base + n <= k -> get a' k = get a k) /\ (forall q, 0 <= q < n -> good (get a' (base + q))) /\
    (ordered -> forall p q, 0 <= p < q -> q < n -> pred (K (get a' (base + p))) (K (get a' (base + q))) = true).
Proof.
  intros Hn Hmax Hml Hlen Hbl Hel Hg. unfold quick.
  destruct (wr_spec beg 0 0 ltac:(lia)) as [beg1 [Eb [Hbl1 Hbn]]]. rewrite Eb. cbn [bind].
  destruct (wr_spec end_ 0 n ltac:(lia)) as [end1 [Ee [Hel1 Hen]]]. rewrite Ee. cbn [bind].
  set (fuel := Z.to_nat (2 * n + 3)).
  assert (G : forall f st stk, (let '(i, x, bg, en) := st in stack_ok stk bg en i /\ fits n stk /\ apart stk /\ zlen bg = maxlevels /\ zlen en = maxlevels /\
      Permutation a x /\ (forall k, k < base \/ base + n <= k -> get x k = get a k) /\ (forall q, 0 <= q < n -> good (at_ x q)) /\
      (ordered -> forall p q, 0 <= p < q -> q < n -> (exists b e, In (b, e) stk /\ b <= p /\ q < e) \/ pred (K (at_ x p)) (K (at_ x q)) = true)) ->
      work stk < Z.of_nat f ->
      exists st', while_ f (fun st => let '(i, _, _, _) := st in Ok (0 <=? i)) (quick_round key pred same base fuel maxlevels) st = Ok st' /\
        (let '(i, x, bg, en) := st' in zlen bg = maxlevels /\ zlen en = maxlevels /\
          Permutation a x /\ (forall k, k < base \/ base + n <= k -> get x k = get a k) /\ (forall q, 0 <= q < n -> good (at_ x q)) /\
          (ordered -> forall p q, 0 <= p < q -> q < n -> pred (K (at_ x p)) (K (at_ x q)) = true))).
  { induction f as [|f IH]; intros [[[i x] bg] en] stk (HS & HF & HA & H1 & H2 & H3 & H4 & H5 & H6) Hw.
    - pose proof (work_pos stk n HF). lia.
    - cbn [while_ bind]. destruct (0 <=? i) eqn:Ei.
      + destruct (quick_round_spec fuel a n maxlevels i x bg en stk) as (i' & a' & bg' & en' & stk' & E & HS' & HF' & HA' & Q1 & Q2 & Q3 & Q4 & Q5 & Q6 & Q7); try assumption; [unfold fuel; lia|lia|].
        rewrite E. cbn [bind]. apply (IH (i', a', bg', en') stk'); [|lia]. repeat (split; [assumption|]). assumption.
      + eexists. split; [reflexivity|]. cbn beta iota. repeat (split; [assumption|]). intros HO p q Hpq Hqn. destruct (H6 HO p q Hpq Hqn) as [(b & e & Hin & _)|H]; [|exact H].
        pose proof (stack_ok_len _ _ _ _ HS) as Hl. destruct stk as [|s r]; [destruct Hin|]. rewrite zlen_cons in Hl. pose proof (zlen_nonneg r). lia. }
  assert (H0 : stack_ok [(0, n)] beg1 end1 0 /\ fits n [(0, n)] /\ apart [(0, n)] /\ zlen beg1 = maxlevels /\ zlen end1 = maxlevels /\
      Permutation a a /\ (forall k, k < base \/ base + n <= k -> get a k = get a k) /\ (forall q, 0 <= q < n -> good (at_ a q)) /\
      (ordered -> forall p q, 0 <= p < q -> q < n -> (exists b e, In (b, e) [(0, n)] /\ b <= p /\ q < e) \/ pred (K (at_ a p)) (K (at_ a q)) = true)).
  { split; [cbn; rewrite Hbn, Hen; auto|]. split; [cbn [fits]; change (zlen (@nil (Z * Z))) with 0; change (2 ^ 0) with 1; repeat split; lia|]. split; [cbn [apart]; split; [intros ? ? Hin; destruct Hin|exact I]|]. split; [lia|]. split; [lia|]. split; [apply Permutation_refl|]. split; [reflexivity|]. split; [exact Hg|].
    intros _ p q Hpq Hqn. left. exists 0, n. split; [left; reflexivity|lia]. }
  destruct (G fuel (0, a, beg1, end1) [(0, n)] H0) as [[[[i x] bg] en] [E HR]]; [cbn [work]; unfold fuel; lia|].
  rewrite E. cbn [bind]. exists x, bg, en. split; [reflexivity|]. exact HR.
Qed.
End Quick.
