(** The list of combinations: its members, its order, its length. *)
From Verif Require Import Base BaseLemmas Content SpecArray SpecCombinations KCombinations OmapLemmas PNat.
From Coq Require Import Sorted.

Lemma combos_nil {A} m r : combos (S m) r (@nil A) = [].
Proof. reflexivity. Qed.
Lemma combos_cons {A} m r (x : A) t : combos (S m) r (x :: t) = map (cons x) (combos m r (if r then x :: t else t)) ++ combos (S m) r t.
Proof. reflexivity. Qed.
Lemma combos_zseq m r a b : a < b -> combos (S m) r (zseq a b) = map (cons a) (combos m r (zseq (if r then a else a + 1) b)) ++ combos (S m) r (zseq (a + 1) b).
Proof. intros H. rewrite (zseq_cons a b H). rewrite combos_cons. destruct r; [rewrite <- (zseq_cons a b H)|]; reflexivity. Qed.

Lemma combos_map {A B} (f : A -> B) n r l : combos n r (map f l) = map (map f) (combos n r l).
Proof.
  revert l. induction n as [|n IHn]; intros l; [reflexivity|]. induction l as [|x l IHl]; [reflexivity|].
  change (map f (x :: l)) with (f x :: map f l). rewrite !combos_cons, map_app, IHl. f_equal. rewrite map_map.
  replace (if r then f x :: map f l else map f l) with (map f (if r then x :: l else l)) by (destruct r; reflexivity).
  rewrite IHn, !map_map. reflexivity.
Qed.
Lemma combos_len {A} n r (l : list A) t : In t (combos n r l) -> length t = n.
Proof.
  revert l t. induction n as [|n IHn]; intros l t; [intros [<-|[]]; reflexivity|]. induction l as [|x l IHl]; [intros []|].
  rewrite combos_cons, in_app_iff, in_map_iff. intros [(t' & <- & H)|H]; [|auto]. apply IHn in H. simpl. congruence.
Qed.
Lemma combos_sub {A} n r (l : list A) t : In t (combos n r l) -> forall x, In x t -> In x l.
Proof.
  revert l t. induction n as [|n IHn]; intros l t; [intros [<-|[]] x []|]. induction l as [|x l IHl]; [intros []|].
  rewrite combos_cons, in_app_iff, in_map_iff. intros [(t' & <- & H)|H] y Hy.
  - destruct Hy as [->|Hy]; [left; reflexivity|]. specialize (IHn _ _ H y Hy). destruct r; [exact IHn|right; exact IHn].
  - right. eapply IHl; eassumption.
Qed.

(** the members: exactly the increasing tuples of positions *)
Lemma combos_members n r : forall a b t, In t (combos n r (zseq a b)) <-> length t = n /\ increasing r t /\ Forall (fun i => a <= i < b) t.
Proof.
  induction n as [|n IHn]; intros a b t.
  - simpl. split; [intros [<-|[]]; repeat split; constructor|]. intros (H & _). destruct t; [left; reflexivity|discriminate].
  - destruct (Z.le_gt_cases b a) as [Hab|Hab].
    { rewrite zseq_nil by lia. rewrite combos_nil. split; [intros []|]. intros (H & _ & HF). destruct t; [discriminate|]. inversion HF; lia. }
    remember (Z.to_nat (b - a)) as w eqn:Hw. revert a Hw Hab. induction w as [|w IHw]; intros a Hw Hab; [lia|].
    rewrite combos_zseq by exact Hab. rewrite in_app_iff, in_map_iff.
    assert (HR : In t (combos (S n) r (zseq (a + 1) b)) <-> length t = S n /\ increasing r t /\ Forall (fun i => a + 1 <= i < b) t).
    { destruct (Z.le_gt_cases b (a + 1)) as [Hb|Hb]; [|apply IHw; lia].
      rewrite zseq_nil by lia. rewrite combos_nil. split; [intros []|]. intros (H & _ & HF). destruct t; [discriminate|]. inversion HF; lia. }
    rewrite HR. clear HR IHw. split.
    + intros [(t' & <- & H)|(H1 & H2 & H3)].
      * apply IHn in H as (H1 & H2 & H3). split; [simpl; congruence|]. split.
        -- simpl. destruct t' as [|y t']; [exact I|]. split; [|exact H2]. inversion H3; subst. destruct r; lia.
        -- constructor; [lia|]. eapply Forall_impl; [|exact H3]. intros i. simpl. destruct r; lia.
      * repeat split; [assumption|assumption|]. eapply Forall_impl; [|exact H3]. simpl; intros; lia.
    + intros (H1 & H2 & H3). destruct t as [|x t]; [discriminate|]. inversion H3 as [|? ? Hx Ht]; subst.
      destruct (Z.eq_dec x a) as [->|Hne].
      * left. exists t. split; [reflexivity|]. apply IHn. split; [simpl in H1; congruence|]. 
        assert (HI : increasing r t) by (destruct t; [exact I|apply H2]). split; [exact HI|].
        clear H1 H3 Hx. revert a Hab Hw H2 Ht HI. induction t as [|y t IHt]; intros a Hab Hw H2 Ht HI; [constructor|].
        inversion Ht as [|? ? Hy Ht']; subst. destruct H2 as [H2 H2']. constructor; [destruct r; lia|].
        assert (G : increasing r (a :: t)). { destruct t as [|z t]; [exact I|]. destruct HI as [HI HI']. split; [destruct r; lia|exact HI']. }
        apply IHt; try assumption; try (destruct t; [exact I|apply HI]).
      * right. split; [exact H1|]. split; [exact H2|]. constructor; [lia|].
        assert (HX : a < x) by lia. clear H1 H3 Hne Hx. revert x H2 HX. induction t as [|y t IHt]; intros x H2 HX; [constructor|].
        inversion Ht as [|? ? Hy Ht']; subst. destruct H2 as [H2 H2']. assert (a < y) by (destruct r; lia). constructor; [lia|]. eapply IHt; eassumption.
Qed.

(** the order: lexicographic, hence each exactly once *)
Lemma lex_trans a b c : lex a b -> lex b c -> lex a c.
Proof. intros H; revert c; induction H as [x y a b H|x a b H IH]; intros c Hc; inversion Hc; subst; try (apply lex_head; lia). apply lex_tail. auto. Qed.
Lemma lex_irrefl a : ~ lex a a.
Proof. induction a as [|x a IH]; intros H; inversion H; subst; [lia|auto]. Qed.
Lemma sorted_app {A} (R : A -> A -> Prop) l1 l2 : StronglySorted R l1 -> StronglySorted R l2 -> (forall x y, In x l1 -> In y l2 -> R x y) -> StronglySorted R (l1 ++ l2).
Proof.
  induction 1 as [|x l1 H IH HF]; intros H2 HX; [exact H2|]. simpl. constructor; [apply IH; [exact H2|]; intros; apply HX; [right|]; assumption|].
  apply Forall_app. split; [exact HF|]. apply Forall_forall. intros y Hy. apply HX; [left; reflexivity|exact Hy].
Qed.
Lemma sorted_cons_map x l : StronglySorted lex l -> StronglySorted lex (map (cons x) l).
Proof.
  induction 1 as [|y l H IH HF]; simpl; constructor; [exact IH|]. rewrite Forall_forall in *. intros z Hz. apply in_map_iff in Hz as (z' & <- & Hz). apply lex_tail. auto.
Qed.
Lemma combos_sorted n r : forall a b, StronglySorted lex (combos n r (zseq a b)).
Proof.
  induction n as [|n IHn]; intros a b; [simpl; repeat constructor|].
  remember (Z.to_nat (b - a)) as w eqn:Hw. revert a Hw. induction w as [|w IHw]; intros a Hw.
  - rewrite zseq_nil by lia. constructor.
  - rewrite combos_zseq by lia. apply sorted_app; [apply sorted_cons_map, IHn|apply IHw; lia|].
    intros x y Hx Hy. apply in_map_iff in Hx as (x' & <- & Hx). apply combos_members in Hy as (H1 & _ & H3). destruct y as [|y0 y]; [discriminate|].
    inversion H3; subst. apply lex_head. lia.
Qed.

(** the number of combinations *)
Fixpoint binom (n k : nat) : Z :=
  match n, k with
  | _, O => 1
  | O, S _ => 0
  | S n, S k => binom n k + binom n (S k)
  end.
Lemma binom_0 n : binom n 0 = 1. Proof. destruct n; reflexivity. Qed.
Lemma binom_S n k : binom (S n) (S k) = binom n k + binom n (S k). Proof. reflexivity. Qed.
Lemma binom_gt n : forall k, (n < k)%nat -> binom n k = 0.
Proof. induction n as [|n IH]; intros [|k] H; try lia; [reflexivity|]. rewrite binom_S, !IH by lia. reflexivity. Qed.
Lemma binom_diag n : binom n n = 1.
Proof. induction n as [|n IH]; [reflexivity|]. rewrite binom_S, IH, binom_gt by lia. reflexivity. Qed.
Lemma binom_nonneg n : forall k, 0 <= binom n k.
Proof. induction n as [|n IH]; intros [|k]; simpl; try lia. pose proof (IH k). pose proof (IH (S k)). lia. Qed.
Lemma binom_step n : forall k, (Z.of_nat k + 1) * binom n (S k) = (Z.of_nat n - Z.of_nat k) * binom n k.
Proof.
  induction n as [|n IH]; intros k.
  - destruct k; simpl; lia.
  - destruct k as [|j].
    + rewrite binom_S, !binom_0. specialize (IH O). rewrite binom_0 in IH. lia.
    + rewrite !binom_S. pose proof (IH j). pose proof (IH (S j)). nia.
Qed.
Lemma binom_sym s : forall a b, (a + b)%nat = s -> binom s a = binom s b.
Proof.
  induction s as [|s IH]; intros a b H; [destruct a, b; try lia; reflexivity|].
  destruct a as [|a]; [assert (b = S s) as -> by lia; rewrite binom_0, binom_diag; reflexivity|].
  destruct b as [|b]; [assert (S a = S s) as -> by lia; rewrite binom_0, binom_diag; reflexivity|].
  rewrite !binom_S. rewrite (IH a (S b)), (IH (S a) b) by lia. lia.
Qed.

Lemma zlen_combos_false {A} n : forall l : list A, zlen (combos n false l) = binom (length l) n.
Proof.
  induction n as [|n IHn]; intros l; [rewrite binom_0; reflexivity|]. induction l as [|x l IHl]; [reflexivity|].
  rewrite combos_cons, zlen_app, zlen_map, IHn, IHl. reflexivity.
Qed.
Lemma zlen_combos_true {A} n : forall l : list A, zlen (combos (S n) true l) = binom (length l + n) (S n).
Proof.
  induction n as [|n IHn]; intros l.
  - induction l as [|x l IHl]; [reflexivity|]. rewrite combos_cons, zlen_app, zlen_map, IHl. cbn [length]. rewrite !Nat.add_0_r, binom_S, binom_0. reflexivity.
  - induction l as [|x l IHl]; [symmetry; apply binom_gt; simpl; lia|]. rewrite combos_cons, zlen_app, zlen_map, IHn, IHl. cbn [length Nat.add].
    rewrite <- !plus_n_Sm. rewrite (binom_S (S (length l + n))). f_equal.
Qed.

Lemma binom_loop size k : (1 <= k <= size)%nat ->
  for_ 2 (Z.of_nat k + 1) (fun j c => Ok (Z.quot (c * (Z.of_nat size - j + 1)) j)) (Z.of_nat size) = Ok (binom size k).
Proof.
  intros Hk.
  destruct (for_inv (fun j c => c = binom size (Z.to_nat (j - 1))) 2 (Z.of_nat k + 1) (fun j c => Ok (Z.quot (c * (Z.of_nat size - j + 1)) j)) (Z.of_nat size)) as (s & -> & Hs).
  - lia.
  - change (Z.to_nat (2 - 1)) with 1%nat. pose proof (binom_step size 0) as H. rewrite binom_0 in H. lia.
  - intros j t Hj ->. eexists. split; [reflexivity|]. pose proof (binom_step size (Z.to_nat (j - 1))) as H.
    replace (Z.of_nat (Z.to_nat (j - 1))) with (j - 1) in H by lia. replace (j - 1 + 1) with j in H by lia. replace (S (Z.to_nat (j - 1))) with (Z.to_nat j) in H by lia.
    replace (j + 1 - 1) with j by lia. rewrite (Z.mul_comm (binom _ _)). replace (Z.of_nat size - j + 1) with (Z.of_nat size - (j - 1)) by lia. rewrite <- H.
    rewrite Z.mul_comm, Z.quot_mul by lia. reflexivity.
  - rewrite Hs. replace (Z.of_nat k + 1 - 1) with (Z.of_nat k) by lia. rewrite Nat2Z.id. reflexivity.
Qed.
Lemma combinationslen_binom n r size : 1 <= n -> 0 <= size ->
  combinationslen n r size = binom (Z.to_nat (if r then size + (n - 1) else size)) (Z.to_nat n).
Proof.
  intros Hn Hs. unfold combinationslen. set (sz := if r then size + (n - 1) else size). assert (H0 : 0 <= sz) by (unfold sz; destruct r; lia). clearbody sz.
  destruct (Z.ltb_spec sz n); [rewrite binom_gt by lia; reflexivity|].
  destruct (Z.eqb_spec n sz) as [->|Hne]; [rewrite binom_diag; reflexivity|].
  set (k := if sz <? n * 2 then sz - n else n).
  assert (Hk : 1 <= k <= sz /\ binom (Z.to_nat sz) (Z.to_nat k) = binom (Z.to_nat sz) (Z.to_nat n)).
  { unfold k. destruct (Z.ltb_spec sz (n * 2)); (split; [lia|]); [|reflexivity]. apply binom_sym. lia. }
  destruct Hk as [Hk1 Hk2]. clearbody k. rewrite <- Hk2. rewrite <- (Z2Nat.id sz) by lia. replace k with (Z.of_nat (Z.to_nat k)) at 1 by lia.
  rewrite binom_loop by lia. rewrite Nat2Z.id. reflexivity.
Qed.
Lemma combinationslen_spec {A} n r (l : list A) : 1 <= n -> combinationslen n r (zlen l) = zlen (combos (Z.to_nat n) r l).
Proof.
  intros Hn. pose proof (zlen_nonneg l). rewrite combinationslen_binom by lia. destruct r.
  - replace (Z.to_nat n) with (S (Z.to_nat (n - 1))) by lia. rewrite zlen_combos_true. f_equal. unfold zlen in *. lia.
  - rewrite zlen_combos_false. f_equal. unfold zlen. lia.
Qed.

(** ** the kernels *)
Definition col (q : Z) (R : list (list Z)) : list Z := map (fun t => match nthZ t q with Some x => x | None => 0 end) R.
Definition inv (n total : Z) (R : list (list Z)) (s : comb_state) : Prop :=
  let '(tc, ti, fi) := s in
  zlen tc = n /\ n <= zlen ti /\ n <= zlen fi /\
  forall q, 0 <= q < n -> nthZ ti q = Some (zlen R) /\ exists r, nthZ tc q = Some (col q R ++ r) /\ zlen R + zlen r = total.

Lemma emit_tuple n total R tc ti fi : inv n total R (tc, ti, fi) -> zlen R < total -> 0 <= n ->
  exists tc' ti', for_ 0 n (fun k st =>
                 let '(tocarry, toindex) := st in
                 let* t := rd toindex k in
                 let* f := rd fi k in
                 let* row := rd tocarry k in
                 let* row := wr row t f in
                 let* tocarry := wr tocarry k row in
                 let* toindex := wr toindex k (t + 1) in
                 Ok (tocarry, toindex)) (tc, ti) = Ok (tc', ti') /\ inv n total (R ++ [slice 0 n fi]) (tc', ti', fi).
Proof.
  intros (H1 & H2 & H3 & H4) HR Hn.
  match goal with |- exists _ _, for_ 0 n ?b _ = _ /\ _ => set (body := b) end.
  destruct (for_inv (fun k st => let '(tc, ti) := st in zlen tc = n /\ n <= zlen ti /\
      forall q, 0 <= q < n -> nthZ ti q = Some (if q <? k then zlen R + 1 else zlen R) /\
         exists r, nthZ tc q = Some (col q (if q <? k then R ++ [slice 0 n fi] else R) ++ r) /\ (if q <? k then zlen R + 1 else zlen R) + zlen r = total)
    0 n body (tc, ti)) as ((tc' & ti') & E & A & B & C).
  - exact Hn.
  - repeat split; [assumption|assumption|..]; destruct (Z.ltb_spec q 0); try lia; apply H4; assumption.
  - intros k [tc0 ti0] Hk (A & B & C). unfold body. cbv beta iota. destruct (C k Hk) as (C1 & r & C2 & C3). rewrite Z.ltb_irrefl in *.
    apply rd_Ok in C1. rewrite C1. cbn [bind]. destruct (rd_in fi k) as (f & Ef & Nf); [lia|]. rewrite Ef. cbn [bind].
    apply rd_Ok in C2. rewrite C2. cbn [bind]. destruct (wr_push' (col k R) r f) as (r' & W & L); [lia|].
    assert (ZC : zlen (col k R) = zlen R) by apply zlen_map. rewrite ZC in W. rewrite W. cbn [bind].
    destruct (wr_spec tc0 k ((col k R ++ [f]) ++ r')) as (tc1 & -> & L1 & N1); [lia|]. cbn [bind].
    destruct (wr_spec ti0 k (zlen R + 1)) as (ti1 & -> & L2 & N2); [lia|]. cbn [bind]. eexists. split; [reflexivity|]. cbv beta iota.
    split; [lia|]. split; [lia|]. intros q Hq. rewrite N1, N2. destruct (Z.eqb_spec q k) as [->|Hne].
    + destruct (Z.ltb_spec k (k + 1)); [|lia]. split; [reflexivity|]. exists r'. split; [|lia]. f_equal. f_equal. unfold col. rewrite map_app. simpl. rewrite nthZ_slice, Z.add_0_l, Nf by lia. reflexivity.
    + destruct (C q Hq) as (D1 & D2). replace (q <? k + 1) with (q <? k) by lia. split; [exact D1|exact D2].
  - exists tc', ti'. split; [exact E|]. split; [exact A|]. split; [exact B|]. split; [exact H3|]. intros q Hq. specialize (C q Hq). replace (q <? n) with true in C by lia.
    rewrite zlen_app. change (zlen [slice 0 n fi]) with 1. exact C.
Qed.

Lemma fill_from n j fi x (repl : bool) : n <= zlen fi -> 0 <= j < n -> nthZ fi j = Some x ->
  exists fi', for_ (j + 1) n (fun k fi => let* x := rd fi j in wr fi k (if repl then x else x + (k - j))) fi = Ok fi' /\
    zlen fi' = zlen fi /\ (forall q, q <= j -> nthZ fi' q = nthZ fi q) /\ (forall q, j < q < n -> nthZ fi' q = Some (if repl then x else x + (q - j))).
Proof.
  intros HL Hj Hx.
  destruct (for_inv (fun k f => zlen f = zlen fi /\ (forall q, q <= j -> nthZ f q = nthZ fi q) /\ (forall q, j < q < k -> nthZ f q = Some (if repl then x else x + (q - j))))
     (j + 1) n (fun k fi => let* x := rd fi j in wr fi k (if repl then x else x + (k - j))) fi) as (f & E & A & B & C).
  - lia.
  - repeat split; intros q Hq; lia.
  - intros k f Hk (A & B & C). rewrite <- (B j) in Hx by lia. apply rd_Ok in Hx. rewrite Hx. cbn [bind].
    destruct (wr_spec f k (if repl then x else x + (k - j))) as (f' & W & L & N); [lia|]. exists f'. split; [exact W|]. split; [lia|]. split; intros q Hq; rewrite N.
    + destruct (Z.eqb_spec q k); [lia|]. apply B; lia.
    + destruct (Z.eqb_spec q k) as [->|Hne]; [reflexivity|]. apply C; lia.
  - exists f. auto.
Qed.

Lemma slice_eq_nth {A} (l l' : list A) j : zlen l = zlen l' -> 0 <= j <= zlen l -> (forall q, 0 <= q < j -> nthZ l q = nthZ l' q) -> slice 0 j l = slice 0 j l'.
Proof. intros HL Hj H. apply list_eqZ; rewrite !zlen_slice by lia; [reflexivity|]. intros i Hi. rewrite !nthZ_slice by lia. apply H. lia. Qed.

Lemma step_spec n total repl stop : forall level j R tc ti fi x pre, Z.of_nat level + j = n -> 0 <= j -> (1 <= level)%nat ->
  inv n total R (tc, ti, fi) -> nthZ fi j = Some x -> slice 0 j fi = pre ->
  zlen R + zlen (combos level repl (zseq x stop)) <= total ->
  exists tc' ti' fi', awkward_ListArray_combinations_step level j stop n repl (tc, ti, fi) = Ok (tc', ti', fi') /\
    inv n total (R ++ map (app pre) (combos level repl (zseq x stop))) (tc', ti', fi') /\ slice 0 j fi' = pre.
Proof.
  induction level as [|level IH]; intros j R tc ti fi x pre Hl Hj H1 HI Hx Hp HT; [lia|].
  cbn [awkward_ListArray_combinations_step]. apply rd_Ok in Hx. rewrite Hx. cbn [bind]. apply rd_Ok in Hx.
  match goal with |- exists _ _ _, while_ _ ?c ?b _ = _ /\ _ => set (cond := c); set (body := b) end.
  remember (Z.to_nat (stop - x)) as w eqn:Hw. revert R tc ti fi x HI Hx Hp HT Hw. induction w as [|w IHw]; intros R tc ti fi x HI Hx Hp HT Hw; cbn [while_].
  - unfold cond at 1. apply rd_Ok in Hx. rewrite Hx. cbn [bind]. destruct (Z.ltb_spec x stop); [lia|]. rewrite zseq_nil by lia. rewrite combos_nil. cbn [map]. rewrite app_nil_r. eauto 10.
  - unfold cond at 1. assert (Hx' := Hx). apply rd_Ok in Hx'. rewrite Hx'. cbn [bind]. destruct (Z.ltb_spec x stop) as [Hs|]; [|lia].
    rewrite combos_zseq in HT by exact Hs. rewrite zlen_app, zlen_map in HT.
    assert (HN : n <= zlen fi) by apply HI.
    assert (Hbody : exists tc' ti' fi', body (tc, ti, fi) = Ok (tc', ti', fi') /\
       inv n total (R ++ map (app pre) (map (cons x) (combos level repl (zseq (if repl then x else x + 1) stop)))) (tc', ti', fi') /\ slice 0 j fi' = pre /\ nthZ fi' j = Some (x + 1)).
    { unfold body. cbv beta iota. destruct (fill_from n j fi x repl HN ltac:(lia) Hx) as (f1 & E1 & L1 & N1 & N2). rewrite E1. cbn [bind]. clear E1.
      assert (HI1 : inv n total R (tc, ti, f1)). { destruct HI as (A & B & C & D). repeat split; try assumption; try lia; apply D; assumption. }
      assert (Hf1 : slice 0 (j + 1) f1 = pre ++ [x]).
      { rewrite (slice_snoc_nth 0 j f1 x); [|lia|]. 2: { rewrite N1 by lia. exact Hx. } f_equal. rewrite <- Hp. apply slice_eq_nth; [lia|lia|]. intros q Hq. apply N1. lia. }
      assert (Hrec : exists tc2 ti2 f2, (if j + 1 =? n then let* st := for_ 0 n (fun k st =>
                 let '(tocarry, toindex) := st in
                 let* t := rd toindex k in
                 let* f := rd f1 k in
                 let* row := rd tocarry k in
                 let* row := wr row t f in
                 let* tocarry := wr tocarry k row in
                 let* toindex := wr toindex k (t + 1) in
                 Ok (tocarry, toindex)) (tc, ti) in let '(tocarry, toindex) := st in Ok (tocarry, toindex, f1)
                else awkward_ListArray_combinations_step level (j + 1) stop n repl (tc, ti, f1)) = Ok (tc2, ti2, f2) /\
          inv n total (R ++ map (app pre) (map (cons x) (combos level repl (zseq (if repl then x else x + 1) stop)))) (tc2, ti2, f2) /\ slice 0 (j + 1) f2 = pre ++ [x]).
      { destruct (Z.eqb_spec (j + 1) n) as [Hjn|Hjn].
        - assert (level = O) as -> by lia. change (zlen (combos 0 repl _)) with 1 in HT. pose proof (zlen_nonneg (combos 1 repl (zseq (x + 1) stop))).
          destruct (emit_tuple n total R tc ti f1 HI1) as (tc2 & ti2 & E & HI2); [lia|lia|]. rewrite E. cbn [bind]. exists tc2, ti2, f1. split; [reflexivity|]. split; [|exact Hf1].
          simpl combos. cbn [map app]. rewrite <- Hf1. rewrite Hjn. exact HI2.
        - pose proof (zlen_nonneg (combos (S level) repl (zseq (x + 1) stop))).
          destruct (IH (j + 1) R tc ti f1 (if repl then x else x + 1) (pre ++ [x])) as (tc2 & ti2 & f2 & E & HI2 & HS2); try lia; try assumption.
          { rewrite N2 by lia. destruct repl; f_equal; lia. }
          exists tc2, ti2, f2. split; [exact E|]. split; [|exact HS2].
          rewrite map_map. replace (map (fun y => pre ++ x :: y) _) with (map (app (pre ++ [x])) (combos level repl (zseq (if repl then x else x + 1) stop))); [exact HI2|].
          apply map_ext. intros y. rewrite <- app_assoc. reflexivity. }
      destruct Hrec as (tc2 & ti2 & f2 & -> & HI2 & HS2). cbn [bind]. cbv beta iota.
      assert (L2 : n <= zlen f2) by apply HI2.
      assert (N3 : nthZ f2 j = Some x).
      { pose proof (f_equal (fun l => nthZ l j) HS2) as HH. cbv beta in HH. rewrite nthZ_slice in HH by lia. rewrite Z.add_0_l in HH. rewrite HH.
        assert (zlen pre = j) by (rewrite <- Hp; rewrite zlen_slice; lia). rewrite nthZ_app. destruct (Z.ltb_spec j (zlen pre)); [lia|]. replace (j - zlen pre) with 0 by lia. reflexivity. }
      apply rd_Ok in N3. rewrite N3. cbn [bind]. destruct (wr_spec f2 j (x + 1)) as (f3 & -> & L3 & N4); [lia|]. cbn [bind]. exists tc2, ti2, f3. split; [reflexivity|].
      split; [|split].
      - destruct HI2 as (A & B & C & D). repeat split; try assumption; try lia; apply D; assumption.
      - pose proof (slice_split 0 j (j + 1) f2 ltac:(lia) ltac:(lia)) as HS3. rewrite HS2 in HS3. apply rd_Ok in N3. rewrite (slice_cons_nth j (j + 1) f2 x) in HS3 by (try lia; exact N3).
        rewrite slice_nil in HS3. apply app_inj_tail in HS3 as [HS3 _]. rewrite HS3. apply slice_eq_nth; [lia|lia|]. intros q Hq. rewrite N4. destruct (Z.eqb_spec q j); [lia|reflexivity].
      - rewrite N4, Z.eqb_refl. reflexivity. }
    destruct Hbody as (tc2 & ti2 & f2 & -> & HI2 & HS2 & N2). cbn [bind].
    destruct (IHw _ _ _ _ (x + 1) HI2 N2 HS2) as (tc3 & ti3 & f3 & E3 & HI3 & HS3).
    + rewrite zlen_app, !zlen_map. lia.
    + lia.
    + exists tc3, ti3, f3. split; [exact E3|]. split; [|exact HS3]. rewrite combos_zseq by exact Hs. rewrite map_app, app_assoc. exact HI3.
Qed.
