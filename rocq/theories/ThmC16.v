(** C16: ak.argmin and ak.argmax give the position, in its own list, of the first smallest or largest element that is not missing;
    a list without such elements gives a missing value (or -1 if mask_identity is off). *)
From Verif Require Import Base BaseLemmas Content KCore Core Convert Option Axis KReduce Reduce SpecArray SpecForm SpecMerge SpecReduce PForm PReduceTop PReduceN3 ThmC15.
Local Open Scope string_scope. Local Open Scope list_scope. Local Open Scope Z_scope.

(** Along the innermost axis, for arrays of any depth, whose list offsets start at zero.
    Missing: offsets that do not start at zero, indexed arrays inside option types, and the other axes except for [C16_outer_axis_partial]; see the refutations below. *)
Theorem C16_positions_partial :
  forall F is64 rr rc narrow refeq mfuel r mask c vs d axis kd,
  returns_positions r = true -> den c = Some vs -> union_free (form_of c) = true -> levels (form_of c) = Some d -> axis = -1 \/ axis = d - 1 ->
  top_records (form_of c) = true -> prepared true true c ->
  exists n, forall fuel, (n <= fuel)%nat ->
  exists it, reduce F is64 rr rc narrow refeq mfuel r mask fuel c axis kd = Ok it /\ item_den it = Some (red F r mask kd 1 (form_of c) (enumerate vs)).
Proof.
  intros F is64 rr rc narrow refeq mfuel r mask c vs d axis kd Hr Hd Hu Hlv Hax Htop HP. exists (need c). intros fuel Hf.
  apply (reduce_innermost F is64 rr rc narrow refeq mfuel r mask true c vs d axis kd); try assumption; rewrite Hr; [reflexivity|exact HP].
Qed.
Print Assumptions C16_positions_partial.

(** Along the outer axis (0 or -2) of lists of numbers and missing numbers, whatever the offsets: for every position, which list has the first smallest
    or largest element there.  Missing: missing lists (refuted below), indexed lists, records, and arrays with more levels. *)
Theorem C16_outer_axis_partial :
  forall F is64 rr rc narrow refeq mfuel r mask c vs axis kd,
  returns_positions r = true -> den c = Some vs -> union_free (form_of c) = true -> levels (form_of c) = Some 2 -> plain_lists c = true -> axis = 0 \/ axis = -2 ->
  exists n, forall fuel, (n <= fuel)%nat ->
  exists it, reduce F is64 rr rc narrow refeq mfuel r mask fuel c axis kd = Ok it /\ item_den it = Some (red F r mask kd 2 (form_of c) (enumerate vs)).
Proof.
  intros F is64 rr rc narrow refeq mfuel r mask c vs axis kd Hr Hd Hu Hlv HP Hax. exists (need c). intros fuel Hf.
  apply (reduce_outer F is64 rr rc narrow refeq mfuel r mask c vs axis kd); try assumption. intros _. exact HP.
Qed.
Print Assumptions C16_outer_axis_partial.
(** [[5, 6], [], [None, 2, 7], [1]], sliced *)
Definition C16_two : content := ListOffset [1; 3; 3; 6; 7] (IndexedOption [9; 4; 5; -1; 1; 6; 0] (Numpy DInt [1; 2; 3; 4; 5; 6; 7; 8; 9; 9])).
Example C16_ex_two : den C16_two = Some [VList [VInt 5; VInt 6]; VList []; VList [VNone; VInt 2; VInt 7]; VList [VInt 1]] /\ plain_lists C16_two = true /\ levels (form_of C16_two) = Some 2 /\
  run Argmin false C16_two 0 false = Some (VList [VInt 3; VInt 2; VInt 2]) /\ run Argmax false C16_two (-2) true = Some (VList [VList [VInt 0; VInt 0; VInt 2]]).
Proof. repeat split; vm_compute; reflexivity. Qed.

(** the position is that of the first smallest element: [better x y] is "x is better than y" *)
Definition first_best (better : Z -> Z -> Prop) (l : list (option Z)) (p : Z) : Prop :=
  (p = -1 /\ forall j x, nthZ l j <> Some (Some x)) \/
  (exists m, nthZ l p = Some (Some m) /\ forall j x, nthZ l j = Some (Some x) -> ~ better x m /\ (j < p -> better m x)).
Definition optval (x : option Z) : value := match x with Some z => VInt z | None => VNone end.

Lemma in_enumerate l (m : member) : In m (filter SpecReduce.present (enumerate (map optval l))) <-> exists z, snd m = VInt z /\ nthZ l (fst m) = Some (Some z).
Proof.
  assert (G : forall l a m, In m (filter SpecReduce.present (combine (zseq a (a + zlen l)) (map optval l))) <-> exists z, snd m = VInt z /\ nthZ l (fst m - a) = Some (Some z)).
  { clear. induction l as [|x l IH]; intros a m.
    - cbn [map]. rewrite combine_nil. split; [intros []|]. intros (z & _ & H). rewrite nthZ_nil in H. discriminate.
    - rewrite zlen_cons. pose proof (zlen_nonneg l). rewrite zseq_cons by lia. replace (a + (zlen l + 1)) with (a + 1 + zlen l) by lia. cbn [map combine filter].
      assert (E : In m (filter SpecReduce.present (combine (zseq (a + 1) (a + 1 + zlen l)) (map optval l))) <-> exists z, snd m = VInt z /\ fst m - a <> 0 /\ nthZ (x :: l) (fst m - a) = Some (Some z)).
      { rewrite IH. split; intros (z & A & B); exists z; (split; [exact A|]).
        - pose proof (nthZ_Some _ _ _ B). split; [lia|]. rewrite nthZ_cons. destruct (Z.eqb_spec (fst m - a) 0); [lia|]. replace (fst m - a - 1) with (fst m - (a + 1)) by lia. exact B.
        - destruct B as [B1 B2]. rewrite nthZ_cons in B2. destruct (Z.eqb_spec (fst m - a) 0); [lia|]. replace (fst m - (a + 1)) with (fst m - a - 1) by lia. exact B2. }
      unfold SpecReduce.present at 1. cbn [snd]. destruct x as [z|]; cbn [optval].
      + cbn [In]. rewrite E. split.
        * intros [<-|(z' & A & _ & B)]; [exists z; split; [reflexivity|]; cbn [fst]; rewrite Z.sub_diag; reflexivity|exists z'; split; assumption].
        * intros (z' & A & B). destruct (Z.eq_dec (fst m - a) 0) as [E0|E0]; [left|right; exists z'; repeat split; assumption]. rewrite E0 in B. injection B as <-. destruct m as [i v]. cbn [fst snd] in *. subst v. f_equal. lia.
      + rewrite E. split; [intros (z' & A & _ & B); exists z'; split; assumption|]. intros (z' & A & B). exists z'. split; [exact A|]. split; [|exact B]. intros E0. rewrite E0 in B. discriminate. }
  unfold enumerate. replace (zlen (map optval l)) with (0 + zlen l) by (rewrite zlen_map; lia). rewrite G, Z.sub_0_r. reflexivity.
Qed.
Lemma sorted_enumerate l pre (m : member) post : filter SpecReduce.present (enumerate (map optval l)) = pre ++ m :: post ->
  (forall x, In x pre -> fst x < fst m) /\ (forall x, In x post -> fst m < fst x).
Proof.
  assert (G : forall l a, (forall x, In x (filter SpecReduce.present (combine (zseq a (a + zlen l)) (map optval l))) -> a <= fst x) /\
    forall pre (m : member) post, filter SpecReduce.present (combine (zseq a (a + zlen l)) (map optval l)) = pre ++ m :: post -> (forall x, In x pre -> fst x < fst m) /\ (forall x, In x post -> fst m < fst x)).
  { clear. induction l as [|x l IH]; intros a.
    - cbn [map]. rewrite combine_nil. split; [intros x []|]. intros pre m post H. destruct pre; discriminate.
    - rewrite zlen_cons. pose proof (zlen_nonneg l). rewrite zseq_cons by lia. replace (a + (zlen l + 1)) with (a + 1 + zlen l) by lia. cbn [map combine filter].
      destruct (IH (a + 1)) as [A B]. destruct (SpecReduce.present (a, optval x)).
      + split.
        * intros y [<-|Hy]; [cbn; lia|]. specialize (A y Hy). lia.
        * intros pre m post E. destruct pre as [|p pre]; cbn [app] in E; injection E as <- E.
          -- split; [intros y []|]. intros y Hy. rewrite <- E in Hy. specialize (A y Hy). cbn [fst]. lia.
          -- destruct (B pre m post E) as [B1 B2]. split; [|exact B2]. intros y [<-|Hy]; [|apply B1; exact Hy]. assert (Hm : In m (filter SpecReduce.present (combine (zseq (a + 1) (a + 1 + zlen l)) (map optval l)))) by (rewrite E; apply in_elt). specialize (A m Hm). cbn [fst]. lia.
      + split; [intros y Hy; specialize (A y Hy); lia|exact B]. }
  intros H. unfold enumerate in H. replace (zlen (map optval l)) with (0 + zlen l) in H by (rewrite zlen_map; lia). exact (proj2 (G l 0) pre m post H).
Qed.
Lemma winner_none beats (ms : list member) : winner beats ms = None -> ms = [].
Proof.
  unfold winner. destruct ms as [|m ms]; [reflexivity|]. cbn [fold_left]. intros H. exfalso. revert m H. induction ms as [|y ms IH]; intros m H; [discriminate|]. cbn [fold_left] in H. destruct (beats (snd y) (snd m)); eapply IH; exact H.
Qed.
Lemma first_of (better : Z -> Z -> Prop) (beats : value -> value -> bool) l :
  (forall a b, beats (VInt a) (VInt b) = true <-> better a b) -> (forall a b c, better a b -> better b c -> better a c) -> (forall a, ~ better a a) ->
  (forall a b c, ~ better a b -> ~ better b c -> ~ better a c) ->
  exists p, position (winner beats (filter SpecReduce.present (enumerate (map optval l)))) = VInt p /\ first_best better l p.
Proof.
  intros HB HT HI HN. set (ms := filter SpecReduce.present (enumerate (map optval l))).
  assert (HNB : forall a b, beats (VInt a) (VInt b) = false <-> ~ better a b) by (intros a b; rewrite <- HB; destruct (beats (VInt a) (VInt b)); split; congruence).
  destruct (winner beats ms) as [m|] eqn:E.
  - eexists. split; [reflexivity|]. right.
    destruct (winner_first (fun v => exists z, v = VInt z) beats ms) with (m := m) as (pre & post & A & B & C); try assumption.
    + apply Forall_forall. intros x Hx. apply in_enumerate in Hx as (z & Hz & _). eauto.
    + intros x y z (a & ->) (b & ->) (c & ->). rewrite !HB. apply HT.
    + intros x y z (a & ->) (b & ->) (c & ->). rewrite !HNB. apply HN.
    + assert (Hm : In m ms) by (rewrite A; apply in_elt). pose proof (proj1 (in_enumerate l m) Hm) as (z & Hz & Hl). exists z. split; [exact Hl|]. intros j x Hj.
      assert (Hjx : In (j, VInt x) ms) by (apply in_enumerate; exists x; split; [reflexivity|exact Hj]). destruct (sorted_enumerate l pre m post A) as [S1 S2]. rewrite A in Hjx. apply in_app_iff in Hjx as [Hx|[Hx|Hx]].
      * specialize (B _ Hx). rewrite Hz in B. cbn [snd] in B. apply HB in B. split; [|intros _; exact B]. intros H2. pose proof (HT _ _ _ B H2) as H3. exact (HI _ H3).
      * subst m. cbn [fst snd] in *. injection Hz as ->. split; [apply HI|lia].
      * specialize (C _ Hx). rewrite Hz in C. cbn [snd] in C. apply HNB in C. split; [exact C|]. specialize (S2 _ Hx). cbn [fst] in S2. lia.
  - apply winner_none in E. exists (-1). split; [reflexivity|]. left. split; [reflexivity|]. intros j x Hj. assert (Hjx : In (j, VInt x) ms) by (apply in_enumerate; exists x; split; [reflexivity|exact Hj]). rewrite E in Hjx. destruct Hjx.
Qed.

(** ak.argmin and ak.argmax of one list of integers and missing values, without and with a type that allows missing values *)
Theorem C16_first_smallest : forall F l mask, exists p,
  red F Argmin false false 1 (FOption (FNum DInt)) (enumerate (map optval l)) = VInt p /\ first_best (fun x y => x < y) l p /\
  (mask = true -> p = -1 -> red F Argmin mask false 1 (FOption (FNum DInt)) (enumerate (map optval l)) = VNone).
Proof.
  intros F l mask. destruct (first_of (fun x y => x < y) (less F) l) as (p & E & B).
  - intros a b. cbn [less]. apply Z.ltb_lt.
  - lia.
  - lia.
  - lia.
  - exists p. cbn [red]. change (has_levels (FNum DInt) 1) with true. cbv iota. unfold leaf. split; [|split; [exact B|]].
    + destruct (filter _ _) eqn:Ef; [cbn [reduced]; exact E|]. cbn [reduced]. exact E.
    + intros -> ->. destruct (filter SpecReduce.present (enumerate (map optval l))) as [|m ms] eqn:Ef; [reflexivity|]. exfalso.
      destruct B as [[_ B]|(x & B & _)]; [|apply nthZ_Some in B; lia]. assert (Hm : In m (filter SpecReduce.present (enumerate (map optval l)))) by (rewrite Ef; left; reflexivity).
      apply in_enumerate in Hm as (z & _ & Hz). exact (B _ _ Hz).
Qed.
Print Assumptions C16_first_smallest.
Theorem C16_first_largest : forall F l mask, exists p,
  red F Argmax false false 1 (FOption (FNum DInt)) (enumerate (map optval l)) = VInt p /\ first_best (fun x y => y < x) l p /\
  (mask = true -> p = -1 -> red F Argmax mask false 1 (FOption (FNum DInt)) (enumerate (map optval l)) = VNone).
Proof.
  intros F l mask. destruct (first_of (fun x y => y < x) (fun v w => less F w v) l) as (p & E & B).
  - intros a b. cbn [less]. apply Z.ltb_lt.
  - lia.
  - lia.
  - lia.
  - exists p. cbn [red]. change (has_levels (FNum DInt) 1) with true. cbv iota. unfold leaf. split; [|split; [exact B|]].
    + destruct (filter _ _) eqn:Ef; [cbn [reduced]; exact E|]. cbn [reduced]. exact E.
    + intros -> ->. destruct (filter SpecReduce.present (enumerate (map optval l))) as [|m ms] eqn:Ef; [reflexivity|]. exfalso.
      destruct B as [[_ B]|(x & B & _)]; [|apply nthZ_Some in B; lia]. assert (Hm : In m (filter SpecReduce.present (enumerate (map optval l)))) by (rewrite Ef; left; reflexivity).
      apply in_enumerate in Hm as (z & _ & Hz). exact (B _ _ Hz).
Qed.
Print Assumptions C16_first_largest.

(** a concrete case: [[2, None, 1, 1], [], [None, 3]] *)
Definition C16_array : content := ListOffset [0; 4; 4; 6] (IndexedOption [1; -1; 0; 0; -1; 2] (Numpy DInt [1; 2; 3])).
Example C16_ex : prepared true true C16_array /\ run Argmin true C16_array (-1) false = Some (VList [VInt 2; VNone; VInt 1]) /\ run Argmax false C16_array 1 false = Some (VList [VInt 0; VInt (-1); VInt 1]).
Proof. split; [|split; vm_compute; reflexivity]. repeat split; [left; reflexivity|right; reflexivity]. Qed.

(** ** Refutations *)
(** a sliced array, whose offsets do not start at zero: the positions are off by the first offset *)
Definition C16_sliced : content := ListOffset [1; 3] (Numpy DInt [9; 5; 4]).
Theorem C16_sliced_refuted : den C16_sliced = Some [VList [VInt 5; VInt 4]] /\ run Argmin false C16_sliced (-1) false = Some (VList [VInt 0]) /\ expected Argmin false C16_sliced 1 false = Some (VList [VInt 1]).
Proof. vm_compute. repeat split. Qed.
Print Assumptions C16_sliced_refuted.
(** an indexed array inside an option type: the missing elements are not counted *)
Definition C16_indexed : content := ListOffset [0; 3] (IndexedOption [-1; 0; 1] (Indexed [0; 1] (Numpy DInt [7; 8]))).
Theorem C16_indexed_refuted : den C16_indexed = Some [VList [VNone; VInt 7; VInt 8]] /\ run Argmin false C16_indexed (-1) false = Some (VList [VInt 0]) /\ expected Argmin false C16_indexed 1 false = Some (VList [VInt 1]).
Proof. vm_compute. repeat split. Qed.
Print Assumptions C16_indexed_refuted.
(** axis 0 with a missing list: [[1, 2], None, [0, 5]] *)
Definition C16_missing : content := ByteMasked [0; 1; 0] false (ListOffset [0; 2; 2; 4] (Numpy DInt [1; 2; 0; 5])).
Theorem C16_missing_lists_refuted : run Argmin false C16_missing 0 false = Some (VList [VInt 1; VInt 0]) /\ expected Argmin false C16_missing 0 false = Some (VList [VInt 2; VInt 0]).
Proof. vm_compute. repeat split. Qed.
Print Assumptions C16_missing_lists_refuted.
