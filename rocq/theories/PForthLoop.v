(** Loops and exit of the Forth machine *)
From Verif Require Import Base BaseLemmas Forth SpecForthRun PForthRun PForthStep.
Local Open Scope list_scope.
Local Open Scope Z_scope.

Lemma tick_any : forall m target i j s, depth s <> target -> tick m false target i s = tick m false target j s.
Proof. intros m target i j s D. unfold tick. apply Z.eqb_neq in D. rewrite D, !andb_false_r. reflexivity. Qed.

Lemma leads_refl : forall m target s, leads m target s s.
Proof. intros. exists 0%nat, true, true. reflexivity. Qed.

Lemma leads_trans : forall m target a b c, depth b <> target -> leads m target a b -> leads m target b c -> leads m target a c.
Proof.
  intros m target a b c D (n & i & j & A) (n' & i' & j' & B). destruct n' as [ | n' ].
  - injection B as _ <-. exists n, i, j. exact A.
  - exists (n + S n')%nat, i, j'. rewrite trips_plus, A. cbn [trips] in *. rewrite (tick_any m target j i' b D). exact B.
Qed.

Lemma leads_tick : forall m target i j s s', tick m false target i s = TGo j s' -> leads m target s s'.
Proof. intros m target i j s s' H. exists 1%nat, i, j. cbn [trips]. rewrite H. reflexivity. Qed.

Definition here (m : machine) (s : state) (w p : Z) (fr : list (Z * Z)) (c : Z) : Prop :=
  frames s = (w, p) :: fr /\ exists a n, segment m w a n /\ p < n /\ nthZ (m_code m) (a + p) = Some c.

Lemma here_get : forall m s w p fr c, here m s w p fr c -> bytecode_get m s = Some c /\ is_segment_done m s = Some false.
Proof.
  intros m s w p fr c (F & a & n & (A & B) & P & C). unfold bytecode_get, is_segment_done, seg_len, which_where. rewrite F, A, B. split; [ exact C | ].
  replace (a + n - a) with n by lia. rewrite (proj2 (Z.ltb_lt p n) P). reflexivity.
Qed.

(** an instruction outside a loop's own code *)
Lemma go_plain : forall m target s w p fr c s', here m s w p fr c -> in_do s = None ->
  exec m false c (where_add 1 s) = XNext s' -> leads m target s (count_instr s').
Proof.
  intros m target s w p fr c s' H D X. destruct (here_get m s w p fr c H) as [ G E ].
  apply (leads_tick m target true true). unfold tick. cbn [negb andb]. rewrite E. unfold one_instruction. rewrite G, D. cbn zeta. rewrite X. reflexivity.
Qed.

(** the code of a loop, at its index *)
Lemma go_loop : forall m target s w p fr b d, here m s w p fr (BOUND_DICTIONARY + b) -> 0 <= b -> in_do s = Some d -> d_i d < d_stop d ->
  depth s < m_recmax m -> leads m target s (count_instr (set_frames ((b, 0) :: frames s) s)).
Proof.
  intros m target s w p fr b d H Hb D L R. destruct (here_get m s w p fr _ H) as [ G E ].
  apply (leads_tick m target true true). unfold tick. cbn [negb andb]. rewrite E. unfold one_instruction. rewrite G, D. cbn zeta.
  destruct (Z.leb_spec (d_stop d) (d_i d)); [ lia | ].
  unfold exec, BOUND_DICTIONARY. destruct (Z.ltb_spec (66 + b) 0); [ lia | ]. destruct (Z.leb_spec 66 (66 + b)); [ | lia ].
  unfold push_segment_or_fail, bytecodes_pointer_push. destruct (Z.eqb_spec (depth s) (m_recmax m)); [ lia | ].
  destruct (Z.ltb_spec (depth s) (m_recmax m)); [ | lia ]. replace (66 + b - 66) with b by lia. reflexivity.
Qed.

(** leaving it *)
Lemma go_out : forall m target s w p fr c d, here m s w p fr c -> in_do s = Some d -> d_stop d <= d_i d ->
  leads m target s (where_add 1 (set_dos (tl (dos s)) s)).
Proof.
  intros m target s w p fr c d H D L. destruct (here_get m s w p fr _ H) as [ G E ].
  apply (leads_tick m target true true). unfold tick. cbn [negb andb]. rewrite E. unfold one_instruction. rewrite G, D. cbn zeta.
  destruct (Z.leb_spec (d_stop d) (d_i d)); [ reflexivity | lia ].
Qed.

(** the end of a segment *)
Lemma go_end : forall m target s b len fr a s', segment m b a len -> frames s = (b, len) :: fr -> 
  do_advance m (set_frames fr s) XNext = XNext s' -> leads m target s s'.
Proof.
  intros m target s b len fr a s' (A & B) F X. apply (leads_tick m target true false). unfold tick. cbn [negb andb].
  unfold is_segment_done, seg_len, which_where. rewrite F, A, B. replace (a + len - a) with len by lia. rewrite Z.ltb_irrefl. cbn [negb].
  unfold end_of_segment, bytecodes_pointer_pop. rewrite F, X. reflexivity.
Qed.

Lemma do_advance_loop : forall m s dp stop i r, dos s = mkDo dp false stop i :: r -> dp = depth s -> fits 64 (i + 1) = true ->
  do_advance m s XNext = XNext (set_dos (mkDo dp false stop (i + 1) :: r) s).
Proof. intros m s dp stop i r E D F. unfold do_advance. rewrite E. cbn. rewrite D, Z.eqb_refl, F. reflexivity. Qed.

Lemma do_advance_step : forall m s dp stop i r n st, dos s = mkDo dp true stop i :: r -> dp = depth s -> stk s = n :: st -> fits 64 (i + n) = true ->
  do_advance m s XNext = XNext (set_dos (mkDo dp true stop (i + n) :: r) (set_stk st s)).
Proof.
  intros m s dp stop i r n st E D S F. unfold do_advance. rewrite E. cbn. rewrite D, Z.eqb_refl.
  unfold pop_or_fail, stack_cannot_pop, stack_pop. rewrite S. rewrite zlen_cons.
  destruct (Z.eqb_spec (zlen st + 1) 0); [ pose proof (zlen_nonneg st); lia | ]. rewrite F. reflexivity.
Qed.

Lemma fits_between : forall i stop, - 2^63 <= i < stop -> stop < 2^63 -> fits 64 (i + 1) = true.
Proof. intros i stop H S. unfold fits. change (64 - 1) with 63. apply andb_true_iff. rewrite Z.leb_le, Z.ltb_lt. lia. Qed.

(** From the loop's code with index i to the code after it *)
Lemma loop_runs : forall m target w p fr ds b blen ba stop i d d',
  (exists a n, segment m w a n /\ p + 1 < n /\ nthZ (m_code m) (a + (p + 1)) = Some (BOUND_DICTIONARY + b)) ->
  segment m b ba blen -> 0 <= b -> stop < 2^63 -> zlen fr + 1 < m_recmax m -> 0 <= target <= zlen fr ->
  iterated (fun i => segment_does m target b blen ((w, p + 1) :: fr) (mkDo (zlen fr + 1) false stop i :: ds)) stop i d d' ->
  - 2^63 <= i ->
  forall s, data s = d -> frames s = (w, p + 1) :: fr -> dos s = mkDo (zlen fr + 1) false stop i :: ds -> exists s',
  leads m target s s' /\ data s' = d' /\ frames s' = (w, p + 1 + 1) :: fr /\ dos s' = ds /\ status s' = status s.
Proof.
  intros m target w p fr ds b blen ba stop i d d' C SB Hb Hst Hr Ht It.
  induction It as [ i d Hi | i d d1 d2 Hi Hbody It IH ]; intros Lo s Hd Hf Hdo.
  - exists (where_add 1 (set_dos (tl (dos s)) s)). split.
    + eapply (go_out m target s w (p + 1) fr _ (mkDo (zlen fr + 1) false stop i)); [ | | exact Hi ].
      * split; [ exact Hf | ]. destruct C as (a & n & A & B & C). exists a, n. split; [ exact A | split; [ exact B | exact C ] ].
      * unfold in_do. rewrite Hdo. unfold depth. cbn. rewrite Hf, zlen_cons, Z.eqb_refl. reflexivity.
    + unfold where_add. cbn. rewrite Hf, Hdo. cbn. auto.
  - set (s1 := count_instr (set_frames ((b, 0) :: frames s) s)).
    assert (L1 : leads m target s s1).
    { eapply (go_loop m target s w (p + 1) fr b (mkDo (zlen fr + 1) false stop i)); [ | exact Hb | | exact Hi | ].
      - split; [ exact Hf | ]. destruct C as (a & n & A & B & C). exists a, n. split; [ exact A | split; [ exact B | exact C ] ].
      - unfold in_do. rewrite Hdo. unfold depth. cbn. rewrite Hf, zlen_cons, Z.eqb_refl. reflexivity.
      - unfold depth. rewrite Hf, zlen_cons. exact Hr. }
    destruct (Hbody s1 Hd) as (s2 & L2 & D2 & F2 & O2 & E2).
    { unfold s1. cbn. rewrite Hf. reflexivity. }
    { exact Hdo. }
    set (s3 := set_dos (mkDo (zlen fr + 1) false stop (i + 1) :: ds) (set_frames ((w, p + 1) :: fr) s2)).
    assert (L3 : leads m target s2 s3).
    { eapply go_end; [ exact SB | exact F2 | ]. unfold s3. rewrite (do_advance_loop m _ (zlen fr + 1) stop i ds); [ reflexivity | exact O2 | | ].
      - unfold depth. cbn. rewrite zlen_cons. reflexivity.
      - apply (fits_between i stop); lia. }
    destruct (IH ltac:(lia) s3) as (s4 & L4 & D4 & F4 & O4 & E4).
    { unfold s3. exact D2. } { reflexivity. } { reflexivity. }
    exists s4. split; [ | split; [ exact D4 | split; [ exact F4 | split; [ exact O4 | ] ] ] ].
    + pose proof (zlen_nonneg fr).
      assert (X1 : depth s1 <> target) by (unfold s1, depth; cbn; rewrite Hf, !zlen_cons; lia).
      assert (X2 : depth s2 <> target) by (unfold depth; rewrite F2, !zlen_cons; lia).
      assert (X3 : depth s3 <> target) by (unfold s3, depth; cbn; rewrite !zlen_cons; lia).
      eapply leads_trans; [ exact X1 | exact L1 | ]. eapply leads_trans; [ exact X2 | exact L2 | ]. eapply leads_trans; [ exact X3 | exact L3 | exact L4 ].
    + rewrite E4. unfold s3. unfold status in *. cbn in *. congruence.
Qed.

Lemma data_inv : forall s st vs i o, data s = (st, vs, i, o) -> stk s = st /\ vars s = vs /\ ins s = i /\ outs s = o.
Proof. intros s st vs i o H. unfold data in H. injection H as A B C D. auto. Qed.

(** the same with +loop; every index reached fits *)
Lemma steploop_runs : forall m target w p fr ds b blen ba stop i d d',
  (exists a n, segment m w a n /\ p + 1 < n /\ nthZ (m_code m) (a + (p + 1)) = Some (BOUND_DICTIONARY + b)) ->
  segment m b ba blen -> 0 <= b -> zlen fr + 1 < m_recmax m -> 0 <= target <= zlen fr ->
  iterated_by (fun i d d1 => segment_does m target b blen ((w, p + 1) :: fr) (mkDo (zlen fr + 1) true stop i :: ds) d d1
                              /\ forall step d2, d1 = push_data step d2 -> fits 64 (i + step) = true) stop i d d' ->
  forall s, data s = d -> frames s = (w, p + 1) :: fr -> dos s = mkDo (zlen fr + 1) true stop i :: ds -> exists s',
  leads m target s s' /\ data s' = d' /\ frames s' = (w, p + 1 + 1) :: fr /\ dos s' = ds /\ status s' = status s.
Proof.
  intros m target w p fr ds b blen ba stop i d d' C SB Hb Hr Ht It.
  induction It as [ i d Hi | i step d d1 d2 Hi (Hbody & Hfit) It IH ]; intros s Hd Hf Hdo.
  - exists (where_add 1 (set_dos (tl (dos s)) s)). split.
    + eapply (go_out m target s w (p + 1) fr _ (mkDo (zlen fr + 1) true stop i)); [ | | exact Hi ].
      * split; [ exact Hf | ]. destruct C as (a & n & A & B & C). exists a, n. split; [ exact A | split; [ exact B | exact C ] ].
      * unfold in_do. rewrite Hdo. unfold depth. cbn. rewrite Hf, zlen_cons, Z.eqb_refl. reflexivity.
    + unfold where_add. cbn. rewrite Hf, Hdo. cbn. auto.
  - set (s1 := count_instr (set_frames ((b, 0) :: frames s) s)).
    assert (L1 : leads m target s s1).
    { eapply (go_loop m target s w (p + 1) fr b (mkDo (zlen fr + 1) true stop i)); [ | exact Hb | | exact Hi | ].
      - split; [ exact Hf | ]. destruct C as (a & n & A & B & C). exists a, n. split; [ exact A | split; [ exact B | exact C ] ].
      - unfold in_do. rewrite Hdo. unfold depth. cbn. rewrite Hf, zlen_cons, Z.eqb_refl. reflexivity.
      - unfold depth. rewrite Hf, zlen_cons. exact Hr. }
    destruct (Hbody s1 Hd) as (s2 & L2 & D2 & F2 & O2 & E2).
    { unfold s1. cbn. rewrite Hf. reflexivity. }
    { exact Hdo. }
    destruct d1 as [ [ [ st vs ] ii ] oo ]. cbn in D2. apply data_inv in D2. destruct D2 as (D2 & V2 & I2 & P2).
    set (s3 := set_dos (mkDo (zlen fr + 1) true stop (i + step) :: ds) (set_stk st (set_frames ((w, p + 1) :: fr) s2))).
    assert (L3 : leads m target s2 s3).
    { eapply go_end; [ exact SB | exact F2 | ]. unfold s3. rewrite (do_advance_step m _ (zlen fr + 1) stop i ds step st); [ reflexivity | exact O2 | | exact D2 | ].
      - unfold depth. cbn. rewrite zlen_cons. reflexivity.
      - apply (Hfit step (st, vs, ii, oo)). reflexivity. }
    destruct (IH s3) as (s4 & L4 & D4 & F4 & O4 & E4).
    { unfold s3, data. cbn. congruence. } { reflexivity. } { reflexivity. }
    exists s4. split; [ | split; [ exact D4 | split; [ exact F4 | split; [ exact O4 | ] ] ] ].
    + pose proof (zlen_nonneg fr).
      assert (X1 : depth s1 <> target) by (unfold s1, depth; cbn; rewrite Hf, !zlen_cons; lia).
      assert (X2 : depth s2 <> target) by (unfold depth; rewrite F2, !zlen_cons; lia).
      assert (X3 : depth s3 <> target) by (unfold s3, depth; cbn; rewrite !zlen_cons; lia).
      eapply leads_trans; [ exact X1 | exact L1 | ]. eapply leads_trans; [ exact X2 | exact L2 | ]. eapply leads_trans; [ exact X3 | exact L3 | exact L4 ].
    + rewrite E4. unfold s3. unfold status in *. cbn in *. congruence.
Qed.

Lemma pop2_exact : forall s y x st f, stk s = y :: x :: st -> pop2_or_fail s f = f x y (set_stk st s).
Proof.
  intros s y x st f E. unfold pop2_or_fail, stack_pop. unfold stack_cannot_pop2. rewrite E, !zlen_cons.
  pose proof (zlen_nonneg st). destruct (Z.ltb_spec (zlen st + 1 + 1) 2); [ lia | ]. unfold stack_pop2. rewrite E. reflexivity.
Qed.

Lemma wrapS32_id : forall v, - 2^31 <= v < 2^31 -> wrapS 32 v = v.
Proof.
  intros v H. unfold wrapS. change (32 - 1) with 31. rewrite Z.mod_small; change (2 ^ 32) with (2 * 2 ^ 31); lia.
Qed.
