(** C24 A snapshot keeps its values whatever is appended, cleared or resized afterwards.
    A snapshot shares the memory of the builder's buffers: [observe] reads it in the memory of any moment. *)
From Coq Require Import String.
From Verif Require Import Base BaseLemmas Content SpecArray Merge Growable SpecGrowable PGrowable Builder SpecBuilder HBuilder SpecHistory PHBuilder PHBuilder2 PHBuilder3 ThmC22.
Local Open Scope string_scope.
Local Open Scope list_scope.
Local Open Scope Z_scope.

(** ** ArrayBuilder *)
(** Whatever happens to the builder after [xs], the snapshots taken during [xs] are read as before. *)
Theorem C24_snapshots_do_not_change : forall rc refeq fuel o xs ys m1 m2,
  growing o -> history rc o new_machine xs = Ok m1 -> history rc o m1 ys = Ok m2 ->
  (exists more, m_snaps m2 = m_snaps m1 ++ more)
  /\ forall s, In s (m_snaps m1) -> observe rc refeq fuel (m_mem m2) s = observe rc refeq fuel (m_mem m1) s.
Proof.
  intros rc refeq fuel o xs ys m1 m2 G E1 E2.
  pose proof (history_ok rc refeq fuel o G xs new_machine new_builder sound_new) as H1. destruct (story rc refeq fuel new_builder xs) as [ [ b1 cs1 ] | e | ]; try (rewrite H1 in E1; discriminate).
  destruct H1 as (m & more1 & E & S1 & _). rewrite E in E1. injection E1 as ->.
  pose proof (history_ok rc refeq fuel o G ys m1 b1 S1) as H2. destruct (story rc refeq fuel b1 ys) as [ [ b2 cs2 ] | e | ]; try (rewrite H2 in E2; discriminate).
  destruct H2 as (m & more2 & E' & S2 & X & (ps & M) & _). rewrite E' in E2. injection E2 as ->. split; [ exists more2; exact X | ].
  intros s Hs. apply (observe_moves rc refeq fuel ps); [ exact M | ]. destruct S1 as (_ & _ & S1). rewrite Forall_forall in S1. apply S1. exact Hs.
Qed.
Print Assumptions C24_snapshots_do_not_change.

(** Whatever follows, clear() included, a snapshot shows the data appended before it. *)
Theorem C24_snapshots_show_what_was_appended : forall rc refeq fuel o sizes ks ys m,
  growing o -> (forall a b, refeq a b = true -> a = b) -> zlen sizes <= 122 -> Forall (sized sizes) ks ->
  history rc o new_machine (map ECall ks ++ ESnapshot :: ys) = Ok m ->
  exists es frs s c, reading [] [] ks = Some (es, frs) /\ nthZ (m_snaps m) 0 = Some s
    /\ observe rc refeq (S fuel) (m_mem m) s = Ok c /\ den c = Some (map (value_of rc (es ++ pending frs)) es).
Proof.
  intros rc refeq fuel o sizes ks ys m G Hr Hs Hz E.
  pose proof (history_ok rc refeq (S fuel) o G (map ECall ks ++ ESnapshot :: ys) new_machine new_builder sound_new) as H.
  assert (St : forall ks b, story rc refeq (S fuel) b (map ECall ks ++ ESnapshot :: ys) = (let* b' := run rc b ks in let* r := story rc refeq (S fuel) b' ys in Ok (fst r, snapshot rc refeq (S fuel) b' :: snd r))).
  { clear. induction ks as [ | k ks IH ]; intros b; cbn [map app story run on_lists taken bind]; [ reflexivity | ]. destruct (step rc b k) as [ r | e | ]; cbn [bind]; [ | reflexivity | reflexivity ]. rewrite IH.
    destruct (run rc (returned r) ks) as [ b' | e | ]; cbn [bind]; [ | reflexivity | reflexivity ]. destruct (story rc refeq (S fuel) b' ys) as [ [ b2 cs ] | e | ]; reflexivity. }
  rewrite St in H. destruct (run rc new_builder ks) as [ b | e | ] eqn:Er; cbn [bind] in H; try (rewrite H in E; discriminate).
  destruct (story rc refeq (S fuel) b ys) as [ [ b2 cs ] | e | ]; cbn [bind fst snd] in H; try (rewrite H in E; discriminate).
  destruct H as (m' & more & E' & _ & X & _ & O). rewrite E' in E. injection E as ->.
  destruct (C22_snapshot_at_any_time rc refeq fuel sizes ks b Hr Hs Hz Er) as (es & frs & c & Rd & Sn & D).
  destruct more as [ | s more ]; [ discriminate | ]. cbn [map] in O. injection O as O _. exists es, frs, s, c. split; [ exact Rd | ]. split; [ rewrite X; reflexivity | ]. rewrite O. split; [ exact Sn | exact D ].
Qed.
Print Assumptions C24_snapshots_show_what_was_appended.

(** In memory a history goes as on lists: it raises the same error or none, and in the end each snapshot is read as the array of its own
    moment. *)
Theorem C24_memory_and_lists : forall rc refeq fuel o es, growing o ->
  match story rc refeq fuel new_builder es with
  | Ok (_, arrays) => exists m, history rc o new_machine es = Ok m /\ map (observe rc refeq fuel (m_mem m)) (m_snaps m) = arrays
  | Err e => history rc o new_machine es = Err e
  | UB => history rc o new_machine es = UB
  end.
Proof.
  intros rc refeq fuel o es G. pose proof (history_ok rc refeq fuel o G es new_machine new_builder sound_new) as H. destruct (story rc refeq fuel new_builder es) as [ [ b cs ] | e | ]; try exact H.
  destruct H as (m & more & E & _ & X & _ & O). exists m. split; [ exact E | ]. rewrite X. exact O.
Qed.
Print Assumptions C24_memory_and_lists.

(** [1, 2.5, None, [3]] with snapshots after each item, a clear and more data; the first block holds 2 items *)
Definition C24_events : list event :=
  [ECall (CInt 1); ESnapshot; ECall (CInt 2); ECall (CInt 3); ESnapshot; ECall (CReal 25); ESnapshot; ECall CNull; ESnapshot;
   ECall CBeginList; ECall (CInt 3); ECall CEndList; ESnapshot; EClear; ECall (CInt 7); ECall (CBool true); ESnapshot].
Example C24_builder_example : exists m, history (fun z => 10 * z) (mkOptions 2 (ceil_grow 3 2)) new_machine C24_events = Ok m
  /\ map (fun s => match observe (fun z => 10 * z) (fun _ _ => false) 1 (m_mem m) s with Ok c => den c | _ => None end) (m_snaps m)
   = [Some [VInt 1]; Some [VInt 1; VInt 2; VInt 3]; Some [VReal 10; VReal 20; VReal 30; VReal 25]; Some [VReal 10; VReal 20; VReal 30; VReal 25; VNone];
      Some [VReal 10; VReal 20; VReal 30; VReal 25; VNone; VList [VInt 3]]; Some [VReal 70; VBool true]]
  /\ growing (mkOptions 2 (ceil_grow 3 2)).
Proof.
  eexists. split; [ vm_compute; reflexivity | ]. split; [ vm_compute; reflexivity | ]. split; cbn [o_initial o_grow]; [ lia | ]. intros r Hr. unfold ceil_grow. assert (r + 1 <= (r * 3 + (2 - 1)) / 2) by (apply Z.div_le_lower_bound; lia). lia.
Qed.

(** ** Buffers *)
(** The same for programs that use any number of buffers: every snapshot taken during [xs] reads the same items in the memory of both
    moments. *)
Theorem C24_buffer_snapshots_do_not_change : forall (T : Type) (of_int : Z -> T) o xs ys s,
  growing o -> meanings of_int (mkLists [] []) (xs ++ ys) = Some s ->
  exists st1 st2, performs of_int o nothing xs = Ok st1 /\ performs of_int o st1 ys = Ok st2
    /\ forall k v, nthZ (st_views st1) k = Some v ->
         nthZ (st_views st2) k = Some v
         /\ forall i, 0 <= i < v_length v ->
              exists x, getitem (st_heap st1) (v_ptr v) i = Ok x /\ getitem (st_heap st2) (v_ptr v) i = Ok x.
Proof.
  intros T of_int o xs ys s G M.
  assert (exists s1, meanings of_int (mkLists [] []) xs = Some s1 /\ meanings of_int s1 ys = Some s) as (s1 & M1 & M2).
  { revert M. generalize (@mkLists T [] []). induction xs as [ | x xs IH ]; intros s0 M; cbn in *; [ exists s0; auto | ].
    destruct (meaning of_int s0 x); [ exact (IH _ M) | discriminate ]. }
  destruct (performs_ok of_int o xs nothing _ s1 G inv_nothing M1) as (st1 & E1 & I1).
  destruct (performs_ok of_int o ys st1 s1 s G I1 M2) as (st2 & E2 & I2).
  exists st1, st2. split; [ exact E1 | ]. split; [ exact E2 | ].
  assert (exists more, st_views st2 = st_views st1 ++ more) as (more & Hv).
  { clear - E2. revert st1 E2. induction ys as [ | y ys IH ]; intros st1 E; cbn in E.
    - injection E as <-. exists []. symmetry. apply app_nil_r.
    - apply bind_Ok in E. destruct E as (st' & E & E'). destruct (IH _ E') as (more & Hm).
      assert (exists m1, st_views st' = st_views st1 ++ m1) as (m1 & H1).
      { assert (forall r, add_buf st1 r = Ok st' -> st_views st' = st_views st1) as HA
          by (intros r H; unfold add_buf in H; apply bind_Ok in H; destruct H as ((h & b) & _ & H); injection H as <-; reflexivity).
        assert (forall i r, put_buf st1 i r = Ok st' -> st_views st' = st_views st1) as HP
          by (intros i r H; unfold put_buf in H; apply bind_Ok in H; destruct H as ((h & b) & _ & H);
              apply bind_Ok in H; destruct H as (bs & _ & H); injection H as <-; reflexivity).
        unfold perform in E. destruct y;
          try (exists []; rewrite app_nil_r; eapply HA; eassumption);
          apply bind_Ok in E; destruct E as (b & _ & E);
          try (exists []; rewrite app_nil_r; first [ eapply HA; eassumption | eapply HP; eassumption ]).
        injection E as <-. eexists. reflexivity. }
      exists (m1 ++ more). rewrite Hm, H1, app_assoc. reflexivity. }
  assert (exists more, ls_views s = ls_views s1 ++ more) as (mores & Hs).
  { clear - M2. revert s1 M2. induction ys as [ | y ys IH ]; intros s1 M; cbn in M.
    - injection M as <-. exists []. symmetry. apply app_nil_r.
    - destruct (meaning of_int s1 y) as [ s' | ] eqn:E; [ | discriminate ]. destruct (IH _ M) as (more & Hm).
      assert (exists m1, ls_views s' = ls_views s1 ++ m1) as (m1 & H1).
      { destruct y; cbn in E; repeat (match type of E with (if ?c then _ else _) = _ => destruct c
          | match ?c with Some _ => _ | None => _ end = _ => destruct c end; try discriminate);
          injection E as <-; cbn; first [ exists []; rewrite app_nil_r; reflexivity | eexists; reflexivity ]. }
      exists (m1 ++ more). rewrite Hm, H1, app_assoc. reflexivity. }
  destruct (inv_reads of_int _ _ I1) as (_ & V1). destruct (inv_reads of_int _ _ I2) as (_ & V2).
  assert (zlen (st_views st1) = zlen (ls_views s1)) as Hz.
  { revert V1. generalize (st_views st1) (ls_views s1). clear. intros vs ls V. induction V; [ reflexivity | rewrite !zlen_cons; lia ]. }
  intros k v Hk. pose proof (nthZ_Some _ _ _ Hk) as Rk.
  assert (nthZ (st_views st2) k = Some v) as Hk2
    by (rewrite Hv, nthZ_app; destruct (Z.ltb_spec k (zlen (st_views st1))); [ exact Hk | lia ]).
  split; [ exact Hk2 | ]. intros i Hi.
  destruct (nthZ_lt (ls_views s1) k) as (l & Hl); [ lia | ].
  assert (nthZ (ls_views s) k = Some l) as Hl2
    by (rewrite Hs, nthZ_app; destruct (Z.ltb_spec k (zlen (ls_views s1))); [ exact Hl | lia ]).
  destruct (Forall2_nthZ _ _ _ _ _ V1 Hl) as (v1 & Hv1 & _ & R1). rewrite Hk in Hv1. injection Hv1 as <-.
  destruct (Forall2_nthZ _ _ _ _ _ V2 Hl2) as (v2 & Hv2 & _ & R2). rewrite Hk2 in Hv2. injection Hv2 as <-.
  destruct (R1 i Hi) as (x & X1 & G1). destruct (R2 i Hi) as (x' & X2 & G2). rewrite X1 in X2. injection X2 as <-.
  exists x. auto.
Qed.
Print Assumptions C24_buffer_snapshots_do_not_change.

Example C24_example : exists s,
  meanings (fun z => z) (mkLists [] [])
    ([ONew; OAppend 0 10; OSnapshot 0] ++ [OAppend 0 11; OSnapshot 0; OAppend 0 12; OClear 0; OAppend 0 20]) = Some s
  /\ ls_views s = [[10]; [10; 11]].
Proof. eexists. split; vm_compute; reflexivity. Qed.

(** The values are those of the moment of the snapshot. *)
Theorem C24_buffer_snapshots_are_what_was_appended : forall (T : Type) (of_int : Z -> T) o xs s,
  growing o -> meanings of_int (mkLists [] []) xs = Some s ->
  exists st, performs of_int o nothing xs = Ok st
    /\ Forall2 (fun v l => reads (st_heap st) (v_ptr v) (v_length v) l) (st_views st) (ls_views s).
Proof.
  intros T of_int o xs s G M. destruct (performs_ok of_int o xs nothing (mkLists [] []) s G inv_nothing M) as (st & E & I).
  exists st. split; [ exact E | exact (proj2 (inv_reads of_int _ _ I)) ].
Qed.
Print Assumptions C24_buffer_snapshots_are_what_was_appended.

(** The one operation that could break this is set_length, used by the code only on buffers it has just made: made
    shorter and appended to, a buffer writes over the items of its snapshots. *)
Theorem C24_shortened_buffer_refuted : exists (h0 h1 h2 : heap Z) b0 b1 b2,
  full_ (mkOptions 2 (ceil_grow 3 2)) 1 1 [] = Ok (h0, b0)
  /\ getitem h0 (v_ptr (snapshot_ b0)) 0 = Ok 1
  /\ set_length 0 b0 h0 = Ok (h1, b1)
  /\ append_ (mkOptions 2 (ceil_grow 3 2)) 9 b1 h1 = Ok (h2, b2)
  /\ getitem h2 (v_ptr (snapshot_ b0)) 0 = Ok 9.
Proof. do 6 eexists. repeat split; vm_compute; reflexivity. Qed.
Print Assumptions C24_shortened_buffer_refuted.
