(** A LayoutBuilder's machine from its start: it waits, takes the commands of each value, and waits again *)
From Coq Require Import String.
From Verif Require Import Base BaseLemmas SpecArray Content Forms Forth PForthOut PForthRun PForthStep PForthRead PForthRead2 SpecForthRun PForthLoop LayoutBuild SpecLayout PLayoutVm PLayoutWord PLayoutEat.
Local Open Scope list_scope.
Local Open Scope Z_scope.

Lemma steps_trips : forall m k k', steps m k k' -> forall a b c i, exists n j a' b' c', trips m false 0 n i (st_of k a b c) = TGo j (st_of k' a' b' c').
Proof.
  intros m k k' H. induction H as [ k | k k' k'' F T _ IH ]; intros a b c i.
  - exists 0%nat, i, a, b, c. reflexivity.
  - destruct (T a b c) as (i1 & j1 & a1 & b1 & c1 & E). destruct (IH a1 b1 c1 j1) as (n & j & a2 & b2 & c2 & E2). exists (S n), j, a2, b2, c2. cbn [trips].
    rewrite (tick_any m 0 i i1), E; [ exact E2 | ]. unfold depth, st_of. cbn [frames]. destruct (k_frames k) as [ | f fr ]; [ congruence | ]. rewrite zlen_cons. pose proof (zlen_nonneg fr). lia.
Qed.
Lemma pause_trips : forall m k k1 k', steps m k k1 -> k_frames k1 <> [] -> pauses m k1 k' -> forall a b c, exists n a' b' c', forall n', (n <= n')%nat ->
  trips m false 0 n' false (st_of k a b c) = TRet (st_of k' a' b' c').
Proof.
  intros m k k1 k' H F [ _ P ] a b c. destruct (steps_trips m k k1 H a b c false) as (n & j & a1 & b1 & c1 & E). destruct (P a1 b1 c1) as (i & a2 & b2 & c2 & E2).
  exists (n + 1)%nat, a2, b2, c2. intros n' L. apply (trips_more m false 0 (n + 1)); [ | discriminate | exact L ]. rewrite trips_plus, E. cbn [trips].
  rewrite (tick_any m 0 j i), E2; [ reflexivity | ]. unfold depth, st_of. cbn [frames]. destruct (k_frames k1) as [ | f fr ]; [ congruence | ]. rewrite zlen_cons. pose proof (zlen_nonneg fr). lia.
Qed.
Lemma pop_going : forall k a b c, k_frames k <> [] -> pop_target (st_of k a b c) = ARet e_none (st_of k a b c).
Proof.
  intros k a b c F. unfold pop_target, st_of. cbn [targets depth frames]. unfold depth. cbn [frames]. destruct (k_frames k) as [ | f fr ]; [ congruence | ]. rewrite zlen_cons. pose proof (zlen_nonneg fr).
  destruct (Z.eqb_spec (zlen fr + 1) 0); [ lia | reflexivity ].
Qed.

(** ** Commands sent to a machine that waits *)
Inductive sent (m : machine) : cfg -> list cmd -> cfg -> Prop :=
| sent_nil : forall P, sent m P [] P
| sent_cons : forall P c cs k1 P1 P', zlen (k_stk P) < m_stackmax m -> inok (k_ins P) -> zlen (fst c) <= 8 ->
    steps m (feed c P) k1 -> k_frames k1 <> [] -> pauses m k1 P1 -> sent m P1 cs P' -> sent m P (c :: cs) P'.
Lemma sent_app : forall m P cs P1 cs' P', sent m P cs P1 -> sent m P1 cs' P' -> sent m P (cs ++ cs') P'.
Proof. intros m P cs P1 cs' P' H. induction H; intros R; [ exact R | ]. cbn [app]. eapply sent_cons; eauto. Qed.
Lemma runs_sent : forall m cs k k' k2 P', runs m cs k k' -> steps m k' k2 -> k_frames k2 <> [] -> pauses m k2 P' ->
  forall P c, k = feed c P -> zlen (k_stk P) < m_stackmax m -> inok (k_ins P) -> zlen (fst c) <= 8 -> sent m P (c :: cs) P'.
Proof.
  intros m cs k k' k2 P' H. induction H as [ k k' H | c cs k k1 k3 k' H F Hp Z1 I1 L1 R IH ]; intros S2 F2 P2 P c0 -> HZ HI HL.
  - eapply sent_cons; [ exact HZ | exact HI | exact HL | eapply steps_trans; [ exact H | exact S2 ] | exact F2 | exact P2 | apply sent_nil ].
  - eapply sent_cons; [ exact HZ | exact HI | exact HL | exact H | exact F | exact Hp | ]. eapply IH; [ exact S2 | exact F2 | exact P2 | reflexivity | assumption .. ].
Qed.

(** one command, as the builder sends it *)
Lemma send_one : forall m P c k1 P1, m_stackmax m = m_stackmax m -> zlen (k_stk P) < m_stackmax m -> inok (k_ins P) -> zlen (fst c) <= 8 ->
  steps m (feed c P) k1 -> k_frames k1 <> [] -> pauses m k1 P1 ->
  forall n p x y z, exists N x' y' z', forall fuel chk, (N <= fuel)%nat ->
    send (fst c) (snd c) chk fuel (mkBuilder n p m (st_of P x y z)) = Some (Done (mkBuilder n p m (st_of P1 x' y' z'))).
Proof.
  intros m P c k1 P1 _ HZ HI HL S1 F1 P2 n p x y z. destruct (pause_trips m _ _ _ S1 F1 P2 x y z) as (N & x' & y' & z' & T).
  exists N, x', y', z'. intros fuel chk L. unfold send. cbn [b_state b_vm]. unfold set_data, st_of at 1. cbn [ins].
  pose proof HI as (d & pos & E & D). rewrite E. cbn [idata ipos]. destruct (Z.leb_spec (zlen (fst c)) (zlen d)); [ | lia ].
  unfold vm_push. cbn [stk set_ins st_of]. destruct (Z.ltb_spec (zlen (k_stk P)) (m_stackmax m)); [ | lia ].
  match goal with |- context [ resume_ m fuel ?s ] => assert (Es : s = st_of (feed c P) x y z) by (unfold feed, st_of; cbn [k_stk k_vars k_ins k_outs k_frames]; rewrite E; reflexivity); rewrite Es end.
  unfold resume_, step_or_resume. cbn [ready st_of negb targets err is_none]. unfold internal_run. rewrite T by exact L.
  rewrite pop_going by apply P2. destruct chk; reflexivity.
Qed.

(** ** The program of a builder *)
Fixpoint from_code (s : shape) (k : Z) : list Z :=
  match s with
  | SNum _ => []
  | SList _ c => from_code c (k + 1) ++ [0; 0; 19; k]
  | SRec _ cs => (fix go (cs : list shape) (k : Z) : list Z := match cs with [] => [] | c :: cs => from_code c k ++ go cs (k + size c) end) cs k
  end.
Fixpoint from_f (cs : list shape) (k : Z) : list Z := match cs with [] => [] | c :: cs => from_code c k ++ from_f cs (k + size c) end.
Fixpoint types (s : shape) : list odtype :=
  match s with
  | SNum l => [leaf_type l]
  | SList w c => off_type w :: types c
  | SRec _ cs => concat (map types cs)
  end.
Record program (s : shape) (m : machine) : Prop := mkProgram {
  pr_vm : vm_ok m; pr_out : m_outinit m = 1024; pr_types : m_outs m = types s;
  pr_code : exists bm wb E, 0 <= bm /\ 0 <= wb /\ code_seg m 0 (concat (map (fun i => [24; i]) E) ++ from_code s 0 ++ [0; 0; 66 + bm; 7])
              /\ zlen E <= nodes s /\ code_seg m bm [2; 66 + wb; 46] /\ word m s wb 0 }.

Fixpoint blank (s : shape) (k : Z) (os : list outbuf) : Prop :=
  match s with
  | SNum l => buf os k (leaf_type l) []
  | SList w c => buf os k (off_type w) [] /\ blank c (k + 1) os
  | SRec _ cs => (fix go (cs : list shape) (k : Z) : Prop := match cs with [] => True | c :: cs => blank c k os /\ go cs (k + size c) end) cs k
  end.
Fixpoint blank_f (cs : list shape) (k : Z) (os : list outbuf) : Prop := match cs with [] => True | c :: cs => blank c k os /\ blank_f cs (k + size c) os end.
Lemma blank_rec : forall ks cs k os, blank (SRec ks cs) k os <-> blank_f cs k os.
Proof. intros ks cs k os. cbn [blank]. revert k. induction cs; intros k; cbn; [ tauto | ]. rewrite IHcs. tauto. Qed.
Lemma from_rec : forall ks cs k, from_code (SRec ks cs) k = from_f cs k.
Proof. intros ks cs k. cbn [from_code]. revert k. induction cs; intros k; cbn; [ reflexivity | ]. rewrite IHcs. reflexivity. Qed.
Lemma blank_frame : forall s k os os', blank s k os -> (forall o, k <= o < k + size s -> nthZ os' o = nthZ os o) -> blank s k os'.
Proof.
  induction s using shape_ind'; intros k os os' H1 E; cbn [size] in E.
  - cbn [blank] in *. eapply buf_frame; [ exact H1 | apply E; lia ].
  - pose proof (size_pos s). cbn [blank] in *. destruct H1 as [ A B ]. split.
    + eapply buf_frame; [ exact A | apply E; lia ].
    + eapply IHs; [ exact B | intros o Ho; apply E; lia ].
  - apply blank_rec. apply blank_rec in H1. revert k H1 E. induction H as [ | c cs Hc _ IH ]; intros k H1 E; cbn [blank_f] in *; [ exact I | ].
    cbn [map fold_right] in E. destruct H1 as [ A B ].
    assert (0 <= fold_right Z.add 0 (map size cs)) by (clear; induction cs as [ | x cs IH ]; cbn; [ lia | pose proof (size_pos x); lia ]). pose proof (size_pos c). split.
    + eapply Hc; [ exact A | intros o Ho; apply E; lia ].
    + apply IH; [ exact B | intros o Ho; apply E; lia ].
Qed.

Lemma types_len : forall s, zlen (types s) = size s.
Proof.
  induction s using shape_ind'; cbn [types size]; [ reflexivity | rewrite zlen_cons; lia | ].
  induction H as [ | c cs Hc _ IH ]; cbn [map concat fold_right]; [ reflexivity | ]. rewrite zlen_app. lia.
Qed.
Lemma blank_start : forall s ts post pre, ts = pre ++ types s ++ post ->
  blank s (zlen pre) (map (fun t => mkOut t (repeat None (Z.to_nat 1024)) 0) ts).
Proof.
  assert (B : forall pre t (post : list odtype), buf (map (fun t => mkOut t (repeat None (Z.to_nat 1024)) 0) (pre ++ t :: post)) (zlen pre) t []).
  { intros pre t post. exists (mkOut t (repeat None (Z.to_nat 1024)) 0). split.
    - rewrite nthZ_map, nthZ_app. destruct (Z.ltb_spec (zlen pre) (zlen pre)); [ lia | ]. rewrite Z.sub_diag. reflexivity.
    - cbn [otype]. split; [ reflexivity | ]. split; [ unfold reserved; cbn [cells]; vm_compute; reflexivity | ]. apply good_parts. exists (repeat None (Z.to_nat 1024)). split; reflexivity. }
  induction s using shape_ind'; intros ts post pre ->; cbn [types].
  - apply B.
  - cbn [blank]. split; [ apply B | ]. replace (zlen pre + 1) with (zlen (pre ++ [off_type w])) by (rewrite zlen_app; reflexivity). apply (IHs _ post). rewrite <- app_assoc. reflexivity.
  - apply blank_rec. revert pre. induction H as [ | c cs Hc _ IH ]; intros pre; cbn [blank_f map concat]; [ exact I | ]. split.
    + apply (Hc _ (concat (map types cs) ++ post)). rewrite <- app_assoc. reflexivity.
    + replace (zlen pre + size c) with (zlen (pre ++ types c)) by (rewrite zlen_app, types_len; reflexivity).
      replace (pre ++ (types c ++ concat (map types cs)) ++ post) with ((pre ++ types c) ++ concat (map types cs) ++ post) by (rewrite <- !app_assoc; reflexivity). apply IH.
Qed.

Lemma run_strings : forall m E pre post st vs is os fr, vm_ok m -> code_seg m 0 (pre ++ concat (map (fun i => [24; i]) E) ++ post) -> zlen st + zlen E <= 1024 ->
  steps m (mkCfg st vs is os ((0, zlen pre) :: fr)) (mkCfg (rev E ++ st) vs is os ((0, zlen (pre ++ concat (map (fun i => [24; i]) E))) :: fr)).
Proof.
  intros m E. induction E as [ | e E IH ]; intros pre post st vs is os fr V W L.
  - cbn [map concat rev app]. rewrite app_nil_r. apply steps_refl.
  - rewrite zlen_cons in L. pose proof (zlen_nonneg E). cbn [map concat app] in W.
    nx ltac:(eapply (step_string m 0 _ W (zlen pre) e); [ replace (zlen pre) with (zlen pre + 0) by lia; rewrite code_at by lia; reflexivity | rewrite code_at by lia; reflexivity | rewrite (vm_stack m V); lia ]).
    replace (zlen pre + 1 + 1) with (zlen (pre ++ [24; e])) by (rewrite zlen_app; change (zlen [24; e]) with 2; lia).
    replace (pre ++ concat (map (fun i => [24; i]) (e :: E))) with ((pre ++ [24; e]) ++ concat (map (fun i => [24; i]) E)) by (rewrite <- app_assoc; reflexivity).
    cbn [rev]. rewrite <- app_assoc. apply (IH (pre ++ [24; e]) post); [ exact V | rewrite <- app_assoc; exact W | cbn [app]; rewrite zlen_cons; lia ].
Qed.

Lemma cast_zero : forall m w, cast_out m (off_type w) 0 = 0.
Proof. intros m [ | | | | ]; reflexivity. Qed.

Lemma run_from : forall m s, vm_ok m -> forall k pre post st vs is os fr, code_seg m 0 (pre ++ from_code s k ++ post) -> 0 <= k -> blank s k os -> zlen st < 1024 ->
  exists os', steps m (mkCfg st vs is os ((0, zlen pre) :: fr)) (mkCfg st vs is os' ((0, zlen (pre ++ from_code s k)) :: fr))
    /\ holds s k [] os' /\ (forall o, ~ (k <= o < k + size s) -> nthZ os' o = nthZ os o) /\ zlen os' = zlen os.
Proof.
  intros m s V. induction s using shape_ind'; intros k pre post st vs is os fr W K B L.
  - exists os. cbn [from_code]. rewrite app_nil_r. split; [ apply steps_refl | ]. split; [ exact B | ]. split; reflexivity.
  - cbn [from_code blank size] in *. destruct B as [ (bf & N & T & R & G) B ]. pose proof (size_pos s). destruct (nthZ_Some _ _ _ N) as [ K0 K1 ].
    destruct (IHs (k + 1) pre ([0; 0; 19; k] ++ post) st vs is os fr) as (os1 & S1 & H1 & O1 & Z1); [ rewrite <- app_assoc in W; exact W | lia | exact B | exact L | ].
    assert (N1 : nthZ os1 k = Some bf) by (rewrite O1 by lia; exact N).
    destruct (write_one_ok m bf [] 0 (vm_grow m V) R G) as (bf' & WO & G' & R' & T').
    exists (upd os1 (Z.to_nat k) bf'). split; [ | split; [ split | split ] ].
    + eapply steps_trans; [ exact S1 | ]. rewrite app_assoc in W. rewrite app_assoc in W.
      replace (zlen (pre ++ from_code s (k + 1) ++ [0; 0; 19; k])) with (zlen (pre ++ from_code s (k + 1)) + 1 + 1 + 1 + 1) by (rewrite !zlen_app; change (zlen [0; 0; 19; k]) with 4; lia).
      rewrite <- !app_assoc in W. rewrite app_assoc in W. set (q := zlen (pre ++ from_code s (k + 1))) in *.
      nx ltac:(eapply (step_literal m 0 _ W q 0); [ replace q with (q + 0) by lia; unfold q; rewrite code_at by lia; reflexivity | unfold q; rewrite code_at by lia; reflexivity | rewrite (vm_stack m V); lia ]).
      nx ltac:(eapply (step_write m 0 _ W (q + 1 + 1) k); [ replace (q + 1 + 1) with (q + 2) by lia; unfold q; rewrite code_at by lia; reflexivity | replace (q + 1 + 1 + 1) with (q + 3) by lia; unfold q; rewrite code_at by lia; reflexivity | exact N1 | rewrite T, cast_zero; exact WO ]).
      apply steps_refl.
    + apply buf_upd; [ lia | congruence | exact R' | exact G' ].
    + cbn [map concat]. eapply holds_frame; [ exact H1 | intros o Ho; apply upd_other; lia ].
    + intros o Ho. rewrite upd_other by lia. apply O1. lia.
    + rewrite zlen_upd. exact Z1.
  - apply blank_rec in B. rewrite from_rec in *.
    assert (X : exists os', steps m (mkCfg st vs is os ((0, zlen pre) :: fr)) (mkCfg st vs is os' ((0, zlen (pre ++ from_f cs k)) :: fr))
       /\ holds_f cs 0 k [] os' /\ (forall o, ~ (k <= o < k + fold_right Z.add 0 (map size cs)) -> nthZ os' o = nthZ os o) /\ zlen os' = zlen os).
    2:{ destruct X as (os' & A1 & A2 & A3 & A4). exists os'. split; [ exact A1 | split; [ apply holds_rec; exact A2 | split; assumption ] ]. }
    revert k pre os W K B. generalize 0%nat. induction H as [ | c cs Hc _ IH ]; intros j k pre os W K B; cbn [blank_f from_f holds_f map fold_right] in *.
    + exists os. rewrite app_nil_r. split; [ apply steps_refl | auto ].
    + destruct B as [ B1 B2 ]. pose proof (size_pos c). assert (0 <= fold_right Z.add 0 (map size cs)) by (clear; induction cs as [ | z l IH ]; cbn; [ lia | pose proof (size_pos z); lia ]).
      destruct (Hc k pre (from_f cs (k + size c) ++ post) st vs is os fr) as (os1 & S1 & H1 & O1 & Z1); [ rewrite <- app_assoc in W; exact W | exact K | exact B1 | exact L | ].
      destruct (IH (S j) (k + size c) (pre ++ from_code c k) os1) as (os2 & S2 & H2 & O2 & Z2); [ rewrite <- !app_assoc in W |- *; exact W | lia | | ].
      { clear - B2 O1 H. assert (Q : forall cs k, blank_f cs k os -> (forall o, k <= o < k + fold_right Z.add 0 (map size cs) -> nthZ os1 o = nthZ os o) -> blank_f cs k os1).
        { clear. induction cs as [ | y l IHl ]; intros k Hh E; cbn [blank_f map fold_right] in *; [ exact I | ]. pose proof (size_pos y).
          assert (0 <= fold_right Z.add 0 (map size l)) by (clear; induction l as [ | z l IH ]; cbn; [ lia | pose proof (size_pos z); lia ]).
          split; [ eapply blank_frame; [ apply Hh | intros o Ho; apply E; lia ] | apply IHl; [ apply Hh | intros o Ho; apply E; lia ] ]. }
        apply Q; [ exact B2 | intros o Ho; apply O1; lia ]. }
      exists os2. split; [ | split; [ split | split ] ].
      * eapply steps_trans; [ exact S1 | ]. rewrite <- app_assoc in S2. exact S2.
      * eapply holds_frame; [ exact H1 | intros o Ho; apply O2; lia ].
      * exact H2.
      * intros o Ho. rewrite O2 by lia. apply O1. lia.
      * lia.
Qed.

Lemma height_nodes : forall s, height s <= nodes s.
Proof.
  induction s using shape_ind'; cbn [height nodes]; [ lia | lia | ].
  enough (fold_right Z.max 0 (map height cs) <= fold_right Z.add 0 (map nodes cs)) by lia.
  assert (forall l, Forall (fun s => height s <= nodes s) l -> 0 <= fold_right Z.add 0 (map nodes l)).
  { clear. induction 1 as [ | x l Hx _ IH ]; cbn; [ lia | pose proof (height_pos x); lia ]. }
  induction H as [ | c cs Hc HA IH ]; cbn [map fold_right]; [ lia | ]. pose proof (H0 cs HA). pose proof (height_pos c). lia.
Qed.

(** waiting, with the values [us] in the outputs *)
Definition waiting (s : shape) (m : machine) (us : list value) (P : cfg) : Prop :=
  exists bm wb l q st vs is os, P = mkCfg (zlen us :: st) vs is os [(bm, 1); (0, q)]
    /\ 0 <= bm /\ 0 <= wb /\ code_seg m 0 l /\ nthZ l (q - 1) = Some (66 + bm) /\ nthZ l q = Some 7 /\ code_seg m bm [2; 66 + wb; 46] /\ word m s wb 0
    /\ inok is /\ holds s 0 us os /\ zlen st <= nodes s /\ zlen os = size s.

Lemma start : forall s m is, program s m -> nodes s <= 300 -> inok is ->
  exists N P x y z, waiting s m [] P /\ forall fuel, (N <= fuel)%nat -> run_ m is fuel (Forth.initial m) = Some (ARet e_none (st_of P x y z)).
Proof.
  intros s m is [ V OI TY (bm & wb & E & BM & WB & W & LE & WM & WW) ] NS Hi.
  set (os0 := map (fun t => mkOut t (repeat None (Z.to_nat 1024)) 0) (types s)).
  assert (B0 : blank s 0 os0) by (apply (blank_start s (types s) [] []); rewrite app_nil_r; reflexivity).
  set (vs := map (fun _ : Z => 0) (repeat 0 (Z.to_nat (m_nvars m)))).
  pose proof (run_strings m E [] (from_code s 0 ++ [0; 0; 66 + bm; 7]) [] vs is os0 [] V W ltac:(change (zlen (@nil Z)) with 0; lia)) as S1. cbn [app] in S1. rewrite app_nil_r in S1. change (zlen (@nil Z)) with 0 in S1.
  assert (ZR : zlen (rev E) = zlen E) by (unfold zlen; rewrite rev_length; reflexivity).
  destruct (run_from m s V 0 (concat (map (fun i => [24; i]) E)) [0; 0; 66 + bm; 7] (rev E) vs is os0 [] W ltac:(lia) B0 ltac:(lia)) as (os1 & S2 & H1 & _ & Z1).
  rewrite app_assoc in W. set (pre := concat (map (fun i => [24; i]) E) ++ from_code s 0) in *. set (q := zlen pre) in *.
  assert (S3 : steps m (mkCfg (rev E) vs is os1 [(0, q)]) (mkCfg (0 :: rev E) vs is os1 [(bm, 0); (0, q + 3)])).
  { nx ltac:(eapply (step_literal m 0 _ W q 0); [ replace q with (q + 0) by lia; unfold q; rewrite code_at by lia; reflexivity | unfold q; rewrite code_at by lia; reflexivity | rewrite (vm_stack m V); lia ]).
    nx ltac:(eapply (step_call m 0 _ W (q + 1 + 1) bm); [ replace (q + 1 + 1) with (q + 2) by lia; unfold q; rewrite code_at by lia; reflexivity | exact BM | rewrite (vm_rec m V); change (zlen (@nil (Z * Z))) with 0; lia ]).
    replace (q + 1 + 1 + 1) with (q + 3) by lia. apply steps_refl. }
  pose proof (pause_here m bm _ WM 0 (0 :: rev E) vs is os1 [(0, q + 3)] eq_refl ltac:(by_n)) as PA.
  destruct (pause_trips m _ _ _ (steps_trans _ _ _ _ S1 (steps_trans _ _ _ _ S2 S3)) ltac:(discriminate) PA 0 0 0) as (N & x & y & z & T).
  exists N, (mkCfg (0 :: rev E) vs is os1 [(bm, 0 + 1); (0, q + 3)]), x, y, z. split.
  - exists bm, wb, (pre ++ [0; 0; 66 + bm; 7]), (q + 3), (rev E), vs, is, os1. split; [ reflexivity | ]. split; [ exact BM | ]. split; [ exact WB | ]. split; [ exact W | ].
    split; [ replace (q + 3 - 1) with (q + 2) by lia; unfold q; rewrite code_at by lia; reflexivity | ]. split; [ unfold q; rewrite code_at by lia; reflexivity | ].
    split; [ exact WM | ]. split; [ exact WW | ]. split; [ exact Hi | ]. split; [ exact H1 | ]. split; [ lia | ]. rewrite Z1. unfold os0. rewrite zlen_map. apply types_len.
  - intros fuel L. unfold run_, internal_run. 
    replace (begin_ m is (initial m)) with (st_of (mkCfg [] vs is os0 [(0, 0)]) 0 0 0) by (unfold begin_, st_of, initial, reset, os0; cbn; rewrite OI, TY; reflexivity).
    rewrite T by exact L. rewrite pop_going by discriminate. reflexivity.
Qed.

Lemma one_value : forall s m us v P, vm_ok m -> nodes s <= 300 -> waiting s m us P -> of_shape s v -> few s (us ++ [v]) ->
  exists P', sent m P (cmds_of s v) P' /\ waiting s m (us ++ [v]) P'.
Proof.
  intros s m us v P V NS (bm & wb & l & q & st & vs & is & os & -> & BM & WB & W & Q1 & Q2 & WM & WW & Hi & Hh & LS & LO) Ov F.
  destruct (first_cmd m s wb 0 v WW Ov) as (c0 & rest & E & L0 & _). pose proof (height_nodes s). pose proof (height_pos s).
  destruct (eat m s V wb 0 v us c0 rest (zlen us :: st) vs (feed_ins (fst c0) is) os [(bm, 2); (0, q)] WW ltac:(lia) Ov E Hh F) as (is' & os' & RN & H' & I' & _ & Z').
  { apply feed_fed; assumption. } { change (zlen [(bm, 2); (0, q)]) with 2. lia. } { rewrite zlen_cons. lia. }
  pose proof (few_len _ _ F) as FL. rewrite zlen_app in FL. change (zlen [v]) with 1 in FL. pose proof (zlen_nonneg us).
  exists (mkCfg (zlen us + 1 :: st) vs is' os' [(bm, 0 + 1); (0, q)]). split.
  - rewrite E. eapply (runs_sent m rest (feed c0 (mkCfg (zlen us :: st) vs is os [(bm, 1); (0, q)]))).
    + eapply runs_pre; [ | exact RN ]. unfold feed. cbn [k_stk k_vars k_ins k_outs k_frames].
      nx ltac:(eapply (step_call m bm _ WM 1 wb); [ by_n | exact WB | rewrite (vm_rec m V); change (zlen [(0, q)]) with 1; lia ]). apply steps_refl.
    + nx ltac:(eapply (step_add1 m bm _ WM 2); [ by_n | apply (vm_width m V) | lia ]).
      nx ltac:(exact (step_end m bm _ _ _ _ _ _ WM)).
      nx ltac:(eapply (step_again m 0 _ W q); exact Q2).
      nx ltac:(eapply (step_call m 0 _ W (q - 1) bm); [ exact Q1 | exact BM | rewrite (vm_rec m V); change (zlen (@nil (Z * Z))) with 0; lia ]).
      replace (q - 1 + 1) with q by lia. apply steps_refl.
    + discriminate.
    + eapply (pause_here m bm _ WM 0); by_n.
    + reflexivity.
    + cbn [k_stk]. rewrite zlen_cons, (vm_stack m V). lia.
    + exact Hi.
    + exact L0.
  - exists bm, wb, l, q, st, vs, is', os'. rewrite zlen_app. change (zlen [v]) with 1. split; [ reflexivity | ]. repeat (split; [ assumption | ]). lia.
Qed.

Lemma many_values : forall s m ws us P, vm_ok m -> nodes s <= 300 -> waiting s m us P -> Forall (of_shape s) ws -> few s (us ++ ws) ->
  exists P', sent m P (concat (map (cmds_of s) ws)) P' /\ waiting s m (us ++ ws) P'.
Proof.
  intros s m ws. induction ws as [ | w ws IH ]; intros us P V NS WT FO F.
  - exists P. rewrite app_nil_r. split; [ constructor | exact WT ].
  - inversion FO as [ | ? ? Ow FO' ]; subst. assert (D : us ++ w :: ws = (us ++ [w]) ++ ws) by (rewrite <- app_assoc; reflexivity). rewrite D in *.
    destruct (one_value s m us w P V NS WT Ow (few_prefix _ _ _ F)) as (P1 & S1 & W1).
    destruct (IH (us ++ [w]) P1 V NS W1 FO' F) as (P2 & S2 & W2). exists P2. split; [ | exact W2 ]. cbn [map concat]. eapply sent_app; eassumption.
Qed.
