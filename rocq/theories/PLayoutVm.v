(** The Forth machine under a LayoutBuilder: instruction by instruction *)
From Coq Require Import String.
From Verif Require Import Base BaseLemmas Forth PForthOut PForthRun PForthStep PForthRead PForthRead2 SpecForthRun PForthLoop LayoutBuild.
Local Open Scope list_scope.
Local Open Scope Z_scope.

(** What matters of a state which is under way *)
Record cfg := mkCfg { k_stk : list Z; k_vars : list Z; k_ins : list inbuf; k_outs : list outbuf; k_frames : list (Z * Z) }.
Definition st_of (k : cfg) (a b c : Z) : state :=
  mkState (k_stk k) (k_vars k) (k_ins k) (k_outs k) true (k_frames k) [0] [] e_none a b c.

Definition step (m : machine) (k k' : cfg) : Prop :=
  forall a b c, exists i j a' b' c', tick m false 0 i (st_of k a b c) = TGo j (st_of k' a' b' c').
(** a pause: internal_run returns *)
Definition pauses (m : machine) (k k' : cfg) : Prop :=
  k_frames k' <> [] /\ forall a b c, exists i a' b' c', tick m false 0 i (st_of k a b c) = TRet (st_of k' a' b' c').

Inductive steps (m : machine) : cfg -> cfg -> Prop :=
| steps_refl : forall k, steps m k k
| steps_next : forall k k' k'', k_frames k <> [] -> step m k k' -> steps m k' k'' -> steps m k k''.
Lemma steps_trans : forall m a b c, steps m a b -> steps m b c -> steps m a c.
Proof. intros m a b c H. induction H; intros; [ assumption | ]. eapply steps_next; eauto. Qed.

(** a segment and its code *)
Definition code_seg (m : machine) (w : Z) (l : list Z) : Prop :=
  exists a, nthZ (m_offs m) w = Some a /\ nthZ (m_offs m) (w + 1) = Some (a + zlen l)
            /\ forall p, 0 <= p < zlen l -> nthZ (m_code m) (a + p) = nthZ l p.

Lemma code_here : forall m w l p c s fr, code_seg m w l -> nthZ l p = Some c -> frames s = (w, p) :: fr -> here m s w p fr c.
Proof.
  intros m w l p c s fr (a & A & B & C) N F. destruct (nthZ_Some _ _ _ N) as [ P0 P1 ]. split; [ exact F | ]. exists a, (zlen l).
  split; [ split; assumption | ]. split; [ lia | ]. rewrite C by lia. exact N.
Qed.

(** the operand after the code at p *)
Lemma code_operand : forall m w l p c s fr k, code_seg m w l -> nthZ l p = Some c -> frames s = (w, p) :: fr ->
  operand m s k = k c (where_add 1 s).
Proof.
  intros m w l p c s fr k H N F. destruct (here_get _ _ _ _ _ _ (code_here _ _ _ _ _ _ _ H N F)) as [ G _ ]. unfold operand. rewrite G. reflexivity.
Qed.

Lemma step_exec : forall m w l p c k k' fr, code_seg m w l -> nthZ l p = Some c -> k_frames k = (w, p) :: fr ->
  (forall a b d, exists a' b' d', exec m false c (st_of (mkCfg (k_stk k) (k_vars k) (k_ins k) (k_outs k) ((w, p + 1) :: fr)) a b d) = XNext (st_of k' a' b' d')) ->
  step m k k'.
Proof.
  intros m w l p c k k' fr H N F X a b d. destruct (X a b d) as (a' & b' & d' & E).
  destruct (here_get _ _ _ _ _ _ (code_here m w l p c (st_of k a b d) fr H N F)) as [ G SD ].
  exists true, true, (a' + 1), b', d'. unfold tick. cbn [negb andb]. rewrite SD. unfold one_instruction. rewrite G. cbn [in_do st_of dos].
  replace (where_add 1 (st_of k a b d)) with (st_of (mkCfg (k_stk k) (k_vars k) (k_ins k) (k_outs k) ((w, p + 1) :: fr)) a b d)
    by (unfold where_add, st_of; cbn; rewrite F; reflexivity).
  cbn zeta. rewrite E. unfold after_instruction. cbn [negb]. reflexivity.
Qed.

Lemma step_end : forall m w l st vs is os fr, code_seg m w l ->
  step m (mkCfg st vs is os ((w, zlen l) :: fr)) (mkCfg st vs is os fr).
Proof.
  intros m w l st vs is os fr (a & A & B & C) x y z. exists true, false, x, y, z. unfold tick. cbn [negb andb].
  unfold is_segment_done, seg_len, which_where, st_of; cbn [frames k_frames]. rewrite A, B.
  replace (a + zlen l - a) with (zlen l) by lia. rewrite Z.ltb_irrefl. cbn [negb]. reflexivity.
Qed.

Lemma read_one : forall m f bs rest i o bf bf' v s k, zlen bs = fmt_size f ->
  nthZ (outs s) o = Some bf -> item_to_out m (otype bf) f false bs = Some v -> write_one m v bf = OOk bf' ->
  nthZ (ins s) i = Some (mkIn (bs ++ rest) 0) -> zlen (bs ++ rest) < 2^63 ->
  read_direct m f false i o 1 s k = k (set_out o bf' (set_in i (mkIn (bs ++ rest) (zlen bs)) s)).
Proof.
  intros m f bs rest i o bf bf' v s k Hl Hb Hv Hw Hi H63. unfold read_direct. pose proof (zlen_nonneg bs). pose proof (zlen_nonneg rest).
  rewrite zlen_app in H63. rewrite <- Hl, Z.mul_1_l. rewrite fits64 by lia. cbn [negb]. change (bs ++ rest) with (@nil Z ++ bs ++ rest) in Hi |- *. rewrite (read_ok i _ s _ _ _ Hi) by (cbn [app]; rewrite ?zlen_app; change (zlen (@nil Z)) with 0; lia).
  change (1 <? 0) with false. cbn iota. change (Z.to_nat 1) with (List.length [bs]).
  rewrite (items_at_ok [bs] i (zlen bs) _ (bs ++ rest) (zlen bs) [] rest); [ | lia | apply (in_set_in _ _ _ _ Hi) | cbn [concat app]; rewrite ?app_nil_r; reflexivity | constructor; [ reflexivity | constructor ] ].
  unfold with_out. cbn [outs set_in set_ins]. rewrite Hb. cbn [optmap]. rewrite Hv. cbn [Z.eqb Pos.eqb]. rewrite Hw. reflexivity.
Qed.

Section Steps.
  Variables (m : machine) (w : Z) (l : list Z).
  Hypothesis L : code_seg m w l.
  Notation C st vs is os fr := (mkCfg st vs is os fr).

  Ltac ex := intros; unfold exec; cbn [Z.ltb Z.leb Z.compare BOUND_DICTIONARY]; unfold exec_code.

  Lemma step_literal : forall p n st vs is os fr, nthZ l p = Some 0 -> nthZ l (p + 1) = Some n -> zlen st < m_stackmax m ->
    step m (C st vs is os ((w, p) :: fr)) (C (n :: st) vs is os ((w, p + 1 + 1) :: fr)).
  Proof.
    intros p n st vs is os fr A B R. eapply step_exec; [ exact L | exact A | reflexivity | ]. intros a b d. exists a, b, d. change (exec m false 0) with (exec_code m false 0). unfold exec_code.
    rewrite (code_operand m w l (p + 1) n _ fr _ L B) by reflexivity. unfold push_or_fail, stack_cannot_push, stack_push. cbn.
    destruct (Z.eqb_spec (zlen st) (m_stackmax m)); [ lia | ]. destruct (Z.ltb_spec (zlen st) (m_stackmax m)); [ reflexivity | lia ].
  Qed.
  Lemma step_string : forall p n st vs is os fr, nthZ l p = Some 24 -> nthZ l (p + 1) = Some n -> zlen st < m_stackmax m ->
    step m (C st vs is os ((w, p) :: fr)) (C (n :: st) vs is os ((w, p + 1 + 1) :: fr)).
  Proof.
    intros p n st vs is os fr A B R. eapply step_exec; [ exact L | exact A | reflexivity | ]. intros a b d. exists a, b, d. change (exec m false 24) with (exec_code m false 24). unfold exec_code.
    rewrite (code_operand m w l (p + 1) n _ fr _ L B) by reflexivity. unfold push_or_fail, stack_cannot_push, stack_push. cbn.
    destruct (Z.eqb_spec (zlen st) (m_stackmax m)); [ lia | ]. destruct (Z.ltb_spec (zlen st) (m_stackmax m)); [ reflexivity | lia ].
  Qed.
  Lemma pop2_ok : forall x y (st : list Z), (zlen (x :: y :: st) <? 2) = false.
  Proof. intros. apply Z.ltb_ge. rewrite !zlen_cons. pose proof (zlen_nonneg st). lia. Qed.
  Lemma pop_ok : forall x (st : list Z), (zlen (x :: st) =? 0) = false.
  Proof. intros. apply Z.eqb_neq. rewrite !zlen_cons. pose proof (zlen_nonneg st). lia. Qed.
  Lemma step_eq : forall p x y st vs is os fr, nthZ l p = Some 51 ->
    step m (C (y :: x :: st) vs is os ((w, p) :: fr)) (C (bool_of (x =? y) :: st) vs is os ((w, p + 1) :: fr)).
  Proof.
    intros p x y st vs is os fr A. eapply step_exec; [ exact L | exact A | reflexivity | ]. intros a b d. exists a, b, d. change (exec m false 51) with (exec_code m false 51). unfold exec_code, binary, stack_cannot_pop2. cbn [st_of stk k_stk].
    rewrite pop2_ok. reflexivity.
  Qed.
  Lemma step_ne : forall p x y st vs is os fr, nthZ l p = Some 52 ->
    step m (C (y :: x :: st) vs is os ((w, p) :: fr)) (C (bool_of (negb (x =? y)) :: st) vs is os ((w, p + 1) :: fr)).
  Proof.
    intros p x y st vs is os fr A. eapply step_exec; [ exact L | exact A | reflexivity | ]. intros a b d. exists a, b, d. change (exec m false 52) with (exec_code m false 52). unfold exec_code, binary, stack_cannot_pop2. cbn [st_of stk k_stk].
    rewrite pop2_ok. reflexivity.
  Qed.
  Lemma step_if_no : forall p st vs is os fr, nthZ l p = Some 3 ->
    step m (C (0 :: st) vs is os ((w, p) :: fr)) (C st vs is os ((w, p + 1 + 1) :: fr)).
  Proof.
    intros p st vs is os fr A. eapply step_exec; [ exact L | exact A | reflexivity | ]. intros a b d. exists a, b, d. change (exec m false 3) with (exec_code m false 3).
    unfold exec_code, pop_or_fail, stack_cannot_pop. cbn [st_of stk k_stk]. rewrite pop_ok. reflexivity.
  Qed.
  Lemma step_ifelse_no : forall p st vs is os fr, nthZ l p = Some 4 ->
    step m (C (0 :: st) vs is os ((w, p) :: fr)) (C st vs is os ((w, p + 1 + 1) :: fr)).
  Proof.
    intros p st vs is os fr A. eapply step_exec; [ exact L | exact A | reflexivity | ]. intros a b d. exists a, b, d. change (exec m false 4) with (exec_code m false 4).
    unfold exec_code, pop_or_fail, stack_cannot_pop. cbn [st_of stk k_stk]. rewrite pop_ok. reflexivity.
  Qed.
  Lemma step_ifelse_yes : forall p b1 st vs is os fr, nthZ l p = Some 4 -> nthZ l (p + 1) = Some (66 + b1) -> zlen fr + 1 < m_recmax m ->
    step m (C (-1 :: st) vs is os ((w, p) :: fr)) (C st vs is os ((b1, 0) :: (w, p + 3) :: fr)).
  Proof.
    intros p b1 st vs is os fr A B R. eapply step_exec; [ exact L | exact A | reflexivity | ]. intros a b d. exists (a + 1), b, d. change (exec m false 4) with (exec_code m false 4).
    unfold exec_code, pop_or_fail, stack_cannot_pop. cbn [st_of stk k_stk]. rewrite pop_ok. cbn [stack_pop stk st_of k_stk k_vars k_ins k_outs k_frames]. change (-1 =? 0) with false. cbn iota.
    destruct (here_get _ _ _ _ _ _ (code_here m w l (p + 1) (66 + b1) (st_of (C st vs is os ((w, p + 1) :: fr)) a b d) fr L B eq_refl)) as [ G _ ].
    unfold stack_pop, st_of. cbn [stk k_stk k_vars k_ins k_outs k_frames]. change (-1 =? 0) with false. cbn iota. unfold set_stk. cbn [vars ins outs ready frames targets dos err n_instr n_reads n_writes].
    unfold st_of in G. cbn [k_stk k_vars k_ins k_outs k_frames] in G. rewrite G.
    unfold push_segment_or_fail, bytecodes_pointer_push, depth, where_add, BOUND_DICTIONARY. cbn [frames set_frames]. rewrite zlen_cons.
    destruct (Z.eqb_spec (zlen fr + 1) (m_recmax m)); [ lia | ]. destruct (Z.ltb_spec (zlen fr + 1) (m_recmax m)); [ | lia ].
    replace (66 + b1 - 66) with b1 by lia. replace (p + 3) with (p + 1 + 2) by lia. reflexivity.
  Qed.
  Lemma step_call : forall p b1 st vs is os fr, nthZ l p = Some (66 + b1) -> 0 <= b1 -> zlen fr + 1 < m_recmax m ->
    step m (C st vs is os ((w, p) :: fr)) (C st vs is os ((b1, 0) :: (w, p + 1) :: fr)).
  Proof.
    intros p b1 st vs is os fr A P R. eapply step_exec; [ exact L | exact A | reflexivity | ]. intros a b d. exists a, b, d. unfold exec.
    destruct (Z.ltb_spec (66 + b1) 0); [ lia | ]. unfold BOUND_DICTIONARY. destruct (Z.leb_spec 66 (66 + b1)); [ | lia ].
    unfold push_segment_or_fail, bytecodes_pointer_push, depth. cbn [frames st_of k_frames]. rewrite zlen_cons.
    destruct (Z.eqb_spec (zlen fr + 1) (m_recmax m)); [ lia | ]. destruct (Z.ltb_spec (zlen fr + 1) (m_recmax m)); [ | lia ].
    replace (66 + b1 - 66) with b1 by lia. reflexivity.
  Qed.
  Lemma step_drop : forall p x st vs is os fr, nthZ l p = Some 33 ->
    step m (C (x :: st) vs is os ((w, p) :: fr)) (C st vs is os ((w, p + 1) :: fr)).
  Proof.
    intros p x st vs is os fr A. eapply step_exec; [ exact L | exact A | reflexivity | ]. intros a b d. exists a, b, d. change (exec m false 33) with (exec_code m false 33).
    unfold exec_code, pop_or_fail, stack_cannot_pop. cbn [st_of stk k_stk]. rewrite pop_ok. reflexivity.
  Qed.
  Lemma step_dup : forall p x st vs is os fr, nthZ l p = Some 32 -> zlen st + 1 < m_stackmax m ->
    step m (C (x :: st) vs is os ((w, p) :: fr)) (C (x :: x :: st) vs is os ((w, p + 1) :: fr)).
  Proof.
    intros p x st vs is os fr A R. eapply step_exec; [ exact L | exact A | reflexivity | ]. intros a b d. exists a, b, d. change (exec m false 32) with (exec_code m false 32).
    unfold exec_code, stack_cannot_pop, stack_cannot_push, stack_push. cbn [st_of stk k_stk]. rewrite pop_ok, zlen_cons.
    destruct (Z.eqb_spec (zlen st + 1) (m_stackmax m)); [ lia | ]. destruct (Z.ltb_spec (zlen st + 1) (m_stackmax m)); [ reflexivity | lia ].
  Qed.
  Lemma step_add1 : forall p x st vs is os fr, nthZ l p = Some 46 -> m_width m = 32 -> 0 <= x < 2^31 - 1 ->
    step m (C (x :: st) vs is os ((w, p) :: fr)) (C (x + 1 :: st) vs is os ((w, p + 1) :: fr)).
  Proof.
    intros p x st vs is os fr A W R. eapply step_exec; [ exact L | exact A | reflexivity | ]. intros a b d. exists a, b, d. change (exec m false 46) with (exec_code m false 46).
    unfold exec_code, unary, stack_cannot_pop, arith. cbn [st_of stk k_stk]. rewrite pop_ok, W. unfold fits.
    destruct (Z.leb_spec (- 2^(32-1)) (x + 1)); [ | lia ]. destruct (Z.ltb_spec (x + 1) (2^(32-1))); [ reflexivity | change (2^(32-1)) with (2^31) in *; lia ].
  Qed.
  Lemma step_again : forall p st vs is os fr, nthZ l p = Some 7 ->
    step m (C st vs is os ((w, p) :: fr)) (C st vs is os ((w, p - 1) :: fr)).
  Proof.
    intros p st vs is os fr A. eapply step_exec; [ exact L | exact A | reflexivity | ]. intros a b d. exists a, b, d. change (exec m false 7) with (exec_code m false 7).
    unfold exec_code, where_add. cbn [st_of frames k_frames]. replace (p - 1) with (p + 1 + -2) by lia. reflexivity.
  Qed.
  Lemma step_seek0 : forall p d pos st vs os fr, nthZ l p = Some 17 -> nthZ l (p + 1) = Some 0 ->
    step m (C (0 :: st) vs [mkIn d pos] os ((w, p) :: fr)) (C st vs [mkIn d 0] os ((w, p + 1 + 1) :: fr)).
  Proof.
    intros p d pos st vs os fr A B. eapply step_exec; [ exact L | exact A | reflexivity | ]. intros a b e. exists a, b, e. change (exec m false 17) with (exec_code m false 17). unfold exec_code.
    rewrite (code_operand m w l (p + 1) 0 _ fr _ L B) by reflexivity. unfold pop_or_fail, stack_cannot_pop, where_add. cbn [st_of frames k_frames set_frames stk k_stk]. rewrite pop_ok.
    unfold stack_pop, seek_. cbn [stk set_stk ins k_ins]. cbn. change (nthZ [mkIn d pos] 0) with (Some (mkIn d pos)). cbn iota. cbn [idata]. pose proof (zlen_nonneg d). destruct (Z.ltb_spec (zlen d) 0); [ lia | ]. reflexivity.
  Qed.
  (** an operation of an output *)
  Lemma step_write_add : forall p o x bf bf' st vs is os fr, nthZ l p = Some 20 -> nthZ l (p + 1) = Some o -> nthZ os o = Some bf -> owrite_add m x bf = OOk bf' ->
    step m (C (x :: st) vs is os ((w, p) :: fr)) (C st vs is (upd os (Z.to_nat o) bf') ((w, p + 1 + 1) :: fr)).
  Proof.
    intros p o x bf bf' st vs is os fr A B N X. eapply step_exec; [ exact L | exact A | reflexivity | ]. intros a b e. exists a, b, (e + 1). change (exec m false 20) with (exec_code m false 20). unfold exec_code.
    rewrite (code_operand m w l (p + 1) o _ fr _ L B) by reflexivity. unfold pop_or_fail, stack_cannot_pop, where_add. cbn [st_of frames k_frames set_frames stk k_stk]. rewrite pop_ok.
    unfold stack_pop, with_out, set_outs, set_stk, set_frames, st_of. cbn [stk vars ins outs ready frames targets dos err n_instr n_reads n_writes k_stk k_vars k_ins k_outs k_frames]. rewrite N, X. reflexivity.
  Qed.
  Lemma step_write : forall p o x bf bf' st vs is os fr, nthZ l p = Some 19 -> nthZ l (p + 1) = Some o -> nthZ os o = Some bf -> write_one m (cast_out m (otype bf) x) bf = OOk bf' ->
    step m (C (x :: st) vs is os ((w, p) :: fr)) (C st vs is (upd os (Z.to_nat o) bf') ((w, p + 1 + 1) :: fr)).
  Proof.
    intros p o x bf bf' st vs is os fr A B N X. eapply step_exec; [ exact L | exact A | reflexivity | ]. intros a b e. exists a, b, (e + 1). change (exec m false 19) with (exec_code m false 19). unfold exec_code.
    rewrite (code_operand m w l (p + 1) o _ fr _ L B) by reflexivity. unfold pop_or_fail, stack_cannot_pop, where_add. cbn [st_of frames k_frames set_frames stk k_stk]. rewrite pop_ok.
    unfold stack_pop, with_out, set_outs, set_stk, set_frames, st_of. cbn [stk vars ins outs ready frames targets dos err n_instr n_reads n_writes k_stk k_vars k_ins k_outs k_frames]. rewrite N, X. reflexivity.
  Qed.
  (** exit two segments up: out of the loop's body and of the branch, to the end of the word *)
  Lemma step_exit2 : forall p st vs is os f1 f2 f3 fr, nthZ l p = Some 10 -> nthZ l (p + 1) = Some 2 ->
    f1 = (w, p) -> step m (C st vs is os (f1 :: f2 :: f3 :: fr)) (C st vs is os fr).
  Proof.
    intros p st vs is os f1 f2 f3 fr A B -> a b d.
    destruct (here_get _ _ _ _ _ _ (code_here m w l p 10 (st_of (C st vs is os ((w, p) :: f2 :: f3 :: fr)) a b d) (f2 :: f3 :: fr) L A eq_refl)) as [ G SD ].
    exists true, false, (a + 1), b, d. unfold tick. cbn [negb andb]. rewrite SD. unfold one_instruction. rewrite G. cbn [in_do st_of dos].
    change (exec m false 10) with (exec_code m false 10). unfold exec_code. cbn zeta.
    change (where_add 1 (mkState (k_stk (C st vs is os ((w, p) :: f2 :: f3 :: fr))) (k_vars (C st vs is os ((w, p) :: f2 :: f3 :: fr))) (k_ins (C st vs is os ((w, p) :: f2 :: f3 :: fr))) (k_outs (C st vs is os ((w, p) :: f2 :: f3 :: fr))) true (k_frames (C st vs is os ((w, p) :: f2 :: f3 :: fr))) [0] [] e_none a b d))
      with (st_of (C st vs is os ((w, p + 1) :: f2 :: f3 :: fr)) a b d).
    rewrite (code_operand m w l (p + 1) 2 _ (f2 :: f3 :: fr) _ L B) by reflexivity. unfold where_add. unfold depth, set_frames, st_of. cbn [stk vars ins outs ready frames targets dos err n_instr n_reads n_writes k_stk k_vars k_ins k_outs k_frames]. rewrite !zlen_cons.
    pose proof (zlen_nonneg fr). destruct (Z.leb_spec 2 (zlen fr + 1 + 1 + 1)); [ | lia ]. change (0 <=? 2) with true. cbn [andb]. reflexivity.
  Qed.
  (** a pause which is not the last code of its segment *)
  Lemma pause_here : forall p st vs is os fr, nthZ l p = Some 2 -> p + 1 < zlen l ->
    pauses m (C st vs is os ((w, p) :: fr)) (C st vs is os ((w, p + 1) :: fr)).
  Proof.
    intros p st vs is os fr A R. split; [ discriminate | ]. intros a b d.
    destruct (here_get _ _ _ _ _ _ (code_here m w l p 2 (st_of (C st vs is os ((w, p) :: fr)) a b d) fr L A eq_refl)) as [ G SD ].
    exists true, (a + 1), b, d. unfold tick. cbn [negb andb]. rewrite SD. unfold one_instruction. rewrite G. cbn [in_do st_of dos].
    change (exec m false 2) with (exec_code m false 2). unfold exec_code. cbn zeta. cbn [k_stk k_vars k_ins k_outs k_frames].
    change (where_add 1 (mkState st vs is os true ((w, p) :: fr) [0] [] e_none a b d)) with (st_of (C st vs is os ((w, p + 1) :: fr)) a b d).
    assert (D : is_segment_done m (st_of (C st vs is os ((w, p + 1) :: fr)) a b d) = Some false).
    { destruct L as (s & S1 & S2 & S3). unfold is_segment_done, seg_len, which_where. cbn [st_of frames k_frames]. rewrite S1, S2.
      replace (s + zlen l - s) with (zlen l) by lia. destruct (Z.ltb_spec (p + 1) (zlen l)); [ | lia ]. reflexivity. }
    change (where_add 1 (st_of (C st vs is os ((w, p) :: fr)) a b d)) with (st_of (C st vs is os ((w, p + 1) :: fr)) a b d).
    rewrite D. reflexivity.
  Qed.
  (** an item read into an output *)
  Lemma step_read : forall p F f o bs rest bf base v st vs os fr,
    nthZ l p = Some (Z.lnot (F + 1)) -> nthZ l (p + 1) = Some 0 -> nthZ l (p + 1 + 1) = Some o -> In F [8; 40; 104] -> fmt_of F = Some f ->
    zlen bs = fmt_size f -> zlen (bs ++ rest) < 2^63 -> nthZ os o = Some bf -> good bf base -> 0 < reserved bf -> growing m -> item_to_out m (otype bf) f false bs = Some v ->
    exists bf', step m (C st vs [mkIn (bs ++ rest) 0] os ((w, p) :: fr)) (C st vs [mkIn (bs ++ rest) (zlen bs)] (upd os (Z.to_nat o) bf') ((w, p + 3) :: fr))
      /\ good bf' (base ++ [v]) /\ 0 < reserved bf' /\ otype bf' = otype bf.
  Proof.
    intros p F f o bs rest bf base v st vs os fr A B E HF Hf Hl H63 N G R Gm Hv.
    assert (Fz : 0 <= fmt_size f) by (rewrite <- Hl; apply zlen_nonneg).
    destruct (write_one_ok m bf base v Gm R G) as (bf' & W & G' & R' & T').
    exists bf'. split; [ | auto ]. eapply step_exec; [ exact L | exact A | reflexivity | ]. intros a b d. exists a, (b + 1), (d + 1). cbn [k_stk k_vars k_ins k_outs k_frames].
    assert (X : exec m false (Z.lnot (F + 1)) (st_of (C st vs [mkIn (bs ++ rest) 0] os ((w, p + 1) :: fr)) a b d) =
      read_direct m f false 0 o 1 (st_of (C st vs [mkIn (bs ++ rest) 0] os ((w, p + 1 + 1 + 1) :: fr)) a b d) (fun s => XNext (count_read (count_write s)))).
    { destruct (here_get _ _ _ _ _ _ (code_here m w l (p + 1) 0 (st_of (C st vs [mkIn (bs ++ rest) 0] os ((w, p + 1) :: fr)) a b d) fr L B eq_refl)) as [ G1 _ ].
      destruct (here_get _ _ _ _ _ _ (code_here m w l (p + 1 + 1) o (st_of (C st vs [mkIn (bs ++ rest) 0] os ((w, p + 1 + 1) :: fr)) a b d) fr L E eq_refl)) as [ G2 _ ].
      assert (Q : operand m (st_of (C st vs [mkIn (bs ++ rest) 0] os ((w, p + 1 + 1) :: fr)) a b d) = fun k => k o (st_of (C st vs [mkIn (bs ++ rest) 0] os ((w, p + 1 + 1 + 1) :: fr)) a b d)).
      { unfold operand. rewrite G2. reflexivity. }
      assert (Q1 : forall k, operand m (st_of (C st vs [mkIn (bs ++ rest) 0] os ((w, p + 1) :: fr)) a b d) k = k 0 (st_of (C st vs [mkIn (bs ++ rest) 0] os ((w, p + 1 + 1) :: fr)) a b d)).
      { intros k. unfold operand. rewrite G1. reflexivity. }
      cbn [In] in HF. destruct HF as [ <- | [ <- | [ <- | [] ] ] ]; injection Hf as <-.
      - change (exec m false (Z.lnot (8 + 1))) with (exec_read m (-10)). unfold exec_read. rewrite Q1. transitivity (operand m (st_of (C st vs [mkIn (bs ++ rest) 0] os ((w, p + 1 + 1) :: fr)) a b d) (fun out_num s => read_direct m FBool false 0 out_num 1 s (fun s => XNext (count_read (count_write s))))); [ reflexivity | rewrite Q; reflexivity ].
      - change (exec m false (Z.lnot (40 + 1))) with (exec_read m (-42)). unfold exec_read. rewrite Q1. transitivity (operand m (st_of (C st vs [mkIn (bs ++ rest) 0] os ((w, p + 1 + 1) :: fr)) a b d) (fun out_num s => read_direct m (FInt true 8) false 0 out_num 1 s (fun s => XNext (count_read (count_write s))))); [ reflexivity | rewrite Q; reflexivity ].
      - change (exec m false (Z.lnot (104 + 1))) with (exec_read m (-106)). unfold exec_read. rewrite Q1. transitivity (operand m (st_of (C st vs [mkIn (bs ++ rest) 0] os ((w, p + 1 + 1) :: fr)) a b d) (fun out_num s => read_direct m (FFloat 8) false 0 out_num 1 s (fun s => XNext (count_read (count_write s))))); [ reflexivity | rewrite Q; reflexivity ]. }
    rewrite X. rewrite (read_one m f bs rest 0 o bf bf' v) by (try assumption; reflexivity). replace (p + 3) with (p + 1 + 1 + 1) by lia. reflexivity.
  Qed.
End Steps.
