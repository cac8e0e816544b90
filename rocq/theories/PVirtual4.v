(** Proofs about virtual arrays: generators that raise or give an inconsistent array, and indexes out of range. *)
From Verif Require Import Base BaseLemmas LoopLemmas OmapLemmas Content KCore Core KRange KConvert Convert KOption Option KAxis Axis KGetitem
  SpecArray SpecForm SpecSlice PCore PRange PCarry Getitem SpecGetitem Virtual SpecVirtual PVirtual PVirtual2 PVirtual3.
From Coq Require Import String.
From Coq Require Import List.
Import ListNotations.
Local Open Scope string_scope.
Local Open Scope list_scope.
Local Open Scope Z_scope.
Ltac Zify.zify_post_hook ::= idtac.

Section World.
Variable is64 : content -> bool.
Variable fuel : nat.
Variable make : Z -> res content.
Variable lost : nat -> bool.

(** ** an index out of range *)
Lemma bad_index g w x f vs idx : (2 <= fuel)%nat -> good g w -> shows is64 fuel make g x (f, vs) -> omap (elem vs) idx = None ->
  (exists m, ask is64 fuel make lost x (RIndex idx) w = Err m) \/
  (exists y w' m, ask is64 fuel make lost x (RIndex idx) w = Ok (y, w') /\ read is64 fuel make lost y w' = Err m).
Proof.
  intros Hf G (c & F & H) Hi. destruct (fuel2 fuel Hf) as [n En]. pose proof (index_request is64 n c vs idx (proj1 F)) as R. rewrite Hi in R. destruct R as [m R]. rewrite <- En in R. destruct x as [v|it]; cbn [ask].
  - unfold v_getitem. destruct (peek_ok is64 fuel make lost g v c w H G) as (o & w' & -> & G' & Ho). destruct o as [c'|].
    + left. rewrite (Ho c' eq_refl), R. cbn [bind]. eauto.
    + right. unfold new_slice. eexists _, _, m. split; [reflexivity|]. cbn [read array].
      assert (G2 : good g (World (clock w') (fresh w' + 1) (store w') (inferred w'))). { destruct G' as (A1 & A2 & A3). split; [exact A1|]. split; [exact A2|]. cbn [fresh]. intros i y Hy. specialize (A3 i y Hy). lia. }
      destruct (array_ok is64 fuel make lost Hf g v c _ H G2) as (w2 & -> & _). cbn [bind slice_generate]. rewrite R. reflexivity.
  - left. subst it. rewrite R. cbn [bind]. eauto.
Qed.

(** ** a generator that gives no consistent array *)
Variable v : varray.
(** the generator's array is never accepted *)
Hypothesis Hbad : forall w, store w = [] -> exists m, array is64 fuel make lost v w = Err m.
Fixpoint root (u : varray) : varray := match u with VUser _ _ _ _ => u | VSlice _ _ _ s _ => root s end.
Lemma bad_array u w : root u = v -> store w = [] -> exists m, array is64 fuel make lost u w = Err m.
Proof.
  revert w. induction u; intros w Hr Hw; cbn [root] in Hr.
  - rewrite Hr. apply Hbad. exact Hw.
  - cbn [array]. destruct (IHu w Hr Hw) as [m ->]. cbn [bind]. eauto.
Qed.
Lemma bad_peek u w : store w = [] -> exists w', peek lost u w = (None, w') /\ store w' = [].
Proof.
  intros Hw. destruct u as [id f n [|]|]; cbn [peek]; try (exists w; split; [reflexivity|exact Hw]). unfold cache_get. rewrite Hw. cbn [lookup]. eexists. split; [destruct (lost (clock w)); reflexivity|reflexivity].
Qed.
Definition pending (x : result) : Prop := exists u, x = Lazy u /\ root u = v.
Definition ok_pending (o : res (result * world)) : Prop := forall x w, o = Ok (x, w) -> pending x /\ store w = [].
Lemma bad_length u w n w' : root u = v -> store w = [] -> v_length is64 fuel make lost u w = Ok (n, w') -> w' = w.
Proof. intros Hr Hw. unfold v_length. destruct (vlen u <? 0); [destruct (bad_array u w Hr Hw) as [m ->]; discriminate|]. intros E. injection E as <- <-. reflexivity. Qed.
Lemma bad_slice form n u wh w : root u = v -> store w = [] -> ok_pending (new_slice form n u wh w).
Proof. intros Hr Hw x w' E. injection E as <- <-. split; [eexists; split; [reflexivity|exact Hr]|exact Hw]. Qed.
Lemma bad_range u a b w : root u = v -> store w = [] -> ok_pending (v_getitem_range_nowrap lost u a b w).
Proof.
  intros Hr Hw. unfold v_getitem_range_nowrap. destruct (bad_peek u w Hw) as (w' & -> & Hw'). destruct (_ && _ && _); [|apply bad_slice; assumption]. intros x w2 E. injection E as <- <-. split; [exists u; auto|exact Hw'].
Qed.
Lemma bad_ask x r w : pending x -> store w = [] -> ok_pending (ask is64 fuel make lost x r w).
Proof.
  intros (u & -> & Hr) Hw. destruct r; cbn [ask].
  - unfold v_getitem_range. destruct (vlen u <? 0); [destruct (bad_array u w Hr Hw) as [m ->]; intros ? ? E; discriminate|]. destruct (bad_peek u w Hw) as (w' & -> & Hw'). destruct (regularize_rangeslice _ _ _ _ _ _). apply bad_range; assumption.
  - unfold v_getitem. destruct (bad_peek u w Hw) as (w' & -> & Hw'). destruct (step =? 0); [intros ? ? E; discriminate|]. destruct (0 <=? vlen u); [destruct (regularize_rangeslice _ _ _ _ _ _); apply bad_slice; assumption|]. destruct (bad_array u w' Hr Hw') as [m ->]. intros ? ? E; discriminate.
  - unfold v_getitem. destruct (bad_peek u w Hw) as (w' & -> & Hw'). apply bad_slice; assumption.
  - unfold v_getitem_field. destruct (bad_peek u w Hw) as (w' & -> & Hw'). intros x w2 E. apply bind_Ok in E. destruct E as (form & _ & E). revert E. apply bad_slice; assumption.
  - unfold v_carry. intros x w2 E. apply bind_Ok in E. destruct E as (b & _ & E). destruct b.
    + apply bind_Ok in E. destruct E as ([n w1] & En & E). apply (bad_length u w n w1 Hr Hw) in En. subst w1. destruct (_ =? _); [injection E as <- <-; split; [exists u; auto|exact Hw]|]. revert E. apply bad_range; assumption.
    + destruct (bad_peek u w Hw) as (w' & Ep & Hw'). rewrite Ep in E. revert E. apply bad_slice; assumption.
Qed.
Lemma bad_history acts : forall pool w pool' w', Forall pending pool -> store w = [] -> history is64 fuel make lost acts pool w = Ok (pool', w') -> Forall pending pool' /\ store w' = [].
Proof.
  induction acts as [|a acts IH]; intros pool w pool' w' F Hw E; cbn [history] in E; [injection E as <- <-; auto|]. apply bind_Ok in E. destruct E as ([p1 w1] & E1 & E). cbn [fst snd] in E.
  assert (R : forall k x, rd pool k = Ok x -> pending x). { intros k x Hx. apply rd_Ok in Hx. rewrite Forall_forall in F. apply F. eapply nthZ_In; exact Hx. }
  destruct a; cbn [act] in E1; apply bind_Ok in E1; destruct E1 as (x & Ex & E1); pose proof (R _ _ Ex) as P; apply bind_Ok in E1; destruct E1 as ([y w2] & E2 & E1); cbn [fst snd] in E1; injection E1 as <- <-.
  - destruct (bad_ask x r w P Hw _ _ E2) as [Py Hw2]. eapply IH; [|exact Hw2|exact E]. apply Forall_app. split; [exact F|constructor; [exact Py|constructor]].
  - destruct P as (u & -> & Hr). cbn [read] in E2. destruct (bad_array u w Hr Hw) as [m Em]. rewrite Em in E2. discriminate.
  - destruct P as (u & -> & Hr). cbn [ask_length] in E2. apply (bad_length u w y w2 Hr Hw) in E2. subst w2. eapply IH; eassumption.
  - destruct P as (u & -> & Hr). cbn [ask_at] in E2. unfold v_getitem_at in E2. exfalso. apply bind_Ok in E2. destruct E2 as ([n w3] & E3 & E2).
    assert (w3 = w) as ->. { destruct (at_ <? 0); [exact (bad_length u w n w3 Hr Hw E3)|injection E3 as <- <-; reflexivity]. }
    apply bind_Ok in E2. destruct E2 as ([n4 w4] & E4 & E2). apply (bad_length u w n4 w4 Hr Hw) in E4. subst w4. destruct (negb _); [discriminate|]. destruct (bad_array u w Hr Hw) as [m Em]. rewrite Em in E2. discriminate.
Qed.
End World.

Lemma inconsistent_array is64 fuel make lost id form len cached :
  match make id with
  | Ok c => 0 <= len /\ length_ c < len \/ exists f, form = Some f /\ form_equal f (layout c) = false
  | Err _ => True
  | UB => False
  end -> forall w, store w = [] -> exists m, array is64 fuel make lost (VUser id form len cached) w = Err m.
Proof.
  intros Hb w Hw. cbn [array].
  assert (X : exists w', (if cached then cache_get lost id w else (None, w)) = (None, w')).
  { destruct cached; [|eauto]. unfold cache_get. rewrite Hw. cbn [lookup]. destruct (lost (clock w)); eauto. }
  destruct X as (w' & ->). destruct (make id) as [c|m|]; [|cbn [bind]; eauto|contradiction]. cbn [bind]. unfold check_generated. destruct Hb as [[H1 H2]|(f & -> & H2)].
  - destruct (Z.leb_spec 0 len); [|lia]. destruct (Z.ltb_spec (length_ c) len); [|lia]. cbn [andb bind]. eauto.
  - destruct (_ && _); [cbn [bind]; eauto|]. rewrite H2. cbn [bind]. eauto.
Qed.
