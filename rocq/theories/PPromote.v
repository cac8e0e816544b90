(** [promotes] is a preorder, and lifts through slices, indexes and rows. *)
From Coq Require Import Permutation.
From Verif Require Import Base BaseLemmas OmapLemmas Content SpecArray SpecMerge PList POption.

Fixpoint vsize (v : value) : nat :=
  match v with
  | VList l | VTuple l => S (list_sum (map vsize l))
  | VRec r => S (list_sum (map (fun p => vsize (snd p)) r))
  | _ => 1
  end.
Lemma list_sum_in {A} (f : A -> nat) l x : In x l -> (f x <= list_sum (map f l))%nat.
Proof. induction l as [|y l IH]; intros H; [destruct H|]. change (f x <= f y + list_sum (map f l))%nat. destruct H as [->|H]; [lia|apply IH in H; lia]. Qed.

Lemma F2_flip {A B} (R : A -> B -> Prop) l l' : Forall2 R l l' -> Forall2 (fun y x => R x y) l' l.
Proof. induction 1; constructor; assumption. Qed.

Section Promote.
Variable rc : Z -> Z.
Notation pr := (promotes rc).
Lemma Forall2_refl {A} (R : A -> A -> Prop) l : (forall x, R x x) -> Forall2 R l l.
Proof. intros H; induction l; constructor; auto. Qed.
Lemma Forall2_trans_in {A} (R : A -> A -> Prop) l1 l2 l3 : (forall x y z, In x l1 -> R x y -> R y z -> R x z) -> Forall2 R l1 l2 -> Forall2 R l2 l3 -> Forall2 R l1 l3.
Proof.
  intros H H12; revert l3; induction H12 as [|x y l1 l2 Hxy H12 IH]; intros l3 H23; inversion H23; subst; constructor.
  - eapply H; eauto. left; reflexivity.
  - apply IH; [|assumption]. intros; eapply H; eauto. right; assumption.
Qed.
Lemma promotes_trans v1 v2 v3 : pr v1 v2 -> pr v2 v3 -> pr v1 v3.
Proof.
  remember (vsize v1) as n eqn:En. assert (Hn : (vsize v1 <= n)%nat) by lia. clear En. revert v1 v2 v3 Hn.
  induction n as [|n IH]; intros v1 v2 v3 Hn H12 H23; [destruct v1; simpl in Hn; lia|].
  inversion H12; subst; try assumption.
  - inversion H23; subst; try constructor.
  - inversion H23; subst; try constructor.
  - inversion H23; subst; try constructor.
  - inversion H23; subst; [assumption|]. constructor. eapply Forall2_trans_in; [|eassumption|eassumption].
    intros x y z Hin. apply IH. simpl in Hn. pose proof (list_sum_in vsize l x Hin). lia.
  - inversion H23; subst; [assumption|]. constructor. eapply Forall2_trans_in; [|eassumption|eassumption].
    intros x y z Hin. apply IH. simpl in Hn. pose proof (list_sum_in vsize l x Hin). lia.
  - inversion H23; subst; [assumption|].
    assert (HF := H0). apply F2_flip in HF.
    destruct (Permutation_Forall2 H2 HF) as (r2' & P2 & F2). apply F2_flip in F2.
    econstructor; [eapply Permutation_trans; [exact H|exact P2]|].
    eapply Forall2_trans_in; [|exact F2|exact H3]. cbv beta. intros x y z Hin [A B] [C D]. split; [congruence|].
    eapply IH; [|exact B|exact D]. simpl in Hn.
    assert (Hin' : In x r). { eapply Permutation_in; [apply Permutation_sym; eapply Permutation_trans; [exact H|exact P2]|exact Hin]. }
    pose proof (list_sum_in (fun p => vsize (snd p)) r x Hin'). simpl in H1. lia.
Qed.
Lemma prs_refl l : Forall2 pr l l.
Proof. apply Forall2_refl; constructor. Qed.
Lemma prs_trans l1 l2 l3 : Forall2 pr l1 l2 -> Forall2 pr l2 l3 -> Forall2 pr l1 l3.
Proof. apply Forall2_trans_in; intros; eapply promotes_trans; eassumption. Qed.
Lemma prs_app a b a' b' : Forall2 pr a a' -> Forall2 pr b b' -> Forall2 pr (a ++ b) (a' ++ b').
Proof. apply Forall2_app. Qed.
End Promote.

Section Lift.
Context {A B : Type} (R : A -> B -> Prop).
Lemma F2_zlen l l' : Forall2 R l l' -> zlen l = zlen l'.
Proof. induction 1; [reflexivity|]. rewrite !zlen_cons. lia. Qed.
Lemma F2_firstn n : forall l l', Forall2 R l l' -> Forall2 R (firstn n l) (firstn n l').
Proof. induction n; intros l l' H; [constructor|]. inversion H; subst; simpl; constructor; auto. Qed.
Lemma F2_skipn n : forall l l', Forall2 R l l' -> Forall2 R (skipn n l) (skipn n l').
Proof. induction n; intros l l' H; [assumption|]. inversion H; subst; simpl; auto. Qed.
Lemma F2_slice a b l l' : Forall2 R l l' -> Forall2 R (slice a b l) (slice a b l').
Proof. intros; unfold slice; apply F2_firstn, F2_skipn; assumption. Qed.
Lemma F2_nthZ l l' i x : Forall2 R l l' -> nthZ l i = Some x -> exists y, nthZ l' i = Some y /\ R x y.
Proof.
  intros H; revert i; induction H as [|a b l l' Hab H IH]; intros i Hi; [rewrite nthZ_nil in Hi; discriminate|].
  rewrite nthZ_cons in Hi. rewrite nthZ_cons. destruct (i =? 0); [injection Hi as <-; eauto|]. apply IH; assumption.
Qed.
Lemma F2_of_nthZ l l' : zlen l = zlen l' -> (forall i x y, nthZ l i = Some x -> nthZ l' i = Some y -> R x y) -> Forall2 R l l'.
Proof.
  revert l'; induction l as [|a l IH]; intros l' HL H.
  - symmetry in HL. change (zlen (@nil A)) with 0 in HL. apply zlen_0 in HL. subst. constructor.
  - destruct l' as [|b l']; rewrite !zlen_cons in HL; [change (zlen (@nil B)) with 0 in HL; pose proof (zlen_nonneg l); lia|]. constructor.
    + apply (H 0); rewrite nthZ_cons; reflexivity.
    + apply IH; [lia|]. intros i x y Hx Hy. pose proof (nthZ_Some _ _ _ Hx). apply (H (i + 1)); rewrite nthZ_cons; destruct (Z.eqb_spec (i + 1) 0); try lia;
        replace (i + 1 - 1) with i by lia; assumption.
Qed.
Lemma F2_concat ls ls' : Forall2 (Forall2 R) ls ls' -> Forall2 R (concat ls) (concat ls').
Proof. induction 1; simpl; [constructor|apply Forall2_app; assumption]. Qed.
Lemma F2_map {X} (f : X -> A) (g : X -> B) l : (forall x, In x l -> R (f x) (g x)) -> Forall2 R (map f l) (map g l).
Proof. induction l; intros H; simpl; constructor; [apply H; left; reflexivity|apply IHl; intros; apply H; right; assumption]. Qed.
Lemma omap_F2 {X} (f : X -> option A) (g : X -> option B) l vs : (forall x v, In x l -> f x = Some v -> exists w, g x = Some w /\ R v w) ->
  omap f l = Some vs -> exists ws, omap g l = Some ws /\ Forall2 R vs ws.
Proof.
  intros H; revert vs; induction l as [|x l IH]; intros vs Hv; simpl in *; [injection Hv as <-; eauto|].
  destruct (f x) as [v|] eqn:E; [|discriminate]. destruct (omap f l) as [vs'|]; [|discriminate]. injection Hv as <-.
  destruct (H x v (or_introl eq_refl) E) as (w & -> & Hw). destruct (IH (fun y u Hin => H y u (or_intror Hin)) vs' eq_refl) as (ws & -> & Hws). eauto.
Qed.
End Lift.

Lemma segs_promote rc ws us l : Forall2 (promotes rc) ws us -> Forall2 (promotes rc) (map VList (map (seg ws) l)) (map VList (map (seg us) l)).
Proof. intros H. rewrite !map_map. apply F2_map. intros ab _. constructor. apply F2_slice; assumption. Qed.
Lemma idx_promote rc o ws us index vs : Forall2 (promotes rc) ws us -> omap (idx o ws) index = Some vs ->
  exists vs', omap (idx o us) index = Some vs' /\ Forall2 (promotes rc) vs vs'.
Proof.
  intros H. apply omap_F2. intros i v _ Hv. unfold idx in *. destruct (o && (i <? 0)).
  - injection Hv as <-. eexists; split; [reflexivity|constructor].
  - eapply F2_nthZ; eassumption.
Qed.
