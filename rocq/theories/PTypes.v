(** Proofs about types: the values of an array have its type, slicing keeps the type. *)
From Coq Require Import String.
From Verif Require Import Base BaseLemmas OmapLemmas Content KCore Core KOption Option SpecArray Getitem Types SpecTypes PCore PCarry PAt PForm.
Local Open Scope string_scope.
Local Open Scope list_scope.
Local Open Scope Z_scope.

(** ** The values have the type *)
Lemma omap_Forall {A B} (f : A -> option B) (P : B -> Prop) l ys : omap f l = Some ys -> (forall x y, In x l -> f x = Some y -> P y) -> Forall P ys.
Proof.
  revert ys; induction l; intros ys H HP; cbn [omap] in H; [injection H as <-; constructor|].
  destruct (f a) eqn:E; [|discriminate]. destruct (omap f l) eqn:E2; [|discriminate]. injection H as <-.
  constructor; [eapply HP; [left; reflexivity|exact E]|]. apply IHl; [reflexivity|]. intros; eapply HP; [right|]; eassumption.
Qed.
Lemma Forall_nthZ {A} (P : A -> Prop) l i x : Forall P l -> nthZ l i = Some x -> P x.
Proof. intros H E. rewrite Forall_forall in H. apply H. eapply nthZ_In; exact E. Qed.
Lemma sublist_typed (P : value -> Prop) vs a b v : Forall P vs -> sublist vs a b = Some v -> exists l, v = VList l /\ Forall P l /\ (a <= b -> zlen l = b - a).
Proof.
  intros H E. destruct (sublist_inv _ _ _ _ E) as [[-> ->]|(Ne & Ha & Hb & ->)].
  - exists []. split; [reflexivity|]. split; [constructor|]. unfold zlen; cbn; lia.
  - exists (slice a b vs). split; [reflexivity|]. split; [|intros _; now rewrite zlen_slice by lia].
    apply Forall_forall. intros x Hx. rewrite Forall_forall in H. apply H. eapply In_slice; exact Hx.
Qed.
Lemma row_of_In P ts row : row_of P ts row <-> zlen row = zlen ts /\ forall i t v, nthZ ts i = Some t -> nthZ row i = Some v -> P t v.
Proof.
  revert row; induction ts as [|t ts IH]; intros [|v row]; cbn [row_of].
  - split; [intros _; split; [reflexivity|intros i t v E; rewrite nthZ_nil in E; discriminate]|auto].
  - split; [contradiction|]. intros [H _]. rewrite zlen_cons, zlen_nil in H. pose proof (zlen_nonneg row). lia.
  - split; [contradiction|]. intros [H _]. rewrite zlen_cons, zlen_nil in H. pose proof (zlen_nonneg ts). lia.
  - rewrite IH, !zlen_cons. split.
    + intros (H & HL & HI). split; [lia|]. intros i t' v' E1 E2. rewrite nthZ_cons in E1. rewrite nthZ_cons in E2. destruct (i =? 0); [congruence|].
      eapply HI; eassumption.
    + intros [HL HI]. split; [apply (HI 0); reflexivity|]. split; [lia|]. intros i t' v' E1 E2. apply (HI (i + 1)); rewrite nthZ_cons; pose proof (nthZ_Some _ _ _ E1);
      (destruct (Z.eqb_spec (i + 1) 0); [lia|]); now replace (i + 1 - 1) with i by lia.
Qed.
Lemma one_of_In P ts v : one_of P ts v <-> exists t, In t ts /\ P t v.
Proof.
  induction ts as [|t ts IH]; cbn [one_of]; [split; [contradiction|intros (t & [] & _)]|].
  rewrite IH. split; [intros [H|(u & H & Hu)]; [exists t|exists u]; cbn; auto|intros (u & [->|H] & Hu); [left; exact Hu|right; exists u; auto]].
Qed.

Lemma den_typed c : forall vs, den c = Some vs -> Forall (has_type (type_of c)) vs.
Proof.
  induction c using content_ind'; intros vs; cbn [den type_of]; intros Hd.
  - injection Hd as <-. constructor.
  - injection Hd as <-. apply Forall_forall. intros v Hv. apply in_map_iff in Hv. destruct Hv as (z & <- & _). destruct dt; exact I.
  - destruct (den c) as [ws|] eqn:E; [|discriminate]. destruct (zlen starts <=? zlen stops); [|discriminate]. eapply omap_Forall; [exact Hd|].
    intros ab v _ Ev. destruct (sublist_typed _ _ _ _ _ (IHc _ eq_refl) Ev) as (l & -> & Hl & _). exists l. auto.
  - destruct (den c) as [ws|] eqn:E; [|discriminate]. destruct (1 <=? zlen offsets); [|discriminate]. eapply omap_Forall; [exact Hd|].
    intros ab v _ Ev. destruct (sublist_typed _ _ _ _ _ (IHc _ eq_refl) Ev) as (l & -> & Hl & _). exists l. auto.
  - destruct (den c) as [ws|] eqn:E; [|discriminate]. destruct (0 <? size) eqn:Hs.
    + eapply omap_Forall; [exact Hd|]. intros i v _ Ev. destruct (sublist_typed _ _ _ _ _ (IHc _ eq_refl) Ev) as (l & -> & Hl & HL). exists l. split; [reflexivity|]. split; [|exact Hl].
      rewrite HL by nia. lia.
    + destruct ((size =? 0) && (0 <=? zl)) eqn:Hz; [|discriminate]. injection Hd as <-. apply Forall_forall. intros v Hv. apply repeat_spec in Hv. subst v.
      exists []. split; [reflexivity|]. split; [unfold zlen; cbn; lia|constructor].
  - destruct (den c) as [ws|] eqn:E; [|discriminate]. eapply omap_Forall; [exact Hd|]. intros i v _ Ev. eapply Forall_nthZ; [apply IHc; reflexivity|exact Ev].
  - destruct (den c) as [ws|] eqn:E; [|discriminate]. eapply omap_Forall; [exact Hd|]. intros i v _ Ev. cbn [has_type].
    cbv beta in Ev. destruct (i <? 0); [left; congruence|right]. eapply Forall_nthZ; [apply IHc; reflexivity|exact Ev].
  - destruct (den c) as [ws|] eqn:E; [|discriminate]. destruct (zlen mask <=? zlen ws); [|discriminate]. injection Hd as <-. apply Forall_forall. intros v Hv.
    apply in_map_iff in Hv. destruct Hv as ([m w] & <- & Hin). cbn [fst snd]. cbn [has_type]. destruct (Bool.eqb _ _); [right|left; reflexivity].
    specialize (IHc _ eq_refl). rewrite Forall_forall in IHc. apply IHc. eapply in_combine_r; exact Hin.
  - destruct (den c) as [ws|] eqn:E; [|discriminate]. destruct (_ && _); [|discriminate]. eapply omap_Forall; [exact Hd|]. intros i v _ Ev. cbn [has_type]. cbv beta in Ev.
    destruct (mask_bit mask lsb i); [|discriminate]. destruct (nthZ ws i) eqn:En; [|discriminate]. injection Ev as <-. destruct (Bool.eqb _ _); [right|left; reflexivity].
    eapply Forall_nthZ; [apply IHc; reflexivity|exact En].
  - eapply Forall_impl; [|apply IHc; exact Hd]. intros v Hv. right. exact Hv.
  - destruct (omap den cs) as [vss|] eqn:E; [|discriminate]. destruct ((0 <=? len) && keys_ok keys (zlen cs)) eqn:Hk; [|discriminate].
    eapply omap_Forall; [exact Hd|]. intros i v _ Ev. cbn [has_type]. cbv beta in Ev. destruct (omap (fun vs => nthZ vs i) vss) as [row|] eqn:Er; [|discriminate]. injection Ev as <-.
    exists row. split; [reflexivity|]. rewrite zlen_map. apply andb_true_iff in Hk. split; [tauto|]. apply row_of_In. rewrite zlen_map. split.
    + rewrite (omap_zlen _ _ _ Er). apply (omap_zlen _ _ _ E).
    + intros j t w Ht Hw. rewrite nthZ_map in Ht. destruct (nthZ cs j) as [c|] eqn:Ec; [|discriminate]. injection Ht as <-.
      destruct (omap_nth' _ _ _ _ _ Er Hw) as (ws & Hws & Hn). destruct (omap_nth' _ _ _ _ _ E Hws) as (c' & Hc' & Hden). rewrite Ec in Hc'. injection Hc' as <-.
      rewrite Forall_forall in H. pose proof (H c (nthZ_In _ _ _ Ec) _ Hden) as HF. eapply Forall_nthZ; [exact HF|exact Hn].
  - destruct (omap den cs) as [vss|] eqn:E; [|discriminate]. destruct (_ && _); [|discriminate].
    eapply omap_Forall; [exact Hd|]. intros [t i] v _ Ev. cbn [has_type fst snd] in *. destruct (nthZ vss t) as [ws|] eqn:Ew; [|discriminate].
    destruct (omap_nth' _ _ _ _ _ E Ew) as (c' & Hc' & Hden). apply one_of_In. exists (type_of c'). split; [apply in_map; eapply nthZ_In; exact Hc'|].
    rewrite Forall_forall in H. pose proof (H c' (nthZ_In _ _ _ Hc') _ Hden) as HF. eapply Forall_nthZ; [exact HF|exact Ev].
Qed.

(** ** Slicing keeps the type *)
Lemma mapres_type (f : content -> res content) cs : forall cs',
  Forall (fun c => forall c', f c = Ok c' -> type_of c' = type_of c) cs -> mapres f cs = Ok cs' -> map type_of cs' = map type_of cs.
Proof.
  induction cs as [|c cs IH]; intros cs' HF H; cbn [mapres] in H; binv H.
  - injection H as <-. reflexivity.
  - injection H as <-. inversion HF; subst. cbn [map]. f_equal; [auto|]. now apply IH.
Qed.
Lemma range_type c : forall a b c', getitem_range_nowrap c a b = Ok c' -> type_of c' = type_of c.
Proof.
  induction c using content_ind'; intros x y c' H'; cbn [getitem_range_nowrap] in H'.
  1, 2, 3, 4, 6, 7: binv H'; mkinv H'; subst; reflexivity.
  - binv H'. mkinv H'. subst. cbn [type_of]. f_equal. eapply IHc; eassumption.
  - binv H'. mkinv H'. subst. cbn [type_of]. f_equal. eapply IHc; eassumption.
  - binv H'. mkinv H'. subst. cbn [type_of]. f_equal. eapply IHc; eassumption.
  - binv H'. mkinv H'. subst. cbn [type_of]. f_equal. eapply IHc; eassumption.
  - destruct cs as [|c0 cs]; [mkinv H'; subst; reflexivity|]. destruct ((x =? 0) && (y =? len)); [mkinv H'; subst; reflexivity|].
    binv H'. mkinv H'. subst. cbn [type_of]. f_equal. eapply mapres_type; [|exact E]. eapply Forall_impl; [|exact H]. cbn. eauto.
  - binv H'. mkinv H'. subst. reflexivity.
Qed.
Lemma contiguous_type c cry k c' : carry_contiguous c cry k = Ok c' -> (k tt = Ok c' -> type_of c' = type_of c) -> type_of c' = type_of c.
Proof.
  unfold carry_contiguous. intros H HK. binv H; [injection H as <-; reflexivity|eapply range_type; exact H|auto].
Qed.
Lemma carry_type c : forall cry lz c', carry c cry lz = Ok c' -> type_of c' = type_of c.
Proof.
  induction c using content_ind'; intros cry lz c' H'; cbn [carry] in H'; cbv zeta in H'.
  - binv H'. injection H' as <-. reflexivity.
  - eapply contiguous_type; [exact H'|]. clear H'. intros H'. cbv beta in H'. binv H'. mkinv H'. subst. reflexivity.
  - eapply contiguous_type; [exact H'|]. clear H'. intros H'. cbv beta in H'. binv H'. mkinv H'. subst. reflexivity.
  - eapply contiguous_type; [exact H'|]. clear H'. intros H'. cbv beta in H'. binv H'. mkinv H'. subst. reflexivity.
  - eapply contiguous_type; [exact H'|]. clear H'. intros H'. cbv beta in H'. binv H'. mkinv H'. subst. cbn [type_of]. f_equal. eapply IHc; eassumption.
  - eapply contiguous_type; [exact H'|]. clear H'. intros H'. cbv beta in H'. binv H'. mkinv H'. subst. reflexivity.
  - eapply contiguous_type; [exact H'|]. clear H'. intros H'. cbv beta in H'. binv H'. mkinv H'. subst. reflexivity.
  - eapply contiguous_type; [exact H'|]. clear H'. intros H'. cbv beta in H'. binv H'. mkinv H'. subst. cbn [type_of]. f_equal. eapply IHc; eassumption.
  - eapply contiguous_type; [exact H'|]. clear H'. intros H'. cbv beta in H'. binv H'.
    replace (type_of (BitMasked mask vw lsb len c)) with (type_of (ByteMasked a vw c)) by reflexivity.
    eapply contiguous_type; [exact H'|]. clear H'. intros H'. cbv beta in H'. binv H'. mkinv H'. subst. cbn [type_of]. f_equal. eapply IHc; eassumption.
  - eapply contiguous_type; [exact H'|]. clear H'. intros H'. cbv beta in H'. binv H'. mkinv H'. subst. cbn [type_of]. f_equal. eapply IHc; eassumption.
  - destruct lz; [injection H' as <-; reflexivity|]. eapply contiguous_type; [exact H'|]. clear H'. intros H'. cbv beta in H'. binv H'. mkinv H'. subst. cbn [type_of]. f_equal.
    eapply mapres_type; [|exact E]. eapply Forall_impl; [|exact H]. cbn. eauto.
  - eapply contiguous_type; [exact H'|]. clear H'. intros H'. cbv beta in H'. binv H'. mkinv H'. subst. reflexivity.
Qed.
Lemma item_typed_sub t t' it : incl (alternatives t) (alternatives t') -> item_typed t it -> item_typed t' it.
Proof. intros HI. destruct it; cbn; auto; [intros (u & H); exists u; auto|]. intros [H|(s & H)]; [left|right; exists s]; auto. Qed.
Lemma nth_apply_Ok {A B} (f : A -> res B) l k r : nth_apply f l k = Ok r -> exists x, In x l /\ f x = Ok r.
Proof. revert k; induction l as [|x l IH]; intros k H; cbn [nth_apply] in H; [discriminate|]. destruct (k =? 0); [exists x; cbn; auto|]. destruct (IH _ H) as (y & Hy & E). exists y. cbn; auto. Qed.
Lemma at_type c : forall i it, getitem_at_nowrap c i = Ok it -> item_typed (type_of c) it.
Proof.
  induction c using content_ind'; intros at_ it H'; cbn [getitem_at_nowrap] in H'.
  - discriminate.
  - binv H'. injection H' as <-. left. reflexivity.
  - binv H'. destruct (a =? a0); binv H'; injection H' as <-; left; cbn [type_of alternatives]; left; f_equal; symmetry; eapply range_type; eassumption.
  - binv H'. destruct (a =? a0); binv H'; injection H' as <-; left; cbn [type_of alternatives]; left; f_equal; symmetry; eapply range_type; eassumption.
  - binv H'. injection H' as <-. right. exists size. left. cbn [type_of]. f_equal. symmetry. eapply range_type; eassumption.
  - binv H'. cbn [type_of]. eapply IHc; eassumption.
  - binv H'; [injection H' as <-; eexists; left; reflexivity|]. eapply item_typed_sub; [|eapply IHc; eassumption]. apply incl_tl, incl_refl.
  - binv H'; [|injection H' as <-; eexists; left; reflexivity]. eapply item_typed_sub; [|eapply IHc; eassumption]. apply incl_tl, incl_refl.
  - binv H'; [|injection H' as <-; eexists; left; reflexivity]. eapply item_typed_sub; [|eapply IHc; eassumption]. apply incl_tl, incl_refl.
  - eapply item_typed_sub; [|eapply IHc; eassumption]. apply incl_tl, incl_refl.
  - injection H' as <-. left. reflexivity.
  - binv H'. apply nth_apply_Ok in H'. destruct H' as (c & Hc & H'). binv H'. rewrite Forall_forall in H.
    eapply item_typed_sub; [|exact (H c Hc _ _ H')]. cbn [type_of alternatives]. intros t Ht. apply in_flat_map. exists (type_of c). split; [now apply in_map|exact Ht].
Qed.
