(** A LayoutBuilder whose machine is the program of its shape: the calls of some values, then the snapshot *)
From Coq Require Import String.
From Verif Require Import Base BaseLemmas OmapLemmas SpecArray Content Forms PForms Forth ForthParse PForthOut LayoutBuild SpecLayout PLayoutVm PLayoutWord PLayoutEat PLayoutTop PLayoutCalls PLayoutSnap.
Local Open Scope list_scope.
Local Open Scope Z_scope.

Lemma lcalls_ok : forall n cs ks n', does n cs ks n' -> forall m P P', sent m P ks P' -> forall p x y z, exists N x' y' z', forall fuel, (N <= fuel)%nat ->
  lcalls fuel cs (mkBuilder n p m (st_of P x y z)) = Some (Done (mkBuilder n' p m (st_of P' x' y' z'))).
Proof.
  induction 1 as [ n | c cs n n1 n' k ks A _ IH ]; intros m P P' HS p x y z; inversion HS as [ | ? ? ? k1 P1 ? Q1 Q2 Q3 Q4 Q5 Q6 Q7 ]; subst.
  - exists 0%nat, x, y, z. intros. reflexivity.
  - destruct (send_one m P k k1 P1 eq_refl Q1 Q2 Q3 Q4 Q5 Q6 n1 p x y z) as (N1 & x1 & y1 & z1 & S1). destruct (IH m P1 P' Q7 p x1 y1 z1) as (N2 & x2 & y2 & z2 & S2).
    exists (N1 + N2)%nat, x2, y2, z2. intros fuel Hf. cbn [lcalls].
    assert (E : lcall fuel c (mkBuilder n p m (st_of P x y z)) = Some (Done (mkBuilder n1 p m (st_of P1 x1 y1 z1)))).
    { destruct c; cbn [acts] in A; try contradiction; unfold lcall, call_begin, call_end, descend, set_node; cbn [b_node b_prog b_vm b_state].
      - destruct A as [ -> -> ]. apply (S1 fuel true). lia.
      - destruct A as [ -> -> ]. apply (S1 fuel true). lia.
      - destruct A as [ -> -> ]. apply (S1 fuel true). lia.
      - destruct A as [ -> -> ]. apply (S1 fuel false). lia.
      - destruct A as (_ & -> & ->). apply (S1 fuel false). lia. }
    rewrite E. cbn [andthen]. apply S2. lia.
Qed.

(** ** The builders made for a Form *)
Fixpoint build_all (cs : list form) (i : ids) : res (list node * list vmtext * ids) :=
  match cs with
  | [] => Ok ([], [], i)
  | c :: cs => let* r := build c i in
               let '(n, t, i) := r in
               let* r := build_all cs i in
               let '(ns, ts, i) := r in Ok (n :: ns, t :: ts, i)
  end.
Lemma build_rec : forall m keys cs i, build (FRecord m keys cs) i =
  let '(key, i) := key_of m i in let* r := build_all cs i in let '(ns, ts, i) := r in Ok (NRecord keys ns 0 [], record_text key ts, i).
Proof. reflexivity. Qed.

Lemma wide_cases : forall w c s, (match w, c with (i32 | u32 | i64), Some s => Some (SList w s) | _, _ => None end) = Some s -> exists s0, c = Some s0 /\ s = SList w s0 /\ wide w = true.
Proof. intros [ ] [ c | ] s H; try discriminate; injection H as <-; eauto. Qed.

Ltac shape_num H := repeat match type of H with (match ?x with _ => _ end) = _ => destruct x; try discriminate H end; injection H as <-.

Lemma omap_cons_inv : forall {A B} (f : A -> option B) x l r, omap f (x :: l) = Some r -> exists y ys, f x = Some y /\ omap f l = Some ys /\ r = y :: ys.
Proof. intros A B f x l r H. cbn [omap] in H. destruct (f x) as [ y | ]; [ | discriminate ]. destruct (omap f l) as [ ys | ]; [ | discriminate ]. injection H as <-. eauto. Qed.

Lemma build_looks : forall f s i, shape_of f = Some s -> exists n t i', build f i = Ok (n, t, i') /\ looks s n /\ skel n = n.
Proof.
  induction f using form_ind'; intros sh ii HS; cbn [shape_of] in HS; try discriminate.
  - cbn [build]. destruct (key_of m ii) as [ key i1 ]. shape_num HS; cbn [dtype_to_state]; do 3 eexists; (split; [ reflexivity | ]); (split; [ | reflexivity ]); first [ exact (looks_num LBool _) | exact (looks_num LInt _) | exact (looks_num LReal _) ].
  - destruct (omap shape_of l) as [ [ | s0 ss ] | ] eqn:EO; try discriminate. destruct (keys_ok k (zlen l)) eqn:EK; [ | discriminate ]. injection HS as <-. rewrite build_rec. destruct (key_of m ii) as [ key i1 ].
    assert (X : exists ns ts i', build_all l i1 = Ok (ns, ts, i') /\ Forall2 looks (s0 :: ss) ns /\ map skel ns = ns).
    { clear EK. revert EO i1. generalize (s0 :: ss). induction H as [ | f fs Hf _ IH ]; intros shs EO i1.
      - injection EO as <-. exists [], [], i1. split; [ reflexivity | split; [ constructor | reflexivity ] ].
      - destruct (omap_cons_inv _ _ _ _ EO) as (sh & shs' & E1 & E2 & ->). destruct (Hf sh i1 E1) as (n & t & i2 & B & L & F). destruct (IH shs' E2 i2) as (ns & ts & i3 & B2 & L2 & F2).
        cbn [build_all]. rewrite B. cbn [bind]. rewrite B2. cbn [bind]. do 3 eexists. split; [ reflexivity | ]. split; [ constructor; assumption | ]. cbn [map]. rewrite F, F2. reflexivity. }
    destruct X as (ns & ts & i' & B & L & F). rewrite B. cbn [bind]. do 3 eexists. split; [ reflexivity | ]. split; [ | cbn [skel]; rewrite F; reflexivity ]. constructor; [ | exact L | discriminate ].
    replace (zlen (s0 :: ss)) with (zlen l); [ exact EK | ]. symmetry. apply (omap_zlen _ _ _ EO).
  - apply wide_cases in HS. destruct HS as (s0 & HC & -> & HW). cbn [build]. destruct (key_of m ii) as [ key i1 ]. destruct (IHf s0 i1 HC) as (n & t & i2 & B & L & F). rewrite B. cbn [bind]. destruct (take_error i2) as [ e i3 ].
    do 3 eexists. split; [ reflexivity | ]. split; [ constructor; assumption | ]. cbn [skel]. rewrite F. reflexivity.
Qed.

Lemma map_fixed : forall (ns : list node), map skel ns = ns -> forall n, In n ns -> skel n = n.
Proof. induction ns as [ | x ns IH ]; intros H n [ ]; cbn [map] in H; injection H as H1 H2; [ subst; exact H1 | auto ]. Qed.
Lemma F2_nth : forall (cs : list shape) ns, Forall2 looks cs ns -> zlen ns = zlen cs /\ forall i c n, nthZ cs i = Some c -> nthZ ns i = Some n -> looks c n.
Proof.
  induction 1 as [ | c n cs ns H _ [ IH1 IH2 ] ]; [ split; [ reflexivity | intros i c n E; rewrite nthZ_nil in E; discriminate ] | ]. rewrite !zlen_cons. split; [ lia | ].
  intros i c' n'. rewrite !nthZ_cons. destruct (i =? 0); [ intros E1 E2; injection E1 as <-; injection E2 as <-; exact H | apply IH2 ].
Qed.
Lemma looks_sc : forall s n, looks s n -> skel n = n -> scal s = true -> sc s n.
Proof.
  induction s using shape_ind'; intros n L F HS; cbn [scal] in HS; [ inversion L; subst; constructor | discriminate | ].
  destruct (looks_rec_inv _ _ _ L) as (ns & fi & l & -> & _ & L2 & _). cbn [skel] in F. injection F as F <- <-. destruct (F2_nth _ _ L2) as [ EL EN ]. apply andb_true_iff in HS. destruct HS as [ H0 HS ]. apply Z.ltb_lt in H0.
  constructor; [ lia | exact EL | ]. intros i c n Nc Nn. rewrite Forall_forall in H. rewrite forallb_forall in HS. apply H; [ eapply nthZ_In; exact Nc | eapply EN; eassumption | eapply map_fixed; [ exact F | eapply nthZ_In; exact Nn ] | apply HS; eapply nthZ_In; exact Nc ].
Qed.
Lemma looks_nst : forall s n, looks s n -> skel n = n -> nest s = true -> nst s n.
Proof.
  induction s using shape_ind'; intros n L F HN; cbn [nest] in HN.
  - apply nst_scal; [ reflexivity | ]. apply looks_sc; auto.
  - inversion L; subst. cbn [skel] in F. injection F as Fb Fc. subst. apply nst_list. apply IHs; assumption.
  - apply orb_true_iff in HN. destruct HN as [ HN | HN ]; [ apply nst_scal; [ exact HN | apply looks_sc; assumption ] | ]. apply andb_true_iff in HN. destruct HN as [ H0 HN ]. apply Z.ltb_lt in H0.
    destruct (looks_rec_inv _ _ _ L) as (ns & fi & l & -> & _ & L2 & _). cbn [skel] in F. injection F as F <- <-. destruct (F2_nth _ _ L2) as [ EL EN ].
    eapply nst_rec; [ exact H0 | exact HN | ]. exists ns. split; [ reflexivity | ]. split; [ exact EL | ]. intros i c n Nc Nn. pose proof (nthZ_Some _ _ _ Nc). destruct (Z.eqb_spec i (-1)); [ lia | ].
    rewrite forallb_forall in HN. pose proof (HN c (nthZ_In _ _ _ Nc)) as Hc. pose proof (EN _ _ _ Nc Nn) as Ln. pose proof (map_fixed _ F n (nthZ_In _ _ _ Nn)) as Fn. destruct c; cbn [flat_field] in Hc; [ inversion Ln; subst; constructor | | discriminate ].
    inversion Ln; subst. cbn [skel] in Fn. injection Fn as Fb Fc. subst. constructor; [ exact Hc | ]. apply looks_sc; assumption.
Qed.

(** ** The whole session *)
Lemma snapshot_skel : forall b n, b_node b = n -> forall n', skel n' = skel n -> forall outs, node_snapshot outs n' = node_snapshot outs n.
Proof. intros b n _ n' E outs. rewrite <- (snap_skel outs n'), E, snap_skel. reflexivity. Qed.

Lemma inok_zeros : forall initial, 8 <= initial < 2^63 -> inok [mkIn (repeat 0 (Z.to_nat initial)) 0].
Proof.
  intros initial H. unfold inok. eexists. eexists. split; [ reflexivity | ]. unfold zlen. rewrite repeat_length. lia.
Qed.

Lemma session_ok : forall f s initial first n t i p m, shape_of f = Some s -> nest s = true -> nodes s <= 300 -> 8 <= initial < 2^63 ->
  build f (mkIds first 0) = Ok (n, t, i) -> compile vm_options (vm_source t) = Ok (p, m) -> program s m -> map fst (p_outs p) = node_outs n -> NoDup (node_outs n) ->
  forall vs, Forall (of_shape s) vs -> few s vs ->
  exists N, forall fuel, (N <= fuel)%nat -> exists b0 b c, layout_builder f initial first fuel = Ok (Some (Done b0)) /\ lcalls fuel (calls_all vs) b0 = Some (Done b) /\ snapshot b = Ok c /\ den c = Some vs.
Proof.
  intros f s initial first n t i p m HS HN HD HI HB HC HP HO ND vs HV HF.
  destruct (build_looks f s (mkIds first 0) HS) as (n1 & t1 & i1 & B & L & F). rewrite HB in B. injection B as <- <- <-.
  destruct (start s m _ HP HD (inok_zeros initial HI)) as (N1 & P & x & y & z & W & R).
  destruct (nst_does_all s vs n (looks_nst _ _ L F HN) HV) as (n' & HD1 & _).
  destruct (many_values s m vs [] P (pr_vm _ _ HP) HD W HV) as (P' & HS1 & W'); [ exact HF | ].
  destruct (lcalls_ok _ _ _ _ HD1 m P P' HS1 p x y z) as (N2 & x' & y' & z' & C).
  exists (N1 + N2)%nat. intros fuel Hf.
  destruct W' as (bm & wb & l & q & st & vars & is & os & -> & _ & _ & _ & _ & _ & _ & _ & _ & HH & _ & LO).
  destruct (snap s n L 0 vs (node_outs n) os) as (c & E & D); [ intros k Hk; reflexivity | exact ND | exact HH | exact HV | ].
  do 3 eexists. split; [ | split; [ | split; [ | exact D ] ] ].
  - unfold layout_builder. rewrite HB. cbn [bind]. rewrite HC. cbn [bind]. rewrite R by lia. reflexivity.
  - apply C. lia.
  - unfold snapshot. cbn [b_state b_prog b_node st_of err outs]. rewrite HO. rewrite <- E. rewrite <- (snap_skel _ n'), (does_skel _ _ _ _ HD1), snap_skel. reflexivity.
Qed.
