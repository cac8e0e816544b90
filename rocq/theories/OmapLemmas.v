(** Facts about [omap] and [mapres]. *)
From Verif Require Export BaseLemmas Content SpecArray SpecSlice.

Section O.
  Context {A B : Type} (f : A -> option B).
  Lemma omap_picks l ys : omap f l = Some ys <-> map Some ys = map f l.
  Proof.
    revert ys; induction l as [|x l IH]; intros ys; cbn [omap map].
    - split; [intros [= <-]; reflexivity|]. destruct ys; [reflexivity|discriminate].
    - destruct (f x) as [y|] eqn:Ef.
      + destruct (omap f l) as [t|].
        * split; [intros [= <-]; cbn; f_equal; now apply IH|].
          destruct ys as [|y' ys]; [discriminate|]. cbn. intros [= -> H]. apply IH in H. congruence.
        * split; [discriminate|]. destruct ys as [|y' ys]; [discriminate|]. cbn. intros [= -> H]. apply IH in H. discriminate.
      + split; [discriminate|]. destruct ys; discriminate.
  Qed.
  Lemma omap_zlen l ys : omap f l = Some ys -> zlen ys = zlen l.
  Proof. intros H; apply omap_picks in H. apply (f_equal zlen) in H. now rewrite !zlen_map in H. Qed.
  Lemma omap_nth l ys i x : omap f l = Some ys -> nthZ l i = Some x -> f x = nthZ ys i /\ exists y, f x = Some y.
  Proof.
    intros H Hx. pose proof (omap_zlen _ _ H) as Hl. apply omap_picks in H.
    apply (f_equal (fun l => nthZ l i)) in H. rewrite !nthZ_map, Hx in H. cbn in H.
    destruct (nthZ_lt ys i) as [y Hy]; [apply nthZ_Some in Hx; lia|]. rewrite Hy in *. cbn in H.
    injection H as H. rewrite <- H. eauto.
  Qed.
  Lemma omap_nth' l ys i y : omap f l = Some ys -> nthZ ys i = Some y -> exists x, nthZ l i = Some x /\ f x = Some y.
  Proof.
    intros H Hy. pose proof (omap_zlen _ _ H) as Hl.
    destruct (nthZ_lt l i) as [x Hx]; [apply nthZ_Some in Hy; lia|]. exists x; split; [exact Hx|].
    destruct (omap_nth _ _ _ _ H Hx) as [E _]. congruence.
  Qed.
  Lemma omap_intro l ys : zlen ys = zlen l ->
    (forall i x, nthZ l i = Some x -> f x = nthZ ys i) -> omap f l = Some ys.
  Proof.
    intros Hl H. apply omap_picks. apply list_eqZ; rewrite !zlen_map; [exact Hl|].
    intros i Hi. rewrite !nthZ_map. destruct (nthZ_lt l i) as [x Hx]; [lia|]. rewrite Hx. cbn.
    rewrite (H i x Hx). destruct (nthZ_lt ys i) as [y ->]; [lia|]. reflexivity.
  Qed.
  Lemma omap_total l : (forall x, In x l -> exists y, f x = Some y) -> exists ys, omap f l = Some ys.
  Proof.
    induction l as [|x l IH]; intros H; cbn [omap]; [eauto|].
    destruct (H x) as [y ->]; [now left|]. destruct IH as [ys ->]; [intros; apply H; now right|]. eauto.
  Qed.
  Lemma omap_In l ys x : omap f l = Some ys -> In x l -> exists y, f x = Some y /\ In y ys.
  Proof.
    revert ys; induction l as [|a l IH]; intros ys H [].
    - subst. cbn in H. destruct (f x); [|discriminate]. destruct (omap f l); [|discriminate]. injection H as <-. eexists; split; [reflexivity|now left].
    - cbn in H. destruct (f a); [|discriminate]. destruct (omap f l); [|discriminate]. injection H as <-.
      destruct (IH _ eq_refl H0) as (y & Hy & Hi). exists y; split; [exact Hy|now right].
  Qed.
  Lemma omap_app l1 l2 : omap f (l1 ++ l2) =
    match omap f l1, omap f l2 with Some a, Some b => Some (a ++ b) | _, _ => None end.
  Proof.
    induction l1 as [|x l IH]; cbn [omap app]; [now destruct (omap f l2)|].
    rewrite IH. destruct (f x), (omap f l), (omap f l2); reflexivity.
  Qed.
  Lemma omap_app_Some l1 l2 a b : omap f l1 = Some a -> omap f l2 = Some b -> omap f (l1 ++ l2) = Some (a ++ b).
  Proof. intros E1 E2. now rewrite omap_app, E1, E2. Qed.
  Lemma omap_app_inv l1 l2 ys : omap f (l1 ++ l2) = Some ys ->
    exists a b, omap f l1 = Some a /\ omap f l2 = Some b /\ ys = a ++ b.
  Proof. rewrite omap_app. destruct (omap f l1), (omap f l2); try discriminate. intros [= <-]; eauto. Qed.
  Lemma omap_slice a b l ys : omap f l = Some ys -> omap f (slice a b l) = Some (slice a b ys).
  Proof. intros H; apply omap_picks in H. apply omap_picks. rewrite <- !slice_map. now rewrite H. Qed.
End O.
Lemma omap_ext {A B} (f g : A -> option B) l : (forall x, In x l -> f x = g x) -> omap f l = omap g l.
Proof.
  induction l as [|x l IH]; intros H; cbn [omap]; [reflexivity|].
  rewrite H by now left. rewrite IH; [reflexivity|]. intros; apply H; now right.
Qed.
Lemma omap_map {A B C} (f : B -> option C) (g : A -> B) l : omap f (map g l) = omap (fun x => f (g x)) l.
Proof. induction l as [|x l IH]; cbn [omap map]; [reflexivity|]. now rewrite IH. Qed.
Lemma omap_Some_map {A B} (f : A -> B) l : omap (fun x => Some (f x)) l = Some (map f l).
Proof. induction l as [|x l IH]; cbn [omap map]; [reflexivity|]. now rewrite IH. Qed.
Lemma omap_option_map {A B C} (f : A -> option B) (g : B -> C) l :
  omap (fun x => option_map g (f x)) l = option_map (map g) (omap f l).
Proof.
  induction l as [|x l IH]; cbn [omap map option_map]; [reflexivity|]. rewrite IH.
  destruct (f x), (omap f l); reflexivity.
Qed.
(** [omap f] then [omap g] *)
Lemma omap_comp {A B C} (f : A -> option B) (g : B -> option C) l ys :
  omap f l = Some ys -> omap g ys = omap (fun x => match f x with Some y => g y | None => None end) l.
Proof.
  revert ys; induction l as [|x l IH]; intros ys; cbn [omap]; [intros [= <-]; reflexivity|].
  destruct (f x); [|discriminate]. destruct (omap f l); [|discriminate]. intros [= <-]. cbn [omap].
  now rewrite (IH _ eq_refl).
Qed.
Lemma omap_nthZ_zseq {A} (l : list A) a b : 0 <= a <= b -> b <= zlen l -> omap (nthZ l) (zseq a b) = Some (slice a b l).
Proof.
  intros. apply omap_intro.
  - rewrite zlen_slice, zlen_zseq by lia. reflexivity.
  - intros i x Hx. pose proof (nthZ_Some _ _ _ Hx) as Hi. rewrite zlen_zseq in Hi by lia.
    rewrite nthZ_zseq in Hx by lia. injection Hx as <-. rewrite nthZ_slice by lia. reflexivity.
Qed.
Lemma omap_nthZ_total {A} (l : list A) is :
  (forall i, In i is -> 0 <= i < zlen l) -> exists r, omap (nthZ l) is = Some r.
Proof. intros H; apply omap_total. intros i Hi; apply nthZ_lt, H, Hi. Qed.
Lemma omap_nthZ_range {A} (l : list A) is r : omap (nthZ l) is = Some r -> forall i, In i is -> 0 <= i < zlen l.
Proof. intros H i Hi. destruct (omap_In _ _ _ _ H Hi) as (y & Hy & _). eapply nthZ_Some; eauto. Qed.

Section M.
  Context {A B : Type} (f : A -> res B).
  Lemma mapres_Ok l ys : mapres f l = Ok ys -> zlen ys = zlen l.
  Proof.
    revert ys; induction l as [|x l IH]; intros ys; cbn [mapres]; [intros [= <-]; reflexivity|].
    destruct (f x); cbn [bind]; try discriminate. destruct (mapres f l); cbn [bind]; try discriminate.
    intros [= <-]. rewrite !zlen_cons. now rewrite (IH _ eq_refl).
  Qed.
End M.
(** relate [mapres] on layouts with [omap] on their meanings *)
Lemma mapres_den {A B} (f : A -> res A) (d : A -> option B) (g : B -> option B) l ys :
  omap d l = Some ys ->
  (forall c v, In c l -> d c = Some v -> exists c' v', f c = Ok c' /\ d c' = Some v' /\ g v = Some v') ->
  exists l' ys', mapres f l = Ok l' /\ omap d l' = Some ys' /\ omap g ys = Some ys' /\ zlen l' = zlen l.
Proof.
  revert ys; induction l as [|c l IH]; intros ys H Hf; cbn [omap mapres] in *.
  - injection H as <-. exists [], []; repeat split; reflexivity.
  - destruct (d c) as [v|] eqn:Ed; [|discriminate]. destruct (omap d l) as [t|]; [|discriminate]. injection H as <-.
    destruct (Hf c v) as (c' & v' & H1 & H2 & H3); [now left|exact Ed|].
    destruct (IH _ eq_refl) as (l' & ys' & H4 & H5 & H6 & H7); [intros; apply Hf; [now right|assumption]|].
    exists (c' :: l'), (v' :: ys'). rewrite H1, H4. cbn. rewrite H2, H5, H3, H6. repeat split. rewrite !zlen_cons. lia.
Qed.
