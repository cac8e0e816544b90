(** Slicing an array keeps the identities of its rows. *)
From Verif Require Import Base BaseLemmas KRange Content KCore Core SpecArray OmapLemmas PCore PCarry Merge Identities SpecIdentities
  PIdentities PIdentities2 PIdentities3 PIdentities4.
Local Open Scope string_scope.
Local Open Scope list_scope.
Local Open Scope Z_scope.

Definition push (c : content) (k : Z) (F : Z -> list Z -> Prop) (r : Z) (q' : list Z) : Prop :=
  exists i q s, F i q /\ into c k i s = Some (r, []) /\ q' = q ++ s.
Definition shift (a b : Z) (F : Z -> list Z -> Prop) (i : Z) (q : list Z) : Prop := 0 <= i < b - a /\ F (a + i) q.
Definition carryF (cry : list Z) (F : Z -> list Z -> Prop) (i : Z) (q : list Z) : Prop := exists k, nthZ cry i = Some k /\ F k q.

(** with [must] every node has identities *)
Definition ownok (must : bool) (own : option idents) (n : Z) : Prop :=
  (must = true -> own <> None) /\ forall idn, own = Some idn -> wf idn /\ ilen idn = n.
Definition ownbears (own : option idents) (F : Z -> list Z -> Prop) : Prop :=
  forall idn, own = Some idn -> forall i q, F i q -> 0 <= i < ilen idn /\ identity idn i = q.

Inductive fits (must : bool) : content -> ids -> Prop :=
  fits_intro c own subs :
    ownok must own (length_ c) ->
    (forall k c', child c k = Some c' -> exists t', nthZ subs k = Some t' /\ fits must c' t') ->
    fits must c (Node own subs).
Lemma fits_inv must c own subs : fits must c (Node own subs) -> ownok must own (length_ c) /\
  (forall k c', child c k = Some c' -> exists t', nthZ subs k = Some t' /\ fits must c' t').
Proof. intros H. inversion H; subst. auto. Qed.

Lemma bears_mono c t (F G : Z -> list Z -> Prop) : (forall i q, G i q -> F i q) -> bears c t F -> bears c t G.
Proof. intros H B np idn i q p j H1 H2 H3. eapply B; eauto. Qed.

Lemma bears_node c own subs F :
  bears c (Node own subs) F <->
  ownbears own F /\ forall k c' t', child c k = Some c' -> nthZ subs k = Some t' -> bears c' t' (push c k F).
Proof.
  split.
  - intros B. split.
    + intros idn -> i q Hi. destruct (B [] idn i q [] i eq_refl Hi eq_refl) as (H1 & H2). rewrite app_nil_r in H2. auto.
    + intros k c' t' Hc Ht np idn r q' p j Hid (i & q & s & Hi & Hin & ->) Hd.
      rewrite <- app_assoc. apply (B (k :: np) idn i q (s ++ p) j).
      * cbn [ident_at]. rewrite Ht. exact Hid.
      * exact Hi.
      * cbn [descend]. rewrite Hc. rewrite (into_app _ _ _ _ _ p Hin). exact Hd.
  - intros (O & K) np idn i q p j Hid Hi Hd. destruct np as [|k np].
    + cbn in Hid, Hd. destruct p; [|discriminate]. injection Hd as <-. rewrite app_nil_r. eapply O; eauto.
    + cbn [ident_at] in Hid. destruct (nthZ subs k) as [t'|] eqn:Et; [|discriminate].
      cbn [descend] in Hd. destruct (child c k) as [c'|] eqn:Ec; [|discriminate]. destruct (into c k i p) as [[r p']|] eqn:Ei; [|discriminate].
      destruct (into_split _ _ _ _ _ _ Ei) as (s & -> & Es). rewrite app_assoc.
      apply (K k c' t' Ec Et np idn r (q ++ s) p' j Hid); [exists i, q, s; auto|exact Hd].
Qed.

(** ** own identities *)
Lemma irange_ok idn a b : wf idn -> 0 <= a <= b -> b <= ilen idn ->
  exists J, irange idn a b = Ok J /\ wf J /\ ilen J = b - a /\ forall i, 0 <= i < b - a -> identity J i = identity idn (a + i).
Proof.
  intros (H1 & H2 & H3 & H4) Ha Hb. unfold irange.
  destruct (Z.eqb_spec a b) as [->|Hne].
  - rewrite Bool.andb_false_r. eexists; split; [reflexivity|]. unfold wf. cbn [offset width ilen ibuf]. split; [|split; [lia|lia]].
    repeat split; try lia.
  - destruct (Z.leb_spec 0 a), (Z.ltb_spec a (ilen idn)), (Z.leb_spec 0 b), (Z.leb_spec b (ilen idn)); try lia. cbn [andb negb].
    eexists; split; [reflexivity|]. unfold wf. cbn [offset width ilen ibuf]. split; [repeat split; try lia; nia|]. split; [lia|].
    intros i Hi. unfold identity. cbn [offset width ibuf]. f_equal; ring.
Qed.
Lemma orange_ok must own n a b F : ownok must own n -> ownbears own F -> 0 <= a <= b -> b <= n ->
  exists o, orange own a b = Ok o /\ ownok must o (b - a) /\ ownbears o (shift a b F).
Proof.
  intros Ho Hb Ha Hbn. destruct own as [idn|]; cbn [orange].
  - destruct (proj2 Ho idn eq_refl) as (Hw & Hl). destruct (irange_ok idn a b Hw Ha) as (J & -> & Hwj & Hlj & Hj); [lia|]. cbn [bind].
    eexists; split; [reflexivity|]. split.
    + split; [congruence|]. intros J' [= <-]. auto.
    + intros J' [= <-] i q (Hi & HF). split; [lia|]. rewrite Hj by lia. apply (Hb idn eq_refl _ _ HF).
  - eexists; split; [reflexivity|]. split; [|intros ? [=]]. split; [intros E; destruct (proj1 Ho E eq_refl)|intros ? [=]].
Qed.
Lemma icarry_ok idn cry : wf idn -> (forall c, In c cry -> 0 <= c < ilen idn) ->
  exists J, icarry idn cry = Ok J /\ wf J /\ ilen J = zlen cry /\ forall i k, nthZ cry i = Some k -> identity J i = identity idn k.
Proof.
  intros Hwf Hr. destruct Hwf as (H1 & H2 & H3 & H4) eqn:EW. pose proof Hwf as Hwf'. clear EW.
  pose proof (zlen_idata idn Hwf') as Hd. pose proof (zlen_nonneg cry) as Hn. unfold icarry, awkward_Identities_getitem_carry.
  set (w := width idn) in *. set (n := zlen cry) in *.
  assert (Hbuf : zlen (alloc (w * n)) = n * w) by (rewrite zlen_alloc by nia; ring).
  match goal with |- context [for_ 0 n ?f ?b] =>
    destruct (for_inv (fun i buf => zlen buf = n * w /\ forall i' k, 0 <= i' < i -> nthZ cry i' = Some k -> row w buf i' = identity idn k) 0 n f b)
      as (buf & E & L & R) end.
  - lia.
  - split; [exact Hbuf|]. intros; lia.
  - intros i buf Hi (L & R). destruct (rd_in cry i) as (c & -> & Hc); [lia|]. cbn [bind].
    specialize (Hr c (nthZ_In _ _ _ Hc)). destruct (Z.leb_spec (ilen idn) c); [lia|].
    assert (i * w + w <= n * w /\ 0 <= i * w) by nia. assert (c * w + w <= ilen idn * w /\ 0 <= c * w) by nia.
    match goal with |- context [for_ 0 w ?f ?b] =>
      destruct (for_inv (fun j b => zlen b = n * w /\ forall x, nthZ b x =
                  if (i * w <=? x) && (x <? i * w + j) then nthZ (idata idn) (c * w + (x - i * w)) else nthZ buf x) 0 w f b)
        as (b1 & E1 & L1 & N1) end.
    + lia.
    + split; [exact L|]. intros x. destruct (Z.leb_spec (i * w) x), (Z.ltb_spec x (i * w + 0)); try lia; reflexivity.
    + intros j b Hj (Lb & Nb). destruct (rd_in (idata idn) (w * c + j)) as (y & -> & Hy); [lia|]. cbn [bind].
      destruct (wr_spec b (w * i + j) y) as (b' & Eb & Lb' & Nb'); [lia|]. exists b'. split; [exact Eb|]. split; [lia|].
      intros x. rewrite Nb', Nb. destruct (Z.eqb_spec x (w * i + j)) as [->|].
      * destruct (Z.leb_spec (i * w) (w * i + j)), (Z.ltb_spec (w * i + j) (i * w + (j + 1))); try lia. cbn [andb].
        rewrite <- Hy. f_equal; lia.
      * destruct (Z.leb_spec (i * w) x), (Z.ltb_spec x (i * w + j)), (Z.ltb_spec x (i * w + (j + 1))); try lia; reflexivity.
    + exists b1. split; [exact E1|]. split; [exact L1|]. intros i' k Hi' Hk. destruct (Z.eq_dec i' i) as [->|Hne].
      * assert (k = c) as -> by congruence. rewrite identity_data by (try exact Hwf'; lia). fold w.
        apply list_eqZ; [rewrite (zlen_row w b1 i n), (zlen_row w (idata idn) c (ilen idn)) by lia; lia|].
        intros x Hx. rewrite (zlen_row w b1 i n) in Hx by lia. rewrite (nth_row w b1 i n), (nth_row w (idata idn) c (ilen idn)) by lia.
        rewrite N1. destruct (Z.leb_spec (i * w) (i * w + x)), (Z.ltb_spec (i * w + x) (i * w + w)); try lia. cbn [andb]. f_equal; lia.
      * rewrite <- (R i' k) by (auto; lia). apply (row_same w buf b1 i' n); try lia. intros x Hx. rewrite N1.
        destruct (Z.leb_spec (i * w) x), (Z.ltb_spec x (i * w + w)); cbn [andb]; try reflexivity. exfalso. nia.
  - rewrite E. cbn [bind]. eexists; split; [reflexivity|]. unfold newI, wf. cbn [offset width ilen ibuf]. fold w n.
    split; [repeat split; lia|]. split; [reflexivity|]. intros i k Hk. pose proof (nthZ_Some _ _ _ Hk) as Hi.
    rewrite <- (R i k) by (auto; unfold n; lia). unfold identity, row. cbn [offset width ibuf]. fold w. f_equal; ring.
Qed.
Lemma ocarry_ok must own n cry F : ownok must own n -> ownbears own F -> (forall c, In c cry -> 0 <= c < n) ->
  exists o, ocarry own cry = Ok o /\ ownok must o (zlen cry) /\ ownbears o (carryF cry F).
Proof.
  intros Ho Hb Hr. destruct own as [idn|]; cbn [ocarry].
  - destruct (proj2 Ho idn eq_refl) as (Hw & Hl). destruct (icarry_ok idn cry Hw) as (J & -> & Hwj & Hlj & Hj); [intros; rewrite Hl; auto|]. cbn [bind].
    eexists; split; [reflexivity|]. split.
    + split; [congruence|]. intros J' [= <-]. auto.
    + intros J' [= <-] i q (k & Hk & HF). split; [rewrite Hlj; exact (nthZ_Some _ _ _ Hk)|]. rewrite (Hj _ _ Hk). apply (Hb idn eq_refl _ _ HF).
  - eexists; split; [reflexivity|]. split; [|intros ? [=]]. split; [intros E; destruct (proj1 Ho E eq_refl)|intros ? [=]].
Qed.

(** ** putting a sliced node together *)
Lemma same_children must c c' own subs o' (F F' : Z -> list Z -> Prop) :
  (forall k, child c' k = child c k) -> fits must c (Node own subs) -> bears c (Node own subs) F ->
  ownok must o' (length_ c') -> ownbears o' F' ->
  (forall k i q s r, F' i q -> into c' k i s = Some (r, []) -> exists i0, F i0 q /\ into c k i0 s = Some (r, [])) ->
  fits must c' (Node o' subs) /\ bears c' (Node o' subs) F'.
Proof.
  intros Hc Hf Hb Ho Hob Hin. apply fits_inv in Hf as (_ & Hf). apply bears_node in Hb as (_ & Hb). split.
  - constructor; [exact Ho|]. intros k d. rewrite Hc. apply Hf.
  - apply bears_node. split; [exact Hob|]. intros k d t' Hd Ht. rewrite Hc in Hd.
    eapply bears_mono; [|apply (Hb k d t' Hd Ht)]. intros r q' (i & q & s & HF & Hi & ->).
    destruct (Hin _ _ _ _ _ HF Hi) as (i0 & HF0 & Hi0). exists i0, q, s. auto.
Qed.
Lemma new_child must c' d s own (F G : Z -> list Z -> Prop) :
  (forall k, child c' k = if k =? 0 then Some d else None) -> fits must d s -> bears d s G ->
  ownok must own (length_ c') -> ownbears own F -> (forall r q, push c' 0 F r q -> G r q) ->
  fits must c' (Node own [s]) /\ bears c' (Node own [s]) F.
Proof.
  intros Hc Hf Hb Ho Hob HG. split.
  - constructor; [exact Ho|]. intros k d' Hd. rewrite Hc in Hd. destruct (Z.eqb_spec k 0) as [->|]; [|discriminate]. injection Hd as <-.
    exists s. auto.
  - apply bears_node. split; [exact Hob|]. intros k d' t' Hd Ht. rewrite Hc in Hd. destruct (Z.eqb_spec k 0) as [->|]; [|discriminate]. injection Hd as <-.
    change (Some s = Some t') in Ht. injection Ht as <-. eapply bears_mono; [exact HG|exact Hb].
Qed.
Lemma one_sub must c d own subs F : (forall k, child c k = if k =? 0 then Some d else None) -> fits must c (Node own subs) -> bears c (Node own subs) F ->
  exists s, sub0 subs = Ok s /\ fits must d s /\ bears d s (push c 0 F).
Proof.
  intros Hc Hf Hb. apply fits_inv in Hf as (_ & Hf). apply bears_node in Hb as (_ & Hb).
  destruct (Hf 0 d) as (s & Hs & Hfs); [rewrite Hc; reflexivity|]. exists s. split; [now apply rd_Ok|]. split; [exact Hfs|].
  apply (Hb 0 d s); [rewrite Hc; reflexivity|exact Hs].
Qed.
Lemma many_children (f : content -> res content) (g : content -> ids -> res ids) (Q : Z -> content -> content -> ids -> Prop) cs :
  forall j0 subs,
  (forall k c, nthZ cs k = Some c -> exists s, nthZ subs k = Some s /\ exists c' s', f c = Ok c' /\ g c s = Ok s' /\ Q (j0 + k) c c' s') ->
  exists cs' ss', mapres f cs = Ok cs' /\ each2 g cs subs = Ok ss' /\ zlen cs' = zlen cs /\
    forall k c', nthZ cs' k = Some c' -> exists c s', nthZ cs k = Some c /\ nthZ ss' k = Some s' /\ Q (j0 + k) c c' s'.
Proof.
  induction cs as [|c cs IH]; intros j0 subs H.
  - exists [], []. cbn. repeat split; try reflexivity. intros k c' Hk. rewrite nthZ_nil in Hk. discriminate.
  - destruct (H 0 c) as (s & Hs & c' & s' & Hf & Hg & HQ); [rewrite nthZ_cons; reflexivity|].
    destruct subs as [|s0 subs]; [rewrite nthZ_nil in Hs; discriminate|]. rewrite nthZ_cons in Hs. cbn in Hs. injection Hs as ->.
    destruct (IH (j0 + 1) subs) as (cs' & ss' & E1 & E2 & L & R).
    { intros k d Hk. pose proof (nthZ_Some _ _ _ Hk) as Hk'. destruct (H (k + 1) d) as (s1 & Hs1 & R1).
      { rewrite nthZ_cons. destruct (Z.eqb_spec (k + 1) 0); [lia|]. now replace (k + 1 - 1) with k by lia. }
      rewrite nthZ_cons in Hs1. destruct (Z.eqb_spec (k + 1) 0); [lia|]. replace (k + 1 - 1) with k in Hs1 by lia.
      exists s1. split; [exact Hs1|]. replace (j0 + 1 + k) with (j0 + (k + 1)) by ring. exact R1. }
    exists (c' :: cs'), (s' :: ss'). cbn [mapres each2]. rewrite Hf, Hg. cbn [bind]. rewrite E1, E2. cbn [bind].
    split; [reflexivity|]. split; [reflexivity|]. split; [rewrite !zlen_cons; lia|].
    intros k d Hk. rewrite nthZ_cons in Hk. destruct (Z.eqb_spec k 0) as [->|].
    + injection Hk as <-. exists c, s'. rewrite !nthZ_cons. cbn. auto.
    + destruct (R _ _ Hk) as (c0 & s0' & H1 & H2 & H3). exists c0, s0'. rewrite !nthZ_cons. destruct (Z.eqb_spec k 0); [lia|].
      split; [exact H1|]. split; [exact H2|]. replace (j0 + k) with (j0 + 1 + (k - 1)) by ring. exact H3.
Qed.
