(** Proofs about the identities kernels, continued: the kernels of the array classes. *)
From Verif Require Import Base BaseLemmas Content SpecArray OmapLemmas Identities SpecIdentities PIdentities.
Local Open Scope string_scope.
Local Open Scope list_scope.
Local Open Scope Z_scope.

Lemma within_nil a b s j : within a b s = Some (j, []) <-> exists q, s = [q] /\ 0 <= q < b - a /\ j = a + q.
Proof.
  unfold within. destruct s as [|q s]; [split; [discriminate|intros (q & [=] & _)]|].
  split.
  - destruct (Z.leb_spec 0 q), (Z.ltb_spec q (b - a)); cbn [andb]; try discriminate. intros [= <- ->]. exists q. auto.
  - intros (q' & [= -> ->] & Hq & ->). destruct (Z.leb_spec 0 q'), (Z.ltb_spec q' (b - a)); try lia. reflexivity.
Qed.
Lemma identity_len1 idn i : wf idn -> 0 <= i < ilen idn -> 1 <= zlen (identity idn i).
Proof. intros Hw Hi. rewrite zlen_identity by assumption. apply Hw. Qed.

(** ** lists by starts and stops *)
Definition lists_ok (starts stops : list Z) (n : Z) : Prop :=
  forall i a b, nthZ starts i = Some a -> nthZ stops i = Some b -> a = b \/ 0 <= a <= b /\ b <= n.

Lemma into_ListA starts stops c i j s :
  into (ListA starts stops c) 0 i s = Some (j, []) <->
  exists a b q, nthZ starts i = Some a /\ nthZ stops i = Some b /\ s = [q] /\ 0 <= q < b - a /\ j = a + q.
Proof.
  cbn [into]. destruct (nthZ starts i) as [a|]; [|split; [discriminate|intros (? & ? & ? & [=] & _)]].
  destruct (nthZ stops i) as [b|]; [|split; [discriminate|intros (? & ? & ? & _ & [=] & _)]].
  rewrite within_nil. split; [intros (q & H); exists a, b, q; intuition auto|intros (a' & b' & q & [= ->] & [= ->] & H); exists q; exact H].
Qed.

Lemma from_ListArray_ok idn starts stops c n buf :
  wf idn -> ilen idn = zlen starts -> zlen starts <= zlen stops -> lists_ok starts stops n -> 0 <= n ->
  zlen buf = n * (width idn + 1) ->
  exists out, awkward_Identities_from_ListArray buf (idata idn) starts stops n (zlen starts) (width idn) = Ok out /\
    match out with
    | None => shared (ListA starts stops c) 0
    | Some b => Inv n (width idn + 1) (identity idn) (fun i j s => into (ListA starts stops c) 0 i s = Some (j, [])) b
    end.
Proof.
  intros Hwf Hlen Hss Hok Hn Hbuf. set (w := width idn) in *. assert (Hw : 1 <= w) by (apply Hwf).
  set (R := fun i j s => into (ListA starts stops c) 0 i s = Some (j, [])).
  assert (HR : forall i j s, R i j s -> 0 <= i < ilen idn /\ 0 <= j < n).
  { intros i j s H. apply into_ListA in H as (a & b & q & Ha & Hb & _ & Hq & ->). split.
    - apply nthZ_Some in Ha. lia.
    - destruct (Hok i a b Ha Hb); lia. }
  unfold awkward_Identities_from_ListArray.
  destruct (start_table n (w+1) (identity idn) buf (fun i' j s => R i' j s /\ i' < 0)) as (b0 & E0 & I0); try lia.
  { intros i j s (H & Hi). apply HR in H. lia. }
  rewrite E0. cbn [bind].
  match goal with |- context [for_ 0 (zlen starts) ?B _] => set (body := B) end.
  destruct (for_inv (fun i out => match out with
              | None => shared (ListA starts stops c) 0
              | Some b => Inv n (w+1) (identity idn) (fun i' j s => R i' j s /\ i' < i) b end) 0 (zlen starts) body (Some b0)) as (out & E & H).
  - apply zlen_nonneg.
  - exact I0.
  - intros i out Hi HI. destruct out as [b|]; [|exists None; split; [reflexivity|exact HI]].
    unfold body at 1. destruct (rd_in starts i) as (a & Ea & Na); [lia|]. destruct (rd_in stops i) as (e & Ee & Ne); [lia|].
    rewrite Ea, Ee. cbn [bind]. pose proof (Hok i a e Na Ne) as Hae.
    replace (negb (a =? e) && (n <? e)) with false by (destruct (Z.eqb_spec a e), (Z.ltb_spec n e); try lia; reflexivity).
    match goal with |- context [for_ a e ?B _] => set (inner := B) end.
    destruct (for_inv (fun x out => match out with
              | None => shared (ListA starts stops c) 0
              | Some b => Inv n (w+1) (identity idn) (fun i' j s => R i' j s /\ (i' < i \/ i' = i /\ j < x)) b end) a e inner (Some b)) as (out & E & H).
    + lia.
    + eapply Inv_ext; [|exact HI]. intros i' j s. split.
      * intros (HRi & Hi'). split; [exact HRi|left; exact Hi'].
      * intros (HRi & [Hi'|(-> & Hj)]); [split; assumption|]. exfalso. apply into_ListA in HRi as (a' & b' & q & Ha' & Hb' & _ & Hq & ->). assert (a' = a) by congruence. lia.
    + intros x out Hx HIx. destruct out as [bx|]; [|exists None; split; [reflexivity|exact HIx]].
      unfold inner at 1. pose proof HIx as (L & S & C). assert (Hxn : 0 <= x < n) by lia.
      assert (Hthis : R i x [x - a]) by (apply into_ListA; exists a, e, (x - a); repeat split; try assumption; lia).
      destruct (row_range (w+1) n x) as (B1 & B2 & B3); try lia.
      destruct (rd_in bx (x * (w+1) + w)) as (v & Ev & Nv); [lia|]. rewrite Ev. cbn [bind].
      rewrite <- (nth_row (w+1) bx x n w) in Nv by lia.
      destruct (Z.eqb_spec v (-1)) as [->|Hv]; cbn [negb].
      * destruct (write_row_list (idata idn) bx i x w n (ilen idn) (x - a)) as (b1 & b2 & E1 & E2 & L2 & R2 & O2); try lia.
        { pose proof (zlen_idata idn Hwf). exact H. }
        rewrite E1. cbn [bind]. rewrite E2. cbn [bind]. eexists; split; [reflexivity|].
        eapply (Inv_step n (w+1) (identity idn) _ _ bx b2 i x [x - a]); try eassumption.
        -- intros i' j s (HRi & _). apply identity_len1; [exact Hwf|]. apply HR in HRi. apply HRi.
        -- rewrite R2. f_equal. symmetry. apply identity_data; [exact Hwf|lia].
        -- destruct (S x Hxn) as [Er|(i' & s' & (HRi & _) & Er)].
           ++ unfold unset. rewrite Er. apply nthZ_repeat. lia.
           ++ exfalso. apply into_ListA in HRi as HRi'. destruct HRi' as (a' & b' & q & Ha' & Hb' & -> & Hq & Hxq).
              rewrite Er in Nv. rewrite nthZ_app in Nv. rewrite zlen_identity in Nv by (try exact Hwf; apply HR in HRi; apply HRi). fold w in Nv.
              destruct (Z.ltb_spec w w); [lia|]. rewrite Z.sub_diag in Nv. injection Nv as ->. lia.
        -- intros i' j s. split.
           ++ intros (HRi & [Hi'|(-> & Hj)]); [left; split; [exact HRi|left; exact Hi']|].
              destruct (Z.eq_dec j x) as [->|].
              ** right. split; [reflexivity|]. split; [reflexivity|]. apply into_ListA in HRi as (a' & b' & q & Ha' & Hb' & -> & Hq & Hxq). f_equal. replace a' with a in * by congruence. lia.
              ** left. split; [exact HRi|]. right. split; [reflexivity|lia].
           ++ intros [(HRi & [Hi'|(-> & Hj)])|(-> & -> & ->)].
              ** split; [exact HRi|left; exact Hi'].
              ** split; [exact HRi|right]. split; [reflexivity|lia].
              ** split; [exact Hthis|right]. split; [reflexivity|lia].
      * exists None. split; [reflexivity|]. destruct (S x Hxn) as [Er|(i' & s' & (HRi & Hd) & Er)].
        -- exfalso. rewrite Er in Nv. rewrite nthZ_repeat in Nv by lia. congruence.
        -- exists i', s', i, [x - a], x. split; [|split; [exact HRi|exact Hthis]]. intros [= -> ->]. destruct Hd as [Hd|(_ & Hd)]; lia.
    + exists out. split; [exact E|]. destruct out as [b'|]; [|exact H]. eapply Inv_ext; [|exact H]. intros i' j s. split.
      * intros (HRi & [Hi'|(-> & Hj)]); split; try assumption; lia.
      * intros (HRi & Hi'). split; [exact HRi|]. destruct (Z.eq_dec i' i) as [->|]; [right; split; [reflexivity|]|left; lia].
        apply into_ListA in HRi as (a' & b'' & q & Ha' & Hb' & _ & Hq & ->). assert (a' = a) by congruence. assert (b'' = e) by congruence. lia.
  - exists out. split; [exact E|]. destruct out as [b'|]; [|exact H]. eapply Inv_ext; [|exact H]. intros i' j s. split; [intros (HRi & _); exact HRi|].
    intros HRi. split; [exact HRi|]. apply HR in HRi. lia.
Qed.

(** ** index and union: at most one row of the content for each row *)
Lemma point_kernel idn n m buf (R : Z -> Z -> list Z -> Prop) (Sh : Prop) (body : Z -> option (list Z) -> res (option (list Z))) :
  wf idn -> ilen idn = m -> 0 <= n -> zlen buf = n * width idn ->
  (forall i j s, R i j s -> 0 <= i < m) ->
  (forall i1 i2 j, R i1 j [] -> R i2 j [] -> i1 <> i2 -> Sh) ->
  (forall i, body i None = Ok None) ->
  (forall i, 0 <= i < m ->
     ((forall b, body i (Some b) = Ok (Some b)) /\ forall j s, ~ R i j s) \/
     exists j, 0 <= j < n /\ (forall j' s, R i j' s <-> j' = j /\ s = []) /\
       forall b, body i (Some b) =
         let* x := rd b (j * width idn) in
         if negb (x =? -1) then Ok None else
         let* b := for_ 0 (width idn) (fun k b => let* y := rd (idata idn) (i * width idn + k) in wr b (j * width idn + k) y) b in
         Ok (Some b)) ->
  exists out, (let* b := for_ 0 (n * width idn) (fun k b => wr b k (-1)) buf in for_ 0 m body (Some b)) = Ok out /\
    match out with None => Sh | Some b => Inv n (width idn) (identity idn) R b end.
Proof.
  intros Hwf Hlen Hn Hbuf HR HSh HNone Hbody. set (w := width idn) in *. assert (Hw : 1 <= w) by (apply Hwf).
  destruct (start_table n w (identity idn) buf (fun i' j s => R i' j s /\ i' < 0)) as (b0 & E0 & I0); try lia.
  { intros i j s (H & Hi). apply HR in H. lia. }
  rewrite E0. cbn [bind].
  destruct (for_inv (fun i out => match out with
              | None => Sh
              | Some b => Inv n w (identity idn) (fun i' j s => R i' j s /\ i' < i) b end) 0 m body (Some b0)) as (out & E & H).
  - destruct Hwf as (_ & _ & H & _). lia.
  - exact I0.
  - intros i out Hi HI. destruct out as [b|]; [|exists None; split; [apply HNone|exact HI]].
    destruct (Hbody i Hi) as [(Hskip & HnR)|(j & Hj & HRi & Hgo)].
    + exists (Some b). split; [apply Hskip|]. eapply Inv_ext; [|exact HI]. intros i' j' s'. split; intros (HRi & Hlt); split; try assumption; [lia|].
      destruct (Z.eq_dec i' i) as [->|]; [destruct (HnR _ _ HRi)|lia].
    + rewrite Hgo. pose proof HI as (L & S & C). destruct (row_range w n j) as (B1 & B2 & B3); try lia.
      destruct (rd_in b (j * w)) as (v & Ev & Nv); [lia|]. rewrite Ev. cbn [bind].
      rewrite <- (Z.add_0_r (j * w)) in Nv. rewrite <- (nth_row w b j n 0) in Nv by lia.
      destruct (Z.eqb_spec v (-1)) as [->|Hv]; cbn [negb].
      * destruct (write_row (idata idn) b i j w n m) as (b1 & E1 & L1 & R1 & O1); try lia.
        { rewrite <- Hlen. apply (zlen_idata idn Hwf). }
        rewrite E1. cbn [bind]. eexists; split; [reflexivity|].
        eapply (Inv_step n w (identity idn) _ _ b b1 i j []); try eassumption.
        -- intros i' j' s (HRi' & _). apply identity_len1; [exact Hwf|]. apply HR in HRi'. lia.
        -- rewrite R1, app_nil_r. symmetry. apply identity_data; [exact Hwf|lia].
        -- intros i' j' s'. split.
           ++ intros (HRi' & Hlt). destruct (Z.eq_dec i' i) as [->|].
              ** right. split; [reflexivity|]. apply HRi. exact HRi'.
              ** left. split; [exact HRi'|lia].
           ++ intros [(HRi' & Hlt)|(-> & HH)]; [split; [exact HRi'|lia]|]. split; [apply HRi; exact HH|lia].
      * exists None. split; [reflexivity|]. destruct (S j Hj) as [Er|(i' & s' & (HRi' & Hd) & Er)].
        -- exfalso. rewrite Er in Nv. rewrite nthZ_repeat in Nv by lia. congruence.
        -- destruct (Hbody i') as [(_ & HnR)|(j0 & _ & HR0 & _)]; [apply HR in HRi'; lia|destruct (HnR _ _ HRi')|].
           pose proof (proj1 (HR0 _ _) HRi') as (-> & ->).
           apply (HSh i' i j0); [exact HRi'|apply HRi; auto|lia].
  - exists out. split; [exact E|]. destruct out as [b'|]; [|exact H]. eapply Inv_ext; [|exact H]. intros i' j s. split; [intros (HRi & _); exact HRi|].
    intros HRi. split; [exact HRi|]. apply HR in HRi. lia.
Qed.

Lemma into_Indexed index c i j s :
  into (Indexed index c) 0 i s = Some (j, []) <-> nthZ index i = Some j /\ 0 <= j /\ s = [].
Proof.
  cbn [into]. destruct (nthZ index i) as [k|]; [|split; [discriminate|intros ([=] & _)]].
  destruct (Z.leb_spec 0 k); split; try discriminate.
  - intros [= -> ->]. auto.
  - intros ([= ->] & _ & ->). reflexivity.
  - intros ([= ->] & ? & _). lia.
Qed.
Lemma from_IndexedArray_ok idn index c n buf :
  wf idn -> ilen idn = zlen index -> (forall i j, nthZ index i = Some j -> j < n) -> 0 <= n -> zlen buf = n * width idn ->
  exists out, awkward_Identities_from_IndexedArray buf (idata idn) index n (zlen index) (width idn) = Ok out /\
    match out with
    | None => shared (Indexed index c) 0
    | Some b => Inv n (width idn) (identity idn) (fun i j s => into (Indexed index c) 0 i s = Some (j, [])) b
    end.
Proof.
  intros Hwf Hlen Hok Hn Hbuf. unfold awkward_Identities_from_IndexedArray.
  apply point_kernel; try assumption.
  - intros i j s H. apply into_Indexed in H as (H & _). apply nthZ_Some in H. lia.
  - intros i1 i2 j H1 H2 Hne. exists i1, [], i2, [], j. split; [congruence|]. split; assumption.
  - reflexivity.
  - intros i Hi. destruct (rd_in index i) as (j & Ej & Nj); [lia|]. pose proof (Hok i j Nj) as Hjn.
    destruct (Z_le_gt_dec 0 j) as [Hj|Hj].
    + right. exists j. split; [lia|]. split.
      * intros j' s. rewrite into_Indexed. split; [intros (H & _ & ->); split; [congruence|reflexivity]|intros (-> & ->); auto].
      * intros b. rewrite Ej. cbn [bind]. destruct (Z.leb_spec n j), (Z.leb_spec 0 j); try lia. reflexivity.
    + left. split.
      * intros b. rewrite Ej. cbn [bind]. destruct (Z.leb_spec n j), (Z.leb_spec 0 j); try lia. reflexivity.
      * intros j' s H. apply into_Indexed in H as (H & H0 & _). assert (j' = j) by congruence. lia.
Qed.

Lemma into_Union tags index cs k i j s :
  into (Union tags index cs) k i s = Some (j, []) <-> nthZ tags i = Some k /\ nthZ index i = Some j /\ s = [].
Proof.
  cbn [into]. destruct (nthZ tags i) as [t|]; [|split; [discriminate|intros ([=] & _)]].
  destruct (nthZ index i) as [x|]; [|split; [discriminate|intros (_ & [=] & _)]].
  destruct (Z.eqb_spec t k) as [->|]; split; try discriminate.
  - intros [= -> ->]. auto.
  - intros (_ & [= ->] & ->). reflexivity.
  - intros ([= ->] & _). congruence.
Qed.
Lemma from_UnionArray_ok idn tags index cs k n buf :
  wf idn -> ilen idn = zlen tags -> zlen tags <= zlen index ->
  (forall i j, nthZ tags i = Some k -> nthZ index i = Some j -> 0 <= j < n) -> 0 <= n -> zlen buf = n * width idn ->
  exists out, awkward_Identities_from_UnionArray buf (idata idn) tags index n (zlen tags) (width idn) k = Ok out /\
    match out with
    | None => shared (Union tags index cs) k
    | Some b => Inv n (width idn) (identity idn) (fun i j s => into (Union tags index cs) k i s = Some (j, [])) b
    end.
Proof.
  intros Hwf Hlen Hti Hok Hn Hbuf. unfold awkward_Identities_from_UnionArray.
  apply point_kernel; try assumption.
  - intros i j s H. apply into_Union in H as (H & _). apply nthZ_Some in H. lia.
  - intros i1 i2 j H1 H2 Hne. exists i1, [], i2, [], j. split; [congruence|]. split; assumption.
  - reflexivity.
  - intros i Hi. destruct (rd_in tags i) as (t & Et & Nt); [lia|]. destruct (rd_in index i) as (j & Ej & Nj); [lia|].
    destruct (Z.eq_dec t k) as [->|Hne].
    + right. pose proof (Hok i j Nt Nj) as Hj. exists j. split; [lia|]. split.
      * intros j' s. rewrite into_Union. split; [intros (_ & H & ->); split; [congruence|reflexivity]|intros (-> & ->); auto].
      * intros b. rewrite Et, Ej. cbn [bind]. rewrite Z.eqb_refl. destruct (Z.leb_spec n j), (Z.ltb_spec j 0); try lia. reflexivity.
    + left. split.
      * intros b. rewrite Et. cbn [bind]. destruct (Z.eqb_spec t k); [lia|]. reflexivity.
      * intros j' s H. apply into_Union in H as (H & _). congruence.
Qed.
