(** Proofs about the identities kernels. *)
From Verif Require Import Base BaseLemmas Content SpecArray OmapLemmas Identities SpecIdentities.
Local Open Scope string_scope.
Local Open Scope list_scope.
Local Open Scope Z_scope.

Definition row (w : Z) (b : list Z) (j : Z) : list Z := slice (j * w) ((j + 1) * w) b.
Definition wf (idn : idents) : Prop :=
  0 <= offset idn /\ 1 <= width idn /\ 0 <= ilen idn /\ offset idn + ilen idn * width idn <= zlen (ibuf idn).
Definition unset (r : list Z) : Prop := nthZ r 0 = Some (-1).

Lemma slice_ext {A} a b (l l' : list A) :
  0 <= a -> b <= zlen l -> b <= zlen l' -> (forall x, a <= x < b -> nthZ l x = nthZ l' x) -> slice a b l = slice a b l'.
Proof.
  intros Ha H1 H2 H. destruct (Z_lt_le_dec a b) as [Hab|Hab].
  2:{ unfold slice. now replace (Z.to_nat (b - a)) with O by lia. }
  apply list_eqZ; [rewrite !zlen_slice by lia; lia|].
  intros i Hi. rewrite zlen_slice in Hi by lia. rewrite !nthZ_slice by lia. apply H; lia.
Qed.
Lemma row_range w n j : 0 <= w -> 0 <= j < n -> 0 <= j * w /\ (j + 1) * w <= n * w /\ (j + 1) * w - j * w = w.
Proof. nia. Qed.
Lemma zlen_row w b j n : 0 <= w -> 0 <= j < n -> n * w <= zlen b -> zlen (row w b j) = w.
Proof. intros. destruct (row_range w n j) as (? & ? & ?); try lia. unfold row. rewrite zlen_slice by lia. lia. Qed.
Lemma nth_row w b j n k : 0 <= w -> 0 <= j < n -> n * w <= zlen b -> 0 <= k < w -> nthZ (row w b j) k = nthZ b (j * w + k).
Proof. intros. destruct (row_range w n j) as (? & ? & ?); try lia. unfold row. rewrite nthZ_slice by lia. reflexivity. Qed.
Lemma row_same w b b' j n :
  0 <= w -> 0 <= j < n -> n * w <= zlen b -> n * w <= zlen b' ->
  (forall x, j * w <= x < (j + 1) * w -> nthZ b' x = nthZ b x) -> row w b' j = row w b j.
Proof. intros. destruct (row_range w n j) as (? & ? & ?); try lia. apply slice_ext; try lia. assumption. Qed.

Lemma identity_data idn j : wf idn -> 0 <= j < ilen idn -> identity idn j = row (width idn) (idata idn) j.
Proof.
  intros (H1 & H2 & H3 & H4) Hj. unfold identity, row, idata.
  assert (0 <= j * width idn /\ (j + 1) * width idn <= ilen idn * width idn /\ (j+1)*width idn = j * width idn + width idn) as (E1 & E2 & E3) by nia.
  apply list_eqZ.
  - rewrite !zlen_slice by (try rewrite zlen_slice; lia). lia.
  - intros i Hi. rewrite zlen_slice in Hi by lia.
    rewrite nthZ_slice, nthZ_slice, nthZ_slice by lia. f_equal. lia.
Qed.
Lemma zlen_idata idn : wf idn -> ilen idn * width idn <= zlen (idata idn).
Proof. intros (H1 & H2 & H3 & H4). assert (0 <= ilen idn * width idn) by nia. unfold idata. rewrite zlen_slice by lia. lia. Qed.
Lemma zlen_identity idn j : wf idn -> 0 <= j < ilen idn -> zlen (identity idn j) = width idn.
Proof.
  intros Hw Hj. rewrite identity_data by assumption. destruct Hw as (? & ? & ? & ?) eqn:E. eapply zlen_row; [lia|exact Hj|]. apply zlen_idata. repeat split; assumption.
Qed.

(** ** filling and copying *)
Lemma fill_cells lo hi v (b : list Z) : 0 <= lo -> hi <= zlen b ->
  exists b', for_ lo hi (fun k b => wr b k v) b = Ok b' /\ zlen b' = zlen b /\
             forall x, nthZ b' x = if (lo <=? x) && (x <? hi) then Some v else nthZ b x.
Proof.
  intros Hlo Hhi. destruct (Z_le_gt_dec hi lo) as [Hle|Hgt].
  { exists b. rewrite for_nil by lia. split; [reflexivity|]. split; [reflexivity|]. intros x.
    destruct (Z.leb_spec lo x), (Z.ltb_spec x hi); try lia; reflexivity. }
  destruct (for_inv (fun i b' => zlen b' = zlen b /\ forall x, nthZ b' x = if (lo <=? x) && (x <? i) then Some v else nthZ b x)
              lo hi (fun k b => wr b k v) b) as (b' & E & H1 & H2); try lia.
  - split; [reflexivity|]. intros x. destruct (Z.leb_spec lo x), (Z.ltb_spec x lo); try lia; reflexivity.
  - intros i t Hi (L & N). destruct (wr_spec t i v) as (t' & E' & L' & N'); [lia|]. exists t'. split; [exact E'|]. split; [lia|].
    intros x. rewrite N', N. destruct (Z.eqb_spec x i), (Z.leb_spec lo x), (Z.ltb_spec x i), (Z.ltb_spec x (i+1)); try lia; reflexivity.
  - exists b'. auto.
Qed.
Lemma copy_cells (src : list Z) s0 (b : list Z) d0 w :
  0 <= w -> 0 <= s0 -> s0 + w <= zlen src -> 0 <= d0 -> d0 + w <= zlen b ->
  exists b', for_ 0 w (fun k b => let* y := rd src (s0 + k) in wr b (d0 + k) y) b = Ok b' /\ zlen b' = zlen b /\
             forall x, nthZ b' x = if (d0 <=? x) && (x <? d0 + w) then nthZ src (s0 + (x - d0)) else nthZ b x.
Proof.
  intros Hw Hs0 Hs Hd0 Hd.
  destruct (for_inv (fun i b' => zlen b' = zlen b /\ forall x, nthZ b' x = if (d0 <=? x) && (x <? d0 + i) then nthZ src (s0 + (x - d0)) else nthZ b x)
              0 w (fun k b => let* y := rd src (s0 + k) in wr b (d0 + k) y) b) as (b' & E & H1 & H2); try lia.
  - split; [reflexivity|]. intros x. destruct (Z.leb_spec d0 x), (Z.ltb_spec x (d0+0)); try lia; reflexivity.
  - intros i t Hi (L & N). destruct (rd_in src (s0 + i)) as (y & Ey & Ny); [lia|]. rewrite Ey. cbn [bind].
    destruct (wr_spec t (d0+i) y) as (t' & E' & L' & N'); [lia|]. exists t'. split; [exact E'|]. split; [lia|].
    intros x. rewrite N', N. destruct (Z.eqb_spec x (d0+i)) as [->|].
    + destruct (Z.leb_spec d0 (d0+i)), (Z.ltb_spec (d0+i) (d0+(i+1))); try lia. cbn [andb]. rewrite <- Ny. f_equal; lia.
    + destruct (Z.leb_spec d0 x), (Z.ltb_spec x (d0+i)), (Z.ltb_spec x (d0+(i+1))); try lia; reflexivity.
  - exists b'. auto.
Qed.

Lemma row_disjoint W n j j' x : 0 <= W -> 0 <= j < n -> 0 <= j' < n -> j <> j' ->
  j * W <= x < (j + 1) * W -> ~ (j' * W <= x < (j' + 1) * W).
Proof. intros HW Hj Hj' Hne Hx Hx'. destruct (Z_lt_le_dec j j'); nia. Qed.

(** write row [j]: the row of another table, then possibly one more number *)
Lemma write_row (src b : list Z) i j w n m :
  1 <= w -> 0 <= i < m -> m * w <= zlen src -> 0 <= j < n -> n * w <= zlen b ->
  exists b', for_ 0 w (fun k b => let* y := rd src (i * w + k) in wr b (j * w + k) y) b = Ok b' /\
    zlen b' = zlen b /\ row w b' j = row w src i /\
    forall j', 0 <= j' < n -> j' <> j -> row w b' j' = row w b j'.
Proof.
  intros Hw Hi Hsrc Hj Hb. destruct (row_range w m i) as (A1 & A2 & A3); try lia. destruct (row_range w n j) as (B1 & B2 & B3); try lia.
  destruct (copy_cells src (i*w) b (j*w) w) as (b' & E & L & N); try lia.
  exists b'. split; [exact E|]. split; [exact L|]. split.
  - apply list_eqZ; [erewrite !zlen_row by (eassumption || lia); lia|]. intros k Hk. erewrite zlen_row in Hk by (eassumption || lia).
    erewrite !nth_row by (eassumption || lia). rewrite N.
    destruct (Z.leb_spec (j*w) (j*w+k)), (Z.ltb_spec (j*w+k) (j*w+w)); try lia. cbn [andb]. f_equal; lia.
  - intros j' Hj' Hne. apply (row_same w b b' j' n); try lia. intros x Hx. rewrite N.
    pose proof (row_disjoint w n j' j x ltac:(lia) Hj' Hj Hne Hx).
    destruct (Z.leb_spec (j*w) x), (Z.ltb_spec x (j*w+w)); try lia; reflexivity.
Qed.
Lemma write_row_list (src b : list Z) i j w n m q :
  1 <= w -> 0 <= i < m -> m * w <= zlen src -> 0 <= j < n -> n * (w + 1) <= zlen b ->
  exists b1 b', for_ 0 w (fun k b => let* y := rd src (i * w + k) in wr b (j * (w + 1) + k) y) b = Ok b1 /\
    wr b1 (j * (w + 1) + w) q = Ok b' /\
    zlen b' = zlen b /\ row (w + 1) b' j = row w src i ++ [q] /\
    forall j', 0 <= j' < n -> j' <> j -> row (w + 1) b' j' = row (w + 1) b j'.
Proof.
  intros Hw Hi Hsrc Hj Hb. destruct (row_range w m i) as (A1 & A2 & A3); try lia. destruct (row_range (w+1) n j) as (B1 & B2 & B3); try lia.
  destruct (copy_cells src (i*w) b (j*(w+1)) w) as (b1 & E & L & N); try lia.
  destruct (wr_spec b1 (j*(w+1)+w) q) as (b' & E' & L' & N'); [lia|].
  exists b1, b'. split; [exact E|]. split; [exact E'|]. split; [lia|]. split.
  - assert (LR : zlen (row w src i) = w) by (eapply zlen_row; eassumption || lia).
    apply list_eqZ; [rewrite (zlen_row (w+1) b' j n), zlen_app, LR by lia; reflexivity|]. intros k Hk. rewrite (zlen_row (w+1) b' j n) in Hk by lia.
    rewrite (nth_row (w+1) b' j n) by lia. rewrite nthZ_app, LR, N', N.
    destruct (Z.eqb_spec (j*(w+1)+k) (j*(w+1)+w)) as [Ek|Hk'].
    + replace k with w by lia. destruct (Z.ltb_spec w w); [lia|]. now rewrite Z.sub_diag.
    + destruct (Z.leb_spec (j*(w+1)) (j*(w+1)+k)), (Z.ltb_spec (j*(w+1)+k) (j*(w+1)+w)), (Z.ltb_spec k w); try lia. cbn [andb].
      rewrite (nth_row w src i m) by lia. f_equal; lia.
  - intros j' Hj' Hne. apply (row_same (w+1) b b' j' n); try lia. intros x Hx. rewrite N', N.
    pose proof (row_disjoint (w+1) n j' j x ltac:(lia) Hj' Hj Hne Hx).
    destruct (Z.eqb_spec x (j*(w+1)+w)), (Z.leb_spec (j*(w+1)) x), (Z.ltb_spec x (j*(w+1)+w)); try lia; reflexivity.
Qed.

Lemma nthZ_repeat {A} (v : A) w k : 0 <= k < w -> nthZ (repeat v (Z.to_nat w)) k = Some v.
Proof. intros H. unfold nthZ. destruct (Z.ltb_spec k 0); [lia|]. apply nth_error_repeat. lia. Qed.
Lemma zlen_repeat {A} (v : A) w : 0 <= w -> zlen (repeat v (Z.to_nat w)) = w.
Proof. intros. unfold zlen. rewrite repeat_length. lia. Qed.

Lemma cleared_row w n b' j :
  0 <= w -> 0 <= j < n -> n * w <= zlen b' ->
  (forall x, j * w <= x < (j + 1) * w -> nthZ b' x = Some (-1)) -> row w b' j = repeat (-1) (Z.to_nat w).
Proof.
  intros Hw Hj Hb H. destruct (row_range w n j) as (B1 & B2 & B3); try lia.
  apply list_eqZ; [rewrite (zlen_row w b' j n), zlen_repeat by lia; reflexivity|]. intros k Hk. rewrite (zlen_row w b' j n) in Hk by lia.
  rewrite (nth_row w b' j n), nthZ_repeat by lia. apply H. lia.
Qed.

(** ** the invariant of the kernels that start from a table of -1 *)
Section Inv.
  Variables (n W : Z) (P : Z -> list Z).
  Definition Inv (done : Z -> Z -> list Z -> Prop) (b : list Z) : Prop :=
    zlen b = n * W /\
    (forall j, 0 <= j < n -> row W b j = repeat (-1) (Z.to_nat W) \/ exists i s, done i j s /\ row W b j = P i ++ s) /\
    (forall i j s, done i j s -> 0 <= j < n /\ (~ unset (P i) -> row W b j = P i ++ s)).

  Lemma Inv_step (done done' : Z -> Z -> list Z -> Prop) b b' i j s :
    (forall i j s, done i j s -> 1 <= zlen (P i)) ->
    Inv done b -> zlen b' = zlen b -> 0 <= j < n -> row W b' j = P i ++ s ->
    (forall j', 0 <= j' < n -> j' <> j -> row W b' j' = row W b j') -> unset (row W b j) ->
    (forall i' j' s', done' i' j' s' <-> done i' j' s' \/ (i' = i /\ j' = j /\ s' = s)) ->
    Inv done' b'.
  Proof.
    intros HP (L & S & C) L' Hj Rj Ro Hun Hd. split; [lia|]. split.
    - intros j' Hj'. destruct (Z.eq_dec j' j) as [->|Hne].
      + right. exists i, s. split; [apply Hd; right; auto|exact Rj].
      + rewrite Ro by assumption. destruct (S j' Hj') as [H|(i' & s' & H & E)]; [left; exact H|right]. exists i', s'. split; [apply Hd; left; exact H|exact E].
    - intros i' j' s' Hd'. apply Hd in Hd' as [H|(-> & -> & ->)].
      + destruct (C _ _ _ H) as (Hj' & E). split; [exact Hj'|]. intros Hn. destruct (Z.eq_dec j' j) as [->|Hne].
        * exfalso. apply Hn. specialize (E Hn). unfold unset in Hun |- *. rewrite E in Hun. rewrite nthZ_app in Hun.
          pose proof (HP _ _ _ H). destruct (Z.ltb_spec 0 (zlen (P i'))); [exact Hun|lia].
        * rewrite Ro by assumption. apply E, Hn.
      + split; [exact Hj|]. intros _. exact Rj.
  Qed.
  Lemma Inv_ext (done done' : Z -> Z -> list Z -> Prop) b :
    (forall i j s, done i j s <-> done' i j s) -> Inv done b -> Inv done' b.
  Proof.
    intros H (L & S & C). split; [exact L|]. split.
    - intros j Hj. destruct (S j Hj) as [E|(i & s & D & E)]; [left; exact E|right; exists i, s; split; [apply H; exact D|exact E]].
    - intros i j s D. apply C, H, D.
  Qed.
End Inv.

Lemma start_table n W P buf (done : Z -> Z -> list Z -> Prop) :
  0 <= n -> 1 <= W -> zlen buf = n * W -> (forall i j s, ~ done i j s) ->
  exists b, for_ 0 (n * W) (fun k b => wr b k (-1)) buf = Ok b /\ Inv n W P done b.
Proof.
  intros Hn HW Hb Hd. destruct (fill_cells 0 (n*W) (-1) buf) as (b & E & L & N); [lia|lia|].
  exists b. split; [exact E|]. split; [lia|]. split.
  - intros j Hj. left. apply (cleared_row W n b j); try lia. intros x Hx. rewrite N. destruct (row_range W n j) as (B1 & B2 & B3); try lia.
    destruct (Z.leb_spec 0 x), (Z.ltb_spec x (n*W)); try lia; reflexivity.
  - intros i j s D. destruct (Hd _ _ _ D).
Qed.
