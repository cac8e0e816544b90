(** C04: taking by an integer index array (carry). *)
From Verif Require Import Base Content SpecArray SpecSlice Core PValid ExampleArrays.

Lemma carry_picks c vs idx lazy : den c = Some vs -> (forall i, In i idx -> 0 <= i < zlen vs) ->
  exists c' vs', carry c idx lazy = Ok c' /\ den c' = Some vs' /\ picks vs idx vs'.
Proof.
  intros Hd Hr. destruct (omap_nthZ_total vs idx Hr) as [vs' Hv]. destruct (carry_den c vs idx vs' lazy Hd Hv) as (c' & H1 & H2).
  exists c', vs'. split; [exact H1|]. split; [exact H2|]. now apply omap_picks.
Qed.
(** In-range index arrays: one element per entry, the element at that position; lazily or eagerly. *)
Theorem C04_carry : forall c vs idx lazy, den c = Some vs -> (forall i, In i idx -> 0 <= i < zlen vs) ->
  exists c' vs', carry c idx lazy = Ok c' /\ den c' = Some vs' /\ picks vs idx vs'.
Proof. exact carry_picks. Qed.
Print Assumptions C04_carry.
Example C04_carry_ex : exists c', carry ex_records [2; 2; 1; 0] true = Ok c' /\
  option_map zlen (den c') = Some 4 /\ match den c' with Some vs => nthZ vs 1 = nthZ ex_records_values 2 | None => False end.
Proof. eexists; split; [vm_compute; reflexivity|split; vm_compute; reflexivity]. Qed.

(** Out-of-range entries raise an error for the node types that gather an index buffer through a checked kernel. *)
Definition checks_carry (c : content) : Prop :=
  match c with
  | ListA _ _ _ | ListOffset _ _ | Indexed _ _ | IndexedOption _ _ | ByteMasked _ _ _ => True
  | _ => False
  end.
Lemma for_guard_err {S} n (body : Z -> S -> res S) s k m :
  0 <= k < n -> (forall i t, 0 <= i < k -> exists t', body i t = Ok t') -> (forall t, body k t = Err m) ->
  for_ 0 n body s = Err m.
Proof.
  intros Hk H1 H2. unfold for_.
  assert (G : forall j i s, Z.of_nat j = k - i -> 0 <= i -> forall l, (j < l)%nat -> loop l i body s = Err m).
  { induction j; intros i s' Hj Hi l Hl; (destruct l; [lia|]); cbn [loop].
    - assert (i = k) by lia; subst. now rewrite H2.
    - destruct (H1 i s') as [t ->]; [lia|]. cbn [bind]. apply IHj; lia. }
  apply (G (Z.to_nat k)); lia.
Qed.
(** the first offending position of a list *)
Lemma first_bad (P : Z -> bool) idx : existsb P idx = true ->
  exists k x, nthZ idx k = Some x /\ P x = true /\ forall j y, j < k -> nthZ idx j = Some y -> P y = false.
Proof.
  induction idx as [|a idx IH]; cbn; [discriminate|]. destruct (P a) eqn:E.
  - intros _. exists 0, a. repeat split; auto. intros j y Hj Hy. apply nthZ_Some in Hy. lia.
  - intros H. destruct (IH H) as (k & x & H1 & H2 & H3). pose proof (nthZ_Some _ _ _ H1). exists (k + 1), x. rewrite nthZ_cons. destruct (Z.eqb_spec (k+1) 0); [lia|].
    replace (k + 1 - 1) with k by lia. repeat split; auto. intros j y Hj Hy. rewrite nthZ_cons in Hy. destruct (Z.eqb_spec j 0); [congruence|]. apply (H3 (j - 1)); [lia|exact Hy].
Qed.
Lemma bad_gather (src : list Z) idx out n msg : n = zlen idx -> zlen out = n -> (forall i, In i idx -> 0 <= i) -> existsb (fun i => zlen src <=? i) idx = true ->
  for_ 0 n (fun i o => let* c := rd idx i in if zlen src <=? c then Err msg else let* x := rd src c in wr o i x) out = Err msg.
Proof.
  intros -> Ho Hpos Hex. destruct (first_bad _ _ Hex) as (k & x & Hx & Hb & Hmin). pose proof (nthZ_Some _ _ _ Hx) as Hk.
  (* every earlier write succeeds because the buffer never changes size *)
  assert (G : forall o, zlen o = zlen out -> for_ 0 (zlen idx) (fun i o => let* c := rd idx i in if zlen src <=? c then Err msg else let* x := rd src c in wr o i x) o = Err msg).
  { intros o Hlo. unfold for_.
    assert (G : forall j i o, zlen o = zlen out -> Z.of_nat j = k - i -> 0 <= i -> forall l, (j < l)%nat ->
      loop l i (fun i o => let* c := rd idx i in if zlen src <=? c then Err msg else let* x := rd src c in wr o i x) o = Err msg).
    { induction j; intros i o' Hlo' Hj Hi l Hl; (destruct l; [lia|]); cbn [loop].
      - assert (i = k) by lia; subst. rewrite (proj2 (rd_Ok _ _ _) Hx). cbn [bind]. rewrite Hb. reflexivity.
      - destruct (rd_in idx i) as (c & -> & Hc); [lia|]. cbn [bind]. rewrite (Hmin i c) by (auto; lia).
        assert (0 <= c < zlen src) by (specialize (Hpos c (nthZ_In _ _ _ Hc)); specialize (Hmin i c ltac:(lia) Hc); lia).
        destruct (rd_in src c) as (y & -> & _); [lia|]. cbn [bind]. rewrite wr_Ok by lia. cbn [bind]. apply IHj; try lia. now rewrite zlen_upd. }
    apply (G (Z.to_nat k)); lia. }
  now apply G.
Qed.
Lemma bad_list_carry starts stops idx n o1 o2 : zlen starts <= zlen stops -> n = zlen idx -> zlen o1 = n -> zlen o2 = n ->
  (forall i, In i idx -> 0 <= i) -> existsb (fun i => zlen starts <=? i) idx = true ->
  exists m, awkward_ListArray_getitem_carry o1 o2 starts stops idx (zlen starts) n = Err m.
Proof.
  intros Hle -> Ho1 Ho2 Hpos Hex. destruct (first_bad _ _ Hex) as (k & x & Hx & Hb & Hmin). pose proof (nthZ_Some _ _ _ Hx) as Hk.
  exists "index out of range"%string. unfold awkward_ListArray_getitem_carry, for_.
  match goal with |- loop _ _ ?f _ = _ => 
    assert (G : forall j i st, zlen (fst st) = zlen idx -> zlen (snd st) = zlen idx -> Z.of_nat j = k - i -> 0 <= i -> forall l, (j < l)%nat ->
      loop l i f st = Err "index out of range"%string) end.
  { induction j; intros i [a b] Ha Hb' Hj Hi l Hl; cbn [fst snd] in *; (destruct l; [lia|]); cbn [loop].
    - assert (i = k) by lia; subst. rewrite (proj2 (rd_Ok _ _ _) Hx). cbn [bind]. rewrite Hb. reflexivity.
    - destruct (rd_in idx i) as (c & -> & Hc); [lia|]. cbn [bind]. rewrite (Hmin i c) by (auto; lia).
      assert (0 <= c < zlen starts) by (specialize (Hpos c (nthZ_In _ _ _ Hc)); specialize (Hmin i c ltac:(lia) Hc); lia).
      destruct (rd_in starts c) as (y & -> & _); [lia|]. destruct (rd_in stops c) as (z & -> & _); [lia|]. cbn [bind]. rewrite wr_Ok by lia. cbn [bind]. rewrite wr_Ok by lia. cbn [bind].
      apply IHj; cbn [fst snd]; rewrite ?zlen_upd; lia. }
  apply (G (Z.to_nat k)); cbn [fst snd]; lia.
Qed.
Lemma iview_long {A} b (l : list A) : 0 <= zlen l < b -> exists m, iview 0 b l = Err m.
Proof.
  intros H. unfold iview. destruct (Z.leb_spec 0 0), (Z.ltb_spec 0 (zlen l)), (Z.leb_spec 0 b), (Z.leb_spec b (zlen l)), (Z.eqb_spec 0 b); try lia; cbn; eauto.
Qed.
Lemma carry_error c vs idx lazy : den c = Some vs -> checks_carry c ->
  (forall i, In i idx -> 0 <= i) -> (exists i, In i idx /\ zlen vs <= i) ->
  exists m, carry c idx lazy = Err m.
Proof.
  intros Hd Hc Hpos (i0 & Hi0 & Hbig). pose proof (den_length _ _ Hd) as HL. pose proof (zlen_nonneg idx) as Hnn.
  assert (Hex : existsb (fun i => zlen vs <=? i) idx = true) by (apply existsb_exists; exists i0; split; [exact Hi0|lia]).
  assert (Hcont : forall k, (exists m, k tt = Err m) -> (forall n, zlen vs < n -> exists m, getitem_range_nowrap c 0 n = Err m) ->
     exists m, carry_contiguous c idx k = Err m).
  { intros k Hk Hr. unfold carry_contiguous. destruct (iscontiguous_spec idx) as (b & -> & Hb). cbn [bind]. destruct b; [|exact Hk].
    assert (idx = zseq 0 (zlen idx)) as E by now apply Hb. assert (zlen vs < zlen idx). { rewrite E in Hi0. apply In_zseq in Hi0. lia. }
    rewrite HL. destruct (Z.eqb_spec (zlen idx) (zlen vs)); [lia|]. apply Hr. lia. }
  destruct c; try contradiction; cbn [carry]; cbn [length_] in HL.
  - cbn [den] in Hd. destruct (den c) as [ws|] eqn:Ec; [|discriminate]. destruct (Z.leb_spec (zlen starts) (zlen stops)); [|discriminate].
    apply Hcont.
    + destruct (Z.ltb_spec (zlen stops) (zlen starts)); [lia|].
      destruct (bad_list_carry starts stops idx (zlen idx) (alloc (zlen idx)) (alloc (zlen idx))) as [m ->]; auto; try (rewrite zlen_alloc; lia); [rewrite HL; exact Hex|].
      cbn; eauto.
    + intros n Hn. cbn [getitem_range_nowrap]. destruct (iview_long n starts) as [m ->]; [pose proof (zlen_nonneg starts); lia|]. cbn; eauto.
  - cbn [den] in Hd. destruct (den c) as [ws|] eqn:Ec; [|discriminate]. destruct (Z.leb_spec 1 (zlen offsets)); [|discriminate].
    apply Hcont.
    + rewrite make_starts_spec, make_stops_spec by lia. cbn [bind].
      assert (zlen offsets - 1 = zlen (slice 0 (zlen offsets - 1) offsets)) as E by (rewrite zlen_slice; lia).
      
      replace (awkward_ListArray_getitem_carry (alloc (zlen idx)) (alloc (zlen idx)) (slice 0 (zlen offsets - 1) offsets) (slice 1 (zlen offsets) offsets) idx (zlen offsets - 1) (zlen idx))
        with (awkward_ListArray_getitem_carry (alloc (zlen idx)) (alloc (zlen idx)) (slice 0 (zlen offsets - 1) offsets) (slice 1 (zlen offsets) offsets) idx (zlen (slice 0 (zlen offsets - 1) offsets)) (zlen idx))
        by now rewrite <- E.
      destruct (bad_list_carry (slice 0 (zlen offsets - 1) offsets) (slice 1 (zlen offsets) offsets) idx (zlen idx) (alloc (zlen idx)) (alloc (zlen idx))) as [m ->];
        auto; try (rewrite zlen_alloc; lia); [rewrite !zlen_slice; lia|rewrite <- E, HL; exact Hex|]. cbn; eauto.
    + intros n Hn. cbn [getitem_range_nowrap]. destruct (iview_long (n + 1) offsets) as [m ->]; [lia|]. cbn; eauto.
  - apply Hcont.
    + unfold awkward_IndexedArray_getitem_carry. rewrite bad_gather; [cbn; eauto|reflexivity|now rewrite zlen_alloc|exact Hpos|now rewrite HL].
    + intros n Hn. cbn [getitem_range_nowrap]. destruct (iview_long n index) as [m ->]; [pose proof (zlen_nonneg index); lia|]. cbn; eauto.
  - apply Hcont.
    + unfold awkward_IndexedArray_getitem_carry. rewrite bad_gather; [cbn; eauto|reflexivity|now rewrite zlen_alloc|exact Hpos|now rewrite HL].
    + intros n Hn. cbn [getitem_range_nowrap]. destruct (iview_long n index) as [m ->]; [pose proof (zlen_nonneg index); lia|]. cbn; eauto.
  - apply Hcont.
    + unfold awkward_ByteMaskedArray_getitem_carry. rewrite bad_gather; [cbn; eauto|reflexivity|now rewrite zlen_alloc|exact Hpos|now rewrite HL].
    + intros n Hn. cbn [getitem_range_nowrap]. destruct (iview_long n mask) as [m ->]; [pose proof (zlen_nonneg mask); lia|]. cbn; eauto.
Qed.
Theorem C04_carry_out_of_range : forall c vs idx lazy, den c = Some vs -> checks_carry c ->
  (forall i, In i idx -> 0 <= i) -> (exists i, In i idx /\ zlen vs <= i) ->
  exists m, carry c idx lazy = Err m.
Proof. exact carry_error. Qed.
Print Assumptions C04_carry_out_of_range.
Example C04_carry_out_of_range_ex : exists m, carry ex_records [0; 7; 1] true = Err m.
Proof. eexists; vm_compute; reflexivity. Qed.

(** It does not for the others: a NumpyArray gathers without any check
    (awkward_NumpyArray_getitem_next_null.cpp:8-18), and a UnionArray's check lets through the entry equal to the length
    (awkward_Index_carry.cpp:15, `j > lenfromindex`). *)
Theorem C04_carry_unchecked_refuted :
  (exists c vs idx, den c = Some vs /\ (forall i, In i idx -> 0 <= i) /\ (exists i, In i idx /\ zlen vs <= i) /\ carry c idx true = UB) /\
  (exists c vs idx, den c = Some vs /\ is_union c = true /\ (forall i, In i idx -> 0 <= i) /\ (exists i, In i idx /\ zlen vs <= i) /\ carry c idx true = UB).
Proof.
  split.
  - exists (Numpy DInt [1; 2; 3]), [VInt 1; VInt 2; VInt 3], [5]. repeat split.
    + intros i [<-|[]]; lia.
    + exists 5. split; [now left|vm_compute; congruence].
  - exists (Union [0] [0] [Numpy DInt [1]]), [VInt 1], [1]. repeat split.
    + intros i [<-|[]]; lia.
    + exists 1. split; [now left|vm_compute; congruence].
Qed.
Print Assumptions C04_carry_unchecked_refuted.
