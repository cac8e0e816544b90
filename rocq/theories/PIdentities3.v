(** Proofs about the identities kernels, continued: lists one after the other, and masked arrays. *)
From Verif Require Import Base BaseLemmas Content SpecArray OmapLemmas Identities SpecIdentities PIdentities PIdentities2.
Local Open Scope string_scope.
Local Open Scope list_scope.
Local Open Scope Z_scope.

Section Seq.
  Variables (off : Z -> Z) (m n W : Z).
  Hypothesis Hm : 0 <= m.
  Hypothesis Hmono : forall i, 0 <= i < m -> off i <= off (i + 1).
  Hypothesis H0 : 0 <= off 0.
  Hypothesis Hlast : off m <= n.

  Lemma mono_le i j : 0 <= i <= j -> j <= m -> off i <= off j.
  Proof.
    intros Hi Hj. replace j with (i + Z.of_nat (Z.to_nat (j - i))) in * by lia. remember (Z.to_nat (j - i)) as k eqn:E. clear E.
    induction k as [|k IH]; [replace (i + Z.of_nat 0) with i by lia; lia|].
    assert (off i <= off (i + Z.of_nat k)) by (apply IH; lia).
    pose proof (Hmono (i + Z.of_nat k) ltac:(lia)). replace (i + Z.of_nat (Datatypes.S k)) with (i + Z.of_nat k + 1) by lia. lia.
  Qed.
  Lemma cover j : off 0 <= j < off m -> exists i, 0 <= i < m /\ off i <= j < off (i + 1).
  Proof.
    replace m with (Z.of_nat (Z.to_nat m)) by lia. assert (Hk : Z.of_nat (Z.to_nat m) <= m) by lia. revert Hk.
    generalize (Z.to_nat m) as k. induction k as [|k IH]; intros Hk Hj; [cbn in Hj; lia|].
    destruct (Z_lt_le_dec j (off (Z.of_nat k))) as [Hlt|Hge].
    - destruct IH as (i & Hi & Hoff); [lia|lia|]. exists i. split; [lia|exact Hoff].
    - exists (Z.of_nat k). split; [lia|]. replace (Z.of_nat k + 1) with (Z.of_nat (Datatypes.S k)) by lia. lia.
  Qed.

  Variable P : Z -> list Z.
  Lemma seq_lists body b0 :
    zlen b0 = n * W ->
    (forall i b, 0 <= i < m -> zlen b = n * W -> exists b', body i b = Ok b' /\ zlen b' = zlen b /\
       (forall j, off i <= j < off (i + 1) -> row W b' j = P i ++ [j - off i]) /\
       (forall j, 0 <= j < n -> ~ off i <= j < off (i + 1) -> row W b' j = row W b j)) ->
    exists b', for_ 0 m body b0 = Ok b' /\ zlen b' = n * W /\
      (forall i j, 0 <= i < m -> off i <= j < off (i + 1) -> row W b' j = P i ++ [j - off i]) /\
      (forall j, 0 <= j < n -> j < off 0 \/ off m <= j -> row W b' j = row W b0 j).
  Proof.
    intros Hb0 Hbody.
    destruct (for_inv (fun i b => zlen b = n * W /\
      (forall i' j, 0 <= i' < i -> off i' <= j < off (i' + 1) -> row W b j = P i' ++ [j - off i']) /\
      (forall j, 0 <= j < n -> j < off 0 \/ off m <= j -> row W b j = row W b0 j)) 0 m body b0) as (b & E & L & R & O).
    - exact Hm.
    - split; [exact Hb0|]. split; [intros; lia|reflexivity].
    - intros i b Hi (L & R & O). destruct (Hbody i b Hi L) as (b' & E & L' & R' & O'). exists b'. split; [exact E|]. split; [lia|].
      pose proof (mono_le 0 i ltac:(lia) ltac:(lia)). pose proof (mono_le (i+1) m ltac:(lia) ltac:(lia)). pose proof (mono_le i m ltac:(lia) ltac:(lia)). split.
      + intros i' j Hi' Hj. destruct (Z.eq_dec i' i) as [->|Hne]; [apply R'; exact Hj|].
        pose proof (mono_le (i'+1) i ltac:(lia) ltac:(lia)). pose proof (mono_le 0 i' ltac:(lia) ltac:(lia)).
        rewrite O' by lia. apply R; [lia|exact Hj].
      + intros j Hj Hout. rewrite O' by lia. apply O; assumption.
    - exists b. auto.
  Qed.

  (** with the rows outside the lists cleared, that is the invariant *)
  Lemma seq_Inv (R : Z -> Z -> list Z -> Prop) b :
    zlen b = n * W ->
    (forall i j s, R i j s <-> 0 <= i < m /\ off i <= j < off (i + 1) /\ s = [j - off i]) ->
    (forall i j, 0 <= i < m -> off i <= j < off (i + 1) -> row W b j = P i ++ [j - off i]) ->
    (forall j, 0 <= j < n -> j < off 0 \/ off m <= j -> row W b j = repeat (-1) (Z.to_nat W)) ->
    Inv n W P R b.
  Proof.
    intros L HR Hin Hout. split; [exact L|]. split.
    - intros j Hj. destruct (Z_lt_le_dec j (off 0)) as [Hlt|Hge]; [left; apply Hout; [exact Hj|left; exact Hlt]|].
      destruct (Z_lt_le_dec j (off m)) as [Hlt|Hge']; [|left; apply Hout; [exact Hj|right; exact Hge']].
      right. destruct (cover j (conj Hge Hlt)) as (i & Hi & Hj'). exists i, [j - off i]. split; [apply HR; auto|apply Hin; assumption].
    - intros i j s H. apply HR in H as (Hi & Hj & ->). split; [|intros _; apply Hin; assumption].
      pose proof (mono_le 0 i ltac:(lia) ltac:(lia)). pose proof (mono_le (i+1) m ltac:(lia) ltac:(lia)). lia.
  Qed.
End Seq.

(** one list: rows lo, lo+1, ..., of the content *)
Lemma one_list idn n i lo hi (body : Z -> list Z -> res (list Z)) first b :
  wf idn -> 0 <= i < ilen idn -> lo <= hi -> (lo < hi -> 0 <= lo /\ hi <= n) -> zlen b = n * (width idn + 1) ->
  (forall x t, lo <= x < hi -> body (x - first) t =
     let* t := for_ 0 (width idn) (fun k t => let* y := rd (idata idn) (i * width idn + k) in wr t (x * (width idn + 1) + k) y) t in
     wr t (x * (width idn + 1) + width idn) (x - lo)) ->
  exists b', for_ (lo - first) (hi - first) body b = Ok b' /\ zlen b' = zlen b /\
    (forall j, lo <= j < hi -> row (width idn + 1) b' j = identity idn i ++ [j - lo]) /\
    (forall j, 0 <= j < n -> ~ lo <= j < hi -> row (width idn + 1) b' j = row (width idn + 1) b j).
Proof.
  intros Hwf Hi Hlh Hin Hb Hbody. set (w := width idn) in *. assert (Hw : 1 <= w) by (apply Hwf).
  destruct (for_inv (fun x t => zlen t = zlen b /\
    (forall j, lo <= j < x + first -> row (w+1) t j = identity idn i ++ [j - lo]) /\
    (forall j, 0 <= j < n -> ~ lo <= j < x + first -> row (w+1) t j = row (w+1) b j)) (lo - first) (hi - first) body b) as (b' & E & L & R & O).
  - lia.
  - split; [reflexivity|]. split; [intros; lia|reflexivity].
  - intros x t Hx (L & R & O). assert (Eb := Hbody (x + first) t ltac:(lia)). replace (x + first - first) with x in Eb by lia. rewrite Eb. clear Eb.
    destruct Hin as (Hlo & Hhi); [lia|].
    destruct (write_row_list (idata idn) t i (x + first) w n (ilen idn) (x + first - lo)) as (b1 & b2 & E1 & E2 & L2 & R2 & O2); try lia.
    { apply (zlen_idata idn Hwf). }
    rewrite E1. cbn [bind]. exists b2. split; [exact E2|]. split; [lia|]. split.
    + intros j Hj. destruct (Z.eq_dec j (x + first)) as [->|Hne].
      * rewrite R2. f_equal. symmetry. apply identity_data; assumption.
      * rewrite O2 by lia. apply R. lia.
    + intros j Hj Hout. rewrite O2 by lia. apply O; lia.
  - exists b'. split; [exact E|]. split; [exact L|]. split.
    + intros j Hj. apply R. lia.
    + intros j Hj Hout. apply O; lia.
Qed.

Definition offsets_ok (offsets : list Z) (n : Z) : Prop :=
  1 <= zlen offsets /\
  (forall i a b, nthZ offsets i = Some a -> nthZ offsets (i + 1) = Some b -> a <= b) /\
  (forall a, nthZ offsets 0 = Some a -> 0 <= a) /\ (forall b, nthZ offsets (zlen offsets - 1) = Some b -> b <= n).

Lemma from_ListOffsetArray_ok idn offsets c n buf :
  wf idn -> ilen idn = zlen offsets - 1 -> offsets_ok offsets n -> 0 <= n -> zlen buf = n * (width idn + 1) ->
  exists b, awkward_Identities_from_ListOffsetArray buf (idata idn) offsets n (zlen offsets - 1) (width idn) = Ok b /\
    Inv n (width idn + 1) (identity idn) (fun i j s => into (ListOffset offsets c) 0 i s = Some (j, [])) b.
Proof.
  intros Hwf Hlen (H1 & Hmono & Hfirst & Hlast) Hn Hbuf. set (w := width idn) in *. assert (Hw : 1 <= w) by (apply Hwf).
  set (off := fun i => match nthZ offsets i with Some a => a | None => 0 end).
  assert (Hoff : forall i, 0 <= i < zlen offsets -> nthZ offsets i = Some (off i)).
  { intros i Hi. unfold off. destruct (nthZ_lt offsets i Hi) as (a & ->). reflexivity. }
  assert (Hrd : forall i, 0 <= i < zlen offsets -> rd offsets i = Ok (off i)) by (intros i Hi; apply rd_Ok, Hoff, Hi).
  set (m := zlen offsets - 1) in *.
  assert (M : forall i, 0 <= i < m -> off i <= off (i+1)) by (intros i Hi; apply (Hmono i); apply Hoff; lia).
  assert (F : 0 <= off 0) by (apply Hfirst, Hoff; lia). assert (La : off m <= n) by (apply Hlast, Hoff; lia).
  pose proof (mono_le off m M) as Mono. pose proof (Mono 0 m ltac:(lia) ltac:(lia)) as H0m.
  unfold awkward_Identities_from_ListOffsetArray. rewrite (Hrd 0), (Hrd m) by lia. cbn [bind].
  destruct (fill_cells 0 (off 0 * (w+1)) (-1) buf) as (b1 & E1 & L1 & N1); [lia|nia|]. rewrite E1. cbn [bind].
  destruct (fill_cells (off m * (w+1)) (n * (w+1)) (-1) b1) as (b2 & E2 & L2 & N2); [nia|nia|]. rewrite E2. cbn [bind].
  match goal with |- context [for_ 0 m ?B _] => set (body := B) end.
  destruct (seq_lists off m n (w+1) ltac:(lia) M F La (identity idn) body b2) as (b & E & L & R & O).
  - lia.
  - intros i b Hi Lb. unfold body. rewrite (Hrd i), (Hrd (i+1)) by lia. cbn [bind].
    pose proof (Mono 0 i ltac:(lia) ltac:(lia)). pose proof (Mono (i+1) m ltac:(lia) ltac:(lia)). pose proof (M i Hi).
    replace (negb (off i =? off (i+1)) && (n <? off (i+1))) with false by (destruct (Z.ltb_spec n (off (i+1))); [lia|now rewrite andb_false_r]).
    match goal with |- context [for_ (off i) (off (i+1)) ?B b] => pose proof (one_list idn n i (off i) (off (i+1)) B 0 b Hwf) as OL end.
    rewrite !Z.sub_0_r in OL. apply OL; try lia.
    intros x t Hx. rewrite Z.sub_0_r. reflexivity.
  - exists b. split; [exact E|]. apply (seq_Inv off m n (w+1) ltac:(lia) M F La (identity idn)); try assumption.
    + intros i j s. cbn [into]. split.
      * destruct (nthZ offsets i) as [a|] eqn:Ea; [|discriminate]. destruct (nthZ offsets (i+1)) as [e|] eqn:Ee; [|discriminate].
        intros H. apply within_nil in H as (q & -> & Hq & ->). apply nthZ_Some in Ea as Hi. apply nthZ_Some in Ee as Hi'.
        assert (off i = a) by (unfold off; now rewrite Ea). assert (off (i+1) = e) by (unfold off; now rewrite Ee).
        split; [lia|]. split; [lia|]. f_equal; lia.
      * intros (Hi & Hj & ->). rewrite (Hoff i), (Hoff (i+1)) by lia. apply within_nil. exists (j - off i). repeat split; lia.
    + intros j Hj Hout. rewrite O by assumption. apply (cleared_row (w+1) n); try lia.
      intros x Hx. rewrite N2, N1. destruct (row_range (w+1) n j) as (B1 & B2 & B3); try lia.
      destruct Hout as [Hout|Hout].
      * assert ((j+1) * (w+1) <= off 0 * (w+1)) by nia.
        destruct (Z.leb_spec (off m*(w+1)) x), (Z.ltb_spec x (n*(w+1))), (Z.leb_spec 0 x), (Z.ltb_spec x (off 0*(w+1))); try lia; reflexivity.
      * assert (off m * (w+1) <= j * (w+1)) by nia.
        destruct (Z.leb_spec (off m*(w+1)) x), (Z.ltb_spec x (n*(w+1))); try lia; reflexivity.
Qed.

Lemma from_RegularArray_ok idn size zl c m buf :
  wf idn -> ilen idn = m -> length_ (Regular size zl c) = m -> 0 <= size -> (size = 0 \/ length_ c = size * m) -> 0 <= length_ c ->
  zlen buf = length_ c * (width idn + 1) ->
  exists b, awkward_Identities_from_RegularArray buf (idata idn) size (length_ c) m (width idn) = Ok b /\
    Inv (length_ c) (width idn + 1) (identity idn) (fun i j s => into (Regular size zl c) 0 i s = Some (j, [])) b.
Proof.
  intros Hwf Hlen Hm Hsize Hex Hn Hbuf. set (w := width idn) in *. assert (Hw : 1 <= w) by (apply Hwf). set (n := length_ c) in *.
  assert (Hm0 : 0 <= m) by (destruct Hwf as (_ & _ & ? & _); lia).
  set (off := fun i => i * size).
  assert (M : forall i, 0 <= i < m -> off i <= off (i+1)) by (intros i Hi; unfold off; nia).
  assert (F : 0 <= off 0) by (unfold off; lia). assert (La : off m <= n) by (unfold off; destruct Hex; nia).
  unfold awkward_Identities_from_RegularArray.
  match goal with |- context [for_ 0 m ?B _] => set (body := B) end.
  destruct (seq_lists off m n (w+1) Hm0 M F La (identity idn) body buf) as (b & E & L & R & O).
  - exact Hbuf.
  - intros i b Hi Lb. unfold body.
    destruct (one_list idn n i (off i) (off (i+1)) (fun j toptr =>
      let* toptr := for_ 0 (width idn) (fun k toptr => let* y := rd (idata idn) (i * width idn + k) in wr toptr ((i * size + j) * (width idn + 1) + k) y) toptr in
      wr toptr ((i * size + j) * (width idn + 1) + width idn) j) (off i) b Hwf) as (b' & E' & Rest); try lia.
    + intros _. split; [unfold off; nia|]. unfold off in *. nia.
    + intros x t Hx. replace (i * size + (x - off i)) with x by (unfold off; lia). reflexivity.
    + exists b'. split; [|exact Rest]. rewrite <- E'. f_equal; unfold off; lia.
  - rewrite E. cbn [bind].
    destruct (fill_cells ((m+1)*size*(w+1)) (n*(w+1)) (-1) b) as (b2 & E2 & L2 & N2); [nia|lia|].
    exists b2. split; [exact E2|].
    apply (seq_Inv off m n (w+1) Hm0 M F La (identity idn)); [lia| | |].
    + intros i j s. unfold into. rewrite Hm. split.
      * destruct (Z.leb_spec 0 i), (Z.ltb_spec i m); cbn [andb]; try discriminate. intros Hq. apply within_nil in Hq as (q & -> & Hq & ->).
        unfold off. split; [lia|]. split; [lia|]. f_equal; lia.
      * intros (Hi & Hj & ->). destruct (Z.leb_spec 0 i), (Z.ltb_spec i m); try lia. cbn [andb]. apply within_nil. exists (j - off i). unfold off in *. repeat split; lia.
    + intros i j Hi Hj. rewrite <- (R i j Hi Hj). unfold off in Hj.
      apply (row_same (w+1) b b2 j n); try lia; [unfold off in *; nia|]. intros x Hx. rewrite N2.
      assert (j < m * size) by nia. assert ((j+1)*(w+1) <= (m*size)*(w+1)) by nia. assert ((m+1)*size*(w+1) >= m*size*(w+1)) by nia.
      destruct (Z.leb_spec ((m+1)*size*(w+1)) x); [lia|reflexivity].
    + intros j Hj Hout. apply (cleared_row (w+1) n); try lia. intros x Hx. rewrite N2. destruct (row_range (w+1) n j) as (B1 & B2 & B3); try lia.
      unfold off in Hout. destruct Hex as [->|Hex]; [|nia].
      replace ((m+1)*0*(w+1)) with 0 by lia. destruct (Z.leb_spec 0 x), (Z.ltb_spec x (n*(w+1))); try lia. reflexivity.
Qed.

(** masked arrays, one number per identity *)
Lemma extend_ok idn n buf (R : Z -> Z -> list Z -> Prop) :
  wf idn -> width idn = 1 -> ilen idn <= n -> zlen buf = n ->
  (forall i j s, R i j s <-> 0 <= i < ilen idn /\ j = i /\ s = []) ->
  exists b, awkward_Identities_extend buf (idata idn) (ilen idn) n = Ok b /\ Inv n 1 (identity idn) R b.
Proof.
  intros Hwf Hw1 Hn Hbuf HR. assert (H0 : 0 <= ilen idn) by (apply Hwf). pose proof (zlen_idata idn Hwf) as Hz. rewrite Hw1 in Hz.
  unfold awkward_Identities_extend.
  destruct (copy_cells (idata idn) 0 buf 0 (ilen idn)) as (b1 & E1 & L1 & N1); try lia.
  assert (E1' : for_ 0 (ilen idn) (fun i toptr => let* x := rd (idata idn) i in wr toptr i x) buf = Ok b1).
  { rewrite <- E1. apply for_ext. intros i t Hi. now rewrite !Z.add_0_l. }
  rewrite E1'. cbn [bind]. rewrite Z.max_r by lia.
  destruct (fill_cells (ilen idn) n (-1) b1) as (b2 & E2 & L2 & N2); try lia. exists b2. split; [exact E2|].
  assert (Rin : forall j, 0 <= j < ilen idn -> row 1 b2 j = identity idn j).
  { intros j Hj. rewrite identity_data, Hw1 by assumption.
    apply list_eqZ; [rewrite (zlen_row 1 b2 j n), (zlen_row 1 (idata idn) j (ilen idn)) by lia; reflexivity|].
    intros k Hk. rewrite (zlen_row 1 b2 j n) in Hk by lia. rewrite (nth_row 1 b2 j n), (nth_row 1 (idata idn) j (ilen idn)) by lia.
    rewrite N2, N1. replace (j*1+k) with j by lia. destruct (Z.leb_spec (ilen idn) j), (Z.leb_spec 0 j), (Z.ltb_spec j (0 + ilen idn)); try lia. cbn [andb]. f_equal; lia. }
  split; [lia|]. split.
  - intros j Hj. destruct (Z_lt_le_dec j (ilen idn)) as [Hlt|Hge].
    + right. exists j, []. split; [apply HR; repeat split; lia|]. rewrite app_nil_r. apply Rin; lia.
    + left. apply (cleared_row 1 n); try lia. intros x Hx. rewrite N2. destruct (Z.leb_spec (ilen idn) x), (Z.ltb_spec x n); try lia; reflexivity.
  - intros i j s H. apply HR in H as (Hi & -> & ->). split; [lia|]. intros _. rewrite app_nil_r. apply Rin, Hi.
Qed.
