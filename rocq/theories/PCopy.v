(** Proofs about Copy.v: copies hold the same and share nothing. *)
From Verif Require Import Base BaseLemmas OmapLemmas LoopLemmas Content SpecArray Copy SpecCopy PForm.

Section NodeInd.
  Variable P : node -> Prop.
  Hypothesis HEmpty : P MEmpty.
  Hypothesis HNumpy : forall dt a b c d, P (MNumpy dt a b c d).
  Hypothesis HListA : forall a b c, P c -> P (MListA a b c).
  Hypothesis HListOffset : forall a c, P c -> P (MListOffset a c).
  Hypothesis HRegular : forall a b c, P c -> P (MRegular a b c).
  Hypothesis HIndexed : forall a c, P c -> P (MIndexed a c).
  Hypothesis HIndexedOption : forall a c, P c -> P (MIndexedOption a c).
  Hypothesis HByteMasked : forall a b c, P c -> P (MByteMasked a b c).
  Hypothesis HBitMasked : forall a b d e c, P c -> P (MBitMasked a b d e c).
  Hypothesis HUnmasked : forall c, P c -> P (MUnmasked c).
  Hypothesis HRecord : forall a b cs, Forall P cs -> P (MRecord a b cs).
  Hypothesis HUnion : forall a b cs, Forall P cs -> P (MUnion a b cs).
  Fixpoint node_ind' (n : node) : P n :=
    let go := fix go (cs : list node) : Forall P cs := match cs with [] => Forall_nil P | c :: cs => Forall_cons c (node_ind' c) (go cs) end in
    match n with
    | MEmpty => HEmpty
    | MNumpy dt a b c d => HNumpy dt a b c d
    | MListA a b c => HListA a b c (node_ind' c)
    | MListOffset a c => HListOffset a c (node_ind' c)
    | MRegular a b c => HRegular a b c (node_ind' c)
    | MIndexed a c => HIndexed a c (node_ind' c)
    | MIndexedOption a c => HIndexedOption a c (node_ind' c)
    | MByteMasked a b c => HByteMasked a b c (node_ind' c)
    | MBitMasked a b d e c => HBitMasked a b d e c (node_ind' c)
    | MUnmasked c => HUnmasked c (node_ind' c)
    | MRecord a b cs => HRecord a b cs (go cs)
    | MUnion a b cs => HUnion a b cs (go cs)
    end.
End NodeInd.

Lemma rd_same {A} (m m' : list A) k x : (forall k, 0 <= k < zlen m -> nthZ m' k = nthZ m k) -> rd m k = Ok x -> rd m' k = Ok x.
Proof. intros H E. apply rd_Ok in E. apply rd_Ok. rewrite H; [exact E|]. eapply nthZ_Some; exact E. Qed.

(** ** the original does not see other buffers *)
Lemma read_index_same m m' v d : same_buffers 0 (zlen m) m m' -> read_index m v = Ok d -> read_index m' v = Ok d.
Proof. intros H E. unfold read_index in *. apply bind_Ok in E. destruct E as (b & Eb & E). rewrite (rd_same _ _ _ _ H Eb). exact E. Qed.
Lemma read_numpy_same m m' a b c d r : same_buffers 0 (zlen m) m m' -> read_numpy m a b c d = Ok r -> read_numpy m' a b c d = Ok r.
Proof. intros H E. unfold read_numpy in *. apply bind_Ok in E. destruct E as (x & Eb & E). rewrite (rd_same _ _ _ _ H Eb). exact E. Qed.
Ltac same H := repeat match goal with
  | E : read_index _ _ = Ok _ |- _ => apply (read_index_same _ _ _ _ H) in E; rewrite E; cbn [bind]; clear E
  end.
Lemma read_same n : forall m m' c, same_buffers 0 (zlen m) m m' -> read m n = Ok c -> read m' n = Ok c.
Proof.
  assert (HM : forall cs, Forall (fun n => forall m m' c, same_buffers 0 (zlen m) m m' -> read m n = Ok c -> read m' n = Ok c) cs ->
    forall m m' r, same_buffers 0 (zlen m) m m' -> mapres (read m) cs = Ok r -> mapres (read m') cs = Ok r).
  { induction 1 as [|x cs Hx _ IH]; intros m m' r HS E; cbn [mapres] in *; [exact E|]. binv E. injection E as <-. rewrite (Hx _ _ _ HS E0), (IH _ _ _ HS E1). reflexivity. }
  induction n using node_ind'; intros m m' r HS E; cbn [read] in *; binv E; try (injection E as <-); same HS;
    try (erewrite IHn by eassumption; reflexivity); try (erewrite HM by eassumption; reflexivity).
  - reflexivity.
  - rewrite (read_numpy_same _ _ _ _ _ _ _ HS E0). reflexivity.
Qed.

(** ** the copy does not see the old buffers *)
Lemma mapres_zlen {A B} (f : A -> res B) l r : mapres f l = Ok r -> zlen r = zlen l.
Proof. revert r. induction l as [|x l IH]; intros r E; cbn [mapres] in E; [now injection E as <-|]. binv E. injection E as <-. rewrite !zlen_cons. rewrite (IH _ E1). reflexivity. Qed.
Lemma mapres_copy (d : list Z) n : zlen d = n -> mapres (fun i => rd d (0 + i)) (zseq 0 n) = Ok d.
Proof.
  intros <-. assert (HO : omap (nthZ d) (zseq 0 (zlen d)) = Some d) by (rewrite omap_nthZ_zseq by (pose proof (zlen_nonneg d); lia); now rewrite slice_full).
  revert HO. generalize (zseq 0 (zlen d)). generalize d at 2 4 as r. intros r l. revert r. induction l as [|x l IH]; intros r HO; cbn [omap] in HO; cbn [mapres]; [now injection HO as <-|].
  destruct (nthZ d x) as [y|] eqn:E; [|discriminate]. destruct (omap (nthZ d) l) as [ys|]; [|discriminate]. injection HO as <-. apply rd_Ok in E. rewrite Z.add_0_l, E. cbn [bind]. rewrite (IH _ eq_refl). reflexivity.
Qed.
Lemma last_buffer m d m'' : same_buffers (zlen m) (zlen (m ++ [d])) (m ++ [d]) m'' -> rd m'' (zlen m) = Ok d.
Proof. intros H. apply rd_Ok. rewrite H by (rewrite zlen_app; cbn; change (zlen [d]) with 1; lia). apply nthZ_mid. Qed.

Lemma copy_index_ok m v d : read_index m v = Ok d -> exists v', copy_index m v = Ok (m ++ [d], v') /\
  forall m'', same_buffers (zlen m) (zlen (m ++ [d])) (m ++ [d]) m'' -> read_index m'' v' = Ok d.
Proof.
  intros E. unfold copy_index. rewrite E. cbn [bind new_buffer]. eexists. split; [reflexivity|]. intros m'' H. unfold read_index in *. cbn [v_ptr v_offset v_length].
  rewrite (last_buffer _ _ _ H). cbn [bind]. apply bind_Ok in E. destruct E as (b & _ & E). destruct (Z.ltb_spec (v_length v) 0); [discriminate|].
  apply mapres_copy. rewrite (mapres_zlen _ _ _ E), zlen_zseq; lia.
Qed.

Definition copied (n : node) : Prop := forall m c, read m n = Ok c -> from_the_start n ->
  exists new n', deep_copy m n = Ok (m ++ new, n') /\ forall m'', same_buffers (zlen m) (zlen (m ++ new)) (m ++ new) m'' -> read m'' n' = Ok c.

Lemma numpy_copied dt a b c d : copied (MNumpy dt a b c d).
Proof.
  intros m r E HW. cbn [read deep_copy from_the_start] in *. binv E. injection E as <-. rename a0 into data. unfold copy_numpy. rewrite E0. cbn [bind new_buffer].
  pose proof E0 as E1. unfold read_numpy in E1. apply bind_Ok in E1. destruct E1 as (buf & Eb & E1). destruct (Z.ltb_spec c 0); [discriminate|].
  assert (HZ : zlen data = c) by (rewrite (mapres_zlen _ _ _ E1), zlen_zseq; lia).
  assert (HN : forall o m'', o = 0 \/ c = 0 -> same_buffers (zlen m) (zlen (m ++ [data])) (m ++ [data]) m'' -> read_numpy m'' (zlen m) o c 1 = Ok data).
  { intros o m'' Ho HS. unfold read_numpy. rewrite (last_buffer _ _ _ HS). cbn [bind]. destruct (Z.ltb_spec c 0); [lia|]. destruct Ho as [->|Hc].
    - assert (HE : forall l : list Z, mapres (fun i => rd data (0 + i * 1)) l = mapres (fun i => rd data (0 + i)) l).
      { induction l as [|x l IH]; [reflexivity|]. cbn [mapres]. rewrite IH, Z.mul_1_r. reflexivity. }
      rewrite HE. apply mapres_copy. exact HZ.
    - subst. rewrite Hc in *. rewrite zseq_nil by lia. cbn. destruct data as [|z data]; [reflexivity|]. rewrite zlen_cons in Hc. pose proof (zlen_nonneg data). lia. }
  destruct (Z.eqb_spec d 1) as [->|Hd].
  - eexists [data], _. split; [reflexivity|]. intros m'' HS. cbn [read]. rewrite HN by (assumption || tauto). reflexivity.
  - eexists [data], _. split; [reflexivity|]. intros m'' HS. cbn [read]. rewrite HN by (assumption || tauto). reflexivity.
Qed.

Lemma sub_buffers m a b m'' : same_buffers (zlen m) (zlen (m ++ a ++ b)) (m ++ a ++ b) m'' ->
  same_buffers (zlen m) (zlen (m ++ a)) (m ++ a) m'' /\ same_buffers (zlen (m ++ a)) (zlen ((m ++ a) ++ b)) ((m ++ a) ++ b) m''.
Proof.
  intros H. pose proof (zlen_nonneg m). pose proof (zlen_nonneg a). pose proof (zlen_nonneg b). split; intros k Hk; rewrite H; rewrite ?app_assoc in *; rewrite ?zlen_app in *; try lia; [|reflexivity].
  rewrite (nthZ_app (m ++ a)). rewrite zlen_app. destruct (Z.ltb_spec k (zlen m + zlen a)); [reflexivity|lia].
Qed.
Lemma extended m a : same_buffers 0 (zlen m) m (m ++ a).
Proof. intros k Hk. rewrite nthZ_app. destruct (Z.ltb_spec k (zlen m)); [reflexivity|lia]. Qed.

Lemma copies_ok cs : Forall copied cs -> forall m r, mapres (read m) cs = Ok r ->
  (fix all (cs : list node) : Prop := match cs with [] => True | c :: cs => from_the_start c /\ all cs end) cs ->
  exists new cs', copies deep_copy m cs = Ok (m ++ new, cs') /\ forall m'', same_buffers (zlen m) (zlen (m ++ new)) (m ++ new) m'' -> mapres (read m'') cs' = Ok r.
Proof.
  induction 1 as [|c cs Hc _ IH]; intros m r E HW; cbn [mapres copies] in *.
  - injection E as <-. exists [], []. rewrite app_nil_r. split; [reflexivity|]. intros. reflexivity.
  - binv E. injection E as <-. destruct HW as [HW HW']. destruct (Hc m _ E0 HW) as (new & c' & D & R). rewrite D. cbn [bind].
    assert (E2 : mapres (read (m ++ new)) cs = Ok a0).
    { clear -E1. revert a0 E1. induction cs as [|x cs IH]; intros r E; cbn [mapres] in *; [exact E|]. binv E. injection E as <-. rewrite (read_same _ _ _ _ (extended m new) E0), (IH _ E1). reflexivity. }
    destruct (IH (m ++ new) _ E2 HW') as (new' & cs' & D' & R'). rewrite D'. cbn [bind]. exists (new ++ new'), (c' :: cs'). rewrite app_assoc. split; [reflexivity|].
    intros m'' HS. rewrite <- app_assoc in HS. destruct (sub_buffers _ _ _ _ HS) as [H1 H2]. cbn [mapres]. rewrite (R _ H1), (R' _ H2). reflexivity.
Qed.

Lemma one_index v (rest : node) m d c : copied rest -> read_index m v = Ok d -> read m rest = Ok c -> from_the_start rest ->
  exists new v' n', copy_index m v = Ok (m ++ [d], v') /\ deep_copy (m ++ [d]) rest = Ok (m ++ new, n') /\
    forall m'', same_buffers (zlen m) (zlen (m ++ new)) (m ++ new) m'' -> read_index m'' v' = Ok d /\ read m'' n' = Ok c.
Proof.
  intros HC Ev Ec HW. destruct (copy_index_ok _ _ _ Ev) as (v' & D & R). destruct (HC (m ++ [d]) c (read_same _ _ _ _ (extended m [d]) Ec) HW) as (new & n' & D' & R').
  exists ([d] ++ new), v', n'. rewrite D, D', app_assoc. split; [reflexivity|]. split; [reflexivity|]. intros m'' HS. rewrite <- app_assoc in HS. destruct (sub_buffers _ _ _ _ HS) as [H1 H2].
  split; [exact (R _ H1)|exact (R' _ H2)].
Qed.

Lemma all_copied n : copied n.
Proof.
  induction n using node_ind'; intros m r E HW; cbn [read deep_copy from_the_start] in *.
  - injection E as <-. exists [], MEmpty. rewrite app_nil_r. split; [reflexivity|]. intros. reflexivity.
  - apply (numpy_copied dt a b c d m r E HW).
  - binv E. injection E as <-. destruct (copy_index_ok _ _ _ E0) as (v' & D & R). rewrite D. cbn [bind].
    destruct (one_index b n (m ++ [a0]) a1 a2 IHn) as (new & v2 & n' & D1 & D2 & R2); [eapply read_index_same; [apply extended|eassumption]|eapply read_same; [apply extended|eassumption]|exact HW|].
    rewrite D1. cbn [bind]. rewrite D2. cbn [bind]. eexists ([a0] ++ new), _. rewrite app_assoc. split; [reflexivity|]. intros m'' HS. rewrite <- app_assoc in HS.
    destruct (sub_buffers _ _ _ _ HS) as [H1 H2]. destruct (R2 _ H2) as [A B]. cbn [read]. rewrite (R _ H1), A, B. reflexivity.
  - binv E. injection E as <-. destruct (one_index a n m a0 a1 IHn E0 E1 HW) as (new & v' & n' & D1 & D2 & R). rewrite D1. cbn [bind]. rewrite D2. cbn [bind].
    eexists new, _. split; [reflexivity|]. intros m'' HS. destruct (R _ HS) as [A B]. cbn [read]. rewrite A, B. reflexivity.
  - binv E. injection E as <-. destruct (IHn m _ E0 HW) as (new & n' & D & R). rewrite D. cbn [bind]. eexists new, _. split; [reflexivity|]. intros m'' HS. cbn [read]. rewrite (R _ HS). reflexivity.
  - binv E. injection E as <-. destruct (one_index a n m a0 a1 IHn E0 E1 HW) as (new & v' & n' & D1 & D2 & R). rewrite D1. cbn [bind]. rewrite D2. cbn [bind].
    eexists new, _. split; [reflexivity|]. intros m'' HS. destruct (R _ HS) as [A B]. cbn [read]. rewrite A, B. reflexivity.
  - binv E. injection E as <-. destruct (one_index a n m a0 a1 IHn E0 E1 HW) as (new & v' & n' & D1 & D2 & R). rewrite D1. cbn [bind]. rewrite D2. cbn [bind].
    eexists new, _. split; [reflexivity|]. intros m'' HS. destruct (R _ HS) as [A B]. cbn [read]. rewrite A, B. reflexivity.
  - binv E. injection E as <-. destruct (one_index a n m a0 a1 IHn E0 E1 HW) as (new & v' & n' & D1 & D2 & R). rewrite D1. cbn [bind]. rewrite D2. cbn [bind].
    eexists new, _. split; [reflexivity|]. intros m'' HS. destruct (R _ HS) as [A B]. cbn [read]. rewrite A, B. reflexivity.
  - binv E. injection E as <-. destruct (one_index a n m a0 a1 IHn E0 E1 HW) as (new & v' & n' & D1 & D2 & R). rewrite D1. cbn [bind]. rewrite D2. cbn [bind].
    eexists new, _. split; [reflexivity|]. intros m'' HS. destruct (R _ HS) as [A B]. cbn [read]. rewrite A, B. reflexivity.
  - binv E. injection E as <-. destruct (IHn m _ E0 HW) as (new & n' & D & R). rewrite D. cbn [bind]. eexists new, _. split; [reflexivity|]. intros m'' HS. cbn [read]. rewrite (R _ HS). reflexivity.
  - binv E. injection E as <-. destruct (copies_ok cs H m _ E0 HW) as (new & cs' & D & R). rewrite D. cbn [bind]. eexists new, _. split; [reflexivity|]. intros m'' HS. cbn [read]. rewrite (R _ HS). reflexivity.
  - binv E. injection E as <-. destruct (copy_index_ok _ _ _ E0) as (v' & D & R). rewrite D. cbn [bind].
    destruct (copy_index_ok (m ++ [a0]) b a1) as (v2 & D1 & R1); [eapply read_index_same; [apply extended|eassumption]|]. rewrite D1. cbn [bind].
    destruct (copies_ok cs H ((m ++ [a0]) ++ [a1]) a2) as (new & cs' & D2 & R2); [|exact HW|].
    { clear -E2. revert a2 E2. induction cs as [|x cs IH]; intros r E; cbn [mapres] in *; [exact E|]. binv E. injection E as <-. rewrite (read_same _ _ _ _ (extended _ [a1]) (read_same _ _ _ _ (extended m [a0]) E0)), (IH _ E1). reflexivity. }
    rewrite D2. cbn [bind]. eexists ([a0] ++ [a1] ++ new), _. split; [rewrite !app_assoc; reflexivity|]. intros m'' HS. destruct (sub_buffers _ _ _ _ HS) as [H1 H2].
    destruct (sub_buffers _ _ _ _ H2) as [H3 H4]. cbn [read]. rewrite (R _ H1), (R1 _ H3), (R2 _ H4). reflexivity.
Qed.

(** ** a slice *)
Lemma sliced m dt ptr offset length m' n' : 0 < offset -> 0 < length ->
  deep_copy m (MNumpy dt ptr offset length 1) = Ok (m', n') -> read m' n' = UB.
Proof.
  intros Ho Hl E. cbn [deep_copy] in E. unfold copy_numpy in E. apply bind_Ok in E. destruct E as (a & E0 & E). cbn [new_buffer] in E. change (1 =? 1) with true in E. cbv iota in E. injection E as <- <-. rename a into data.
  assert (HZ : zlen data = length). { unfold read_numpy in E0. binv E0. rewrite (mapres_zlen _ _ _ E0), zlen_zseq; lia. }
  cbn [read]. unfold read_numpy. assert (EL : rd (m ++ [data]) (zlen m) = Ok data) by (apply rd_Ok; apply nthZ_mid). rewrite EL. cbn [bind]. destruct (Z.ltb_spec length 0); [lia|].
  assert (G : forall n l r, mapres (fun i => rd data (offset + i * 1)) l = r -> In n l -> zlen data <= offset + n -> Forall (fun i => 0 <= i) l -> r = UB).
  { intros n l. induction l as [|x l IH]; intros r Er [] Hn HF; subst; cbn [mapres]; inversion_clear HF as [|? ? Hx HF'].
    - assert (rd data (offset + n * 1) = UB) as ->; [|reflexivity]. unfold rd. rewrite nthZ_ge by lia. reflexivity.
    - destruct (rd data (offset + x * 1)) as [y|e|] eqn:Ey; cbn [bind]; [|unfold rd in Ey; destruct (nthZ _ _); discriminate|reflexivity]. rewrite (IH _ eq_refl); auto. }
  rewrite (G (length - 1) (zseq 0 length) _ eq_refl); [reflexivity|apply In_zseq; lia|lia|]. apply Forall_forall. intros x Hx. apply In_zseq in Hx. lia.
Qed.
