(** Proofs about flattening. *)
From Verif Require Import Base BaseLemmas OmapLemmas LoopLemmas Content KCore Core KConvert Convert KOption Option KAxis Axis Combinations Flatten SpecArray SpecForm SpecAxis SpecFlatten SpecOption
  PCore PCarry PList PConvert POption PForm PAxis PNat PPadK PNum PCombinations.

(** ** the layout condition is kept by slicing and carrying *)
Lemma fok_all k cs : fold_right and True (map (flat_ok k) cs) <-> Forall (flat_ok k) cs.
Proof. induction cs as [|c cs IH]; simpl; [split; auto|]. rewrite IH. split; [intros []; constructor; assumption|intros H; inversion H; auto]. Qed.
Lemma iview_sub {A} a b (l l' : list A) (P : A -> Prop) : iview a b l = Ok l' -> Forall P l -> Forall P l'.
Proof.
  unfold iview. intros H HF. destruct (_ && _); [discriminate|]. destruct (a =? b); [injection H as <-; constructor|]. destruct (b <? a); [discriminate|]. injection H as <-.
  rewrite Forall_forall in *. intros x Hx. apply HF. eapply In_slice; exact Hx.
Qed.
Lemma mapres_nonnil {A B} (f : A -> res B) l l' : mapres f l = Ok l' -> l <> [] -> l' <> [].
Proof. destruct l; [contradiction|]. cbn [mapres]. intros H _. binv H. injection H as <-. discriminate. Qed.
Lemma range_fok c : forall k a b c', flat_ok k c -> getitem_range_nowrap c a b = Ok c' -> flat_ok k c'.
Proof.
  induction c using content_ind'; intros k a' b' c' HZ H0; simpl in H0; binv H0; try (mkinv H0; subst; exact HZ).
  - mkinv H0; subst. cbn [flat_ok] in *. destruct (k =? 1); [exact I|]. destruct HZ as [A B]. split; [|exact B]. eapply iview_sub; [exact E|exact A].
  - mkinv H0; subst. cbn [flat_ok] in *. destruct (k =? 1); [exact I|]. eapply IHc; [exact HZ|exact E].
  - mkinv H0; subst. cbn [flat_ok] in *. eapply IHc; [exact HZ|exact E0].
  - mkinv H0; subst. cbn [flat_ok] in *. eapply IHc; [exact HZ|exact E2].
  - injection H0 as <-. cbn [flat_ok] in *. eapply IHc; [exact HZ|exact E].
  - destruct cs as [|c0 cs]; [mkinv H0; subst; exact HZ|]. binv H0; [injection H0 as <-; exact HZ|].
    mkinv H0; subst. cbn [flat_ok] in *. destruct HZ as [HN HZ]. split; [eapply mapres_nonnil; [exact E|exact HN]|]. rewrite fok_all in *. eapply (mapres_P (flat_ok k)); [|exact HZ|exact E].
    eapply Forall_impl; [|exact H]. intros x Hx Hz x' Hx'. eapply Hx; [exact Hz|exact Hx'].
Qed.
Lemma contiguous_fok k c cry kk c' : flat_ok k c -> carry_contiguous c cry kk = Ok c' -> (kk tt = Ok c' -> flat_ok k c') -> flat_ok k c'.
Proof.
  unfold carry_contiguous; intros HZ H Hk. binv H.
  - injection H as <-. exact HZ.
  - eapply range_fok; [exact HZ|exact H].
  - auto.
Qed.
Lemma carry_fok c : forall k cry lz c', flat_ok k c -> carry c cry lz = Ok c' -> flat_ok k c'.
Proof.
  induction c using content_ind'; intros k cry lz c' HZ H0; cbn [carry] in H0;
    try (eapply contiguous_fok; [exact HZ|exact H0|clear H0; intros H0; cbv beta in H0]); binv H0; try (mkinv H0; subst; exact HZ).
  - mkinv H0; subst. cbn [flat_ok] in *. destruct (k =? 1); [exact I|]. apply HZ.
  - mkinv H0; subst. cbn [flat_ok] in *. destruct (k =? 1); [exact I|]. eapply IHc; [exact HZ|exact E0].
  - mkinv H0; subst. cbn [flat_ok] in *. eapply IHc; [exact HZ|exact E0].
  - eapply (contiguous_fok k (ByteMasked a vw c)); [exact HZ|exact H0|clear H0; intros H0; cbv beta in H0]. binv H0. mkinv H0; subst. cbn [flat_ok] in *. eapply IHc; [exact HZ|exact E2].
  - injection H0 as <-. cbn [flat_ok] in *. eapply IHc; [exact HZ|exact E].
  - eapply contiguous_fok; [exact HZ|exact H0|clear H0; intros H0; cbv beta in H0]. binv H0. mkinv H0; subst. cbn [flat_ok] in *. destruct HZ as [HN HZ]. split; [eapply mapres_nonnil; [exact E|exact HN]|].
    rewrite fok_all in *. eapply (mapres_P (flat_ok k)); [|exact HZ|exact E].
    eapply Forall_impl; [|exact H]. intros x Hx Hz x' Hx'. eapply Hx; [exact Hz|exact Hx'].
Qed.
Lemma tolistoffset_fok w k c l x o c'' : list_view c = Some (l, x) -> flat_ok k x -> toListOffsetArray64 w true c = Ok (ListOffset o c'') -> flat_ok k c''.
Proof.
  intros Hv HZ H. unfold toListOffsetArray64 in H. destruct c; try discriminate Hv; cbn [list_view] in Hv; injection Hv as <- <-; binv H; try (injection H as <- <-; exact HZ);
    cbn [broadcast_tooffsets64] in H; unfold starts_at_0 in H; binv H; mkinv H; injection H as <- <-; first [exact HZ|eapply carry_fok; [exact HZ|eassumption]].
Qed.

(** ** prefix sums and concatenation *)
Lemma slice_concat (L : list (list value)) : forall a b, 0 <= a <= b -> b <= zlen L ->
  slice (sumZ (slice 0 a (map zlen L))) (sumZ (slice 0 b (map zlen L))) (concat L) = concat (slice a b L) /\
  0 <= sumZ (slice 0 a (map zlen L)) <= sumZ (slice 0 b (map zlen L)) /\ sumZ (slice 0 b (map zlen L)) <= zlen (concat L).
Proof.
  intros a b Hab Hb. rewrite !slice_map, <- !zlen_concat.
  rewrite (slice_split 0 a b L) by lia. rewrite concat_app, zlen_app.
  assert (E : concat L = concat (slice 0 a L) ++ concat (slice a b L) ++ concat (slice b (zlen L) L)).
  { rewrite <- !concat_app, <- !slice_split by lia. rewrite slice_full. reflexivity. }
  rewrite E. rewrite !zlen_app. pose proof (zlen_nonneg (concat (slice 0 a L))). pose proof (zlen_nonneg (concat (slice a b L))). pose proof (zlen_nonneg (concat (slice b (zlen L) L))).
  split; [|lia]. rewrite slice_app_shift by lia. replace (_ - _) with 0 by lia. replace (_ - _) with (zlen (concat (slice a b L))) by lia. apply slice_app.
Qed.
Lemma offsets_of_snoc l x : offsets_of (l ++ [x]) = offsets_of l ++ [sumZ l + x].
Proof.
  unfold offsets_of. assert (G : forall a, offsets_from a (l ++ [x]) = offsets_from a l ++ [a + sumZ l + x]); [|rewrite G; reflexivity].
  induction l as [|y l IH]; intros a; simpl; [f_equal; f_equal; lia|]. rewrite IH. simpl. do 3 f_equal. lia.
Qed.
Lemma nthZ_offsets_of l i : 0 <= i <= zlen l -> nthZ (offsets_of l) i = Some (sumZ (slice 0 i l)).
Proof. intros H. unfold offsets_of. rewrite nthZ_offsets_from by lia. reflexivity. Qed.
Lemma sum_step l i x : nthZ l i = Some x -> sumZ (slice 0 (i + 1) l) = sumZ (slice 0 i l) + x.
Proof. intros H. pose proof (nthZ_Some _ _ _ H). rewrite (slice_snoc_nth 0 i l x) by (assumption || lia). rewrite sumZ_app. simpl. lia. Qed.

Lemma flatten_offsets_kernel o inner vals : omap (nthZ inner) o = Some vals -> awkward_ListOffsetArray_flatten_offsets (alloc (zlen o)) o (zlen o) inner = Ok vals.
Proof. intros H. unfold awkward_ListOffsetArray_flatten_offsets. apply (for_gather inner o); [exact H|reflexivity|]. apply zlen_alloc, zlen_nonneg. Qed.

(** lists two levels down, flattened into one *)
Lemma pairs_omap (f : Z -> Z) o : pairs (map f o) = map (fun ab => (f (fst ab), f (snd ab))) (pairs o).
Proof.
  assert (Hl : o = [] \/ 1 <= zlen o) by (destruct o; [left; reflexivity|right; rewrite zlen_cons; pose proof (zlen_nonneg o); lia]). destruct Hl as [->|Hl]; [reflexivity|].
  apply list_eqZ; [rewrite zlen_map, !zlen_pairs; rewrite ?zlen_map; lia|]. intros i _. rewrite nthZ_map, !nthZ_pairs, !nthZ_map. destruct (nthZ o i), (nthZ o (i + 1)); reflexivity.
Qed.
Lemma nested_den o x ws vs y : den x = Some ws -> den (ListOffset o x) = Some vs -> Forall (fun i => 0 <= i <= zlen ws) o -> den y = Some (concat (map items ws)) ->
  den (ListOffset (map (fun i => sumZ (slice 0 i (map zlen (map items ws)))) o) y) = Some (map (lift flat 1) vs).
Proof.
  intros Hx Hd HF Hy. cbn [den] in *. rewrite Hx in Hd. rewrite Hy, zlen_map. destruct (1 <=? zlen o); [|discriminate].
  set (S := fun i => sumZ (slice 0 i (map zlen (map items ws)))). rewrite pairs_omap, omap_map. cbn [fst snd].
  replace (Some (map (lift flat 1) vs)) with (option_map (map (lift flat 1)) (omap (fun ab => sublist ws (fst ab) (snd ab)) (pairs o))) by (rewrite Hd; reflexivity).
  rewrite <- omap_option_map. apply omap_ext. intros [a b] Hin. cbn [fst snd].
  apply In_nthZ in Hin as [i Hi]. destruct (omap_nth _ _ _ _ _ Hd Hi) as (_ & v & Hv). cbn [fst snd] in Hv. rewrite Hv.
  rewrite nthZ_pairs in Hi. destruct (nthZ o i) as [a'|] eqn:Ea; [|discriminate]. destruct (nthZ o (i + 1)) as [b'|] eqn:Eb; [|discriminate]. injection Hi as -> ->.
  rewrite Forall_forall in HF. pose proof (HF a (nthZ_In _ _ _ Ea)). pose proof (HF b (nthZ_In _ _ _ Eb)).
  unfold sublist in Hv. destruct (Z.eqb_spec a b) as [->|Hab].
  - injection Hv as <-. unfold sublist. rewrite Z.eqb_refl. reflexivity.
  - destruct (Z.leb_spec 0 a), (Z.leb_spec a b), (Z.leb_spec b (zlen ws)); try discriminate Hv. injection Hv as <-.
    destruct (slice_concat (map items ws) a b) as (E1 & E2 & E3); [lia|rewrite zlen_map; lia|]. fold (S a) in *. fold (S b) in *.
    cbn [option_map lift]. change (1 =? 1) with true. cbv iota. unfold flat. rewrite <- slice_map, <- E1. unfold sublist. destruct (Z.eqb_spec (S a) (S b)) as [E|E].
    + rewrite E, slice_nil. reflexivity.
    + destruct (Z.leb_spec 0 (S a)), (Z.leb_spec (S a) (S b)), (Z.leb_spec (S b) (zlen (concat (map items ws)))); try lia. reflexivity.
Qed.

(** ** missing lists *)
Lemma ranks_items (p : Z -> bool) (ws : list value) xs : forall k vs, omap (fun i => if i <? 0 then Some VNone else nthZ ws i) (ranks p k xs) = Some vs -> 0 <= k -> k + zlen (filter p xs) = zlen ws ->
  concat (map items vs) = concat (map items (slice k (zlen ws) ws)).
Proof.
  induction xs as [|x xs IH]; intros k vs H Hk Hl; cbn [ranks filter] in *.
  - injection H as <-. change (zlen (@nil Z)) with 0 in Hl. rewrite slice_empty by lia. reflexivity.
  - destruct (p x).
    + cbn [omap] in H. destruct (Z.ltb_spec k 0); [lia|]. destruct (nthZ ws k) as [v|] eqn:Ev; [|discriminate]. destruct (omap _ _) as [vs'|] eqn:E; [|discriminate]. injection H as <-.
      rewrite zlen_cons in Hl. pose proof (nthZ_Some _ _ _ Ev). rewrite (slice_cons_nth k _ ws v) by (assumption || lia). cbn [map concat]. f_equal. apply IH; [exact E|lia|lia].
    + cbn [omap] in H. change (-1 <? 0) with true in H. cbv iota in H. destruct (omap _ _) as [vs'|] eqn:E; [|discriminate]. injection H as <-. cbn [map concat items app]. apply IH; assumption.
Qed.
Lemma ranked_items oi (ws vs : list value) : ranked oi (zlen ws) -> omap (fun i => if i <? 0 then Some VNone else nthZ ws i) oi = Some vs -> concat (map items vs) = concat (map items ws).
Proof. intros (p & xs & -> & Hn) H. rewrite (ranks_items p ws xs 0 vs H); [rewrite slice_full; reflexivity|lia|lia]. Qed.

Lemma none2empty_kernel oi (ws vs : list value) out : omap (fun i => if i <? 0 then Some VNone else nthZ ws i) oi = Some vs -> zlen out = zlen oi + 1 ->
  awkward_IndexedArray_flatten_none2empty out oi (zlen oi) (offsets_of (map zlen (map items ws))) (zlen (offsets_of (map zlen (map items ws)))) = Ok (offsets_of (map zlen (map items vs))).
Proof.
  intros H Ho. unfold awkward_IndexedArray_flatten_none2empty. set (ns := map zlen (map items ws)).
  assert (E0 : rd (offsets_of ns) 0 = Ok 0) by (apply rd_Ok; apply nthZ_offsets_0). rewrite E0. cbn [bind].
  destruct out as [|o0 out]; [pose proof (zlen_nonneg oi); change (zlen (@nil Z)) with 0 in Ho; lia|]. rewrite zlen_cons in Ho.
  change (wr (o0 :: out) 0 0) with (Ok (0 :: out)). cbn [bind].
  set (n := fun i => match nthZ ws i with Some v => zlen (items v) | None => 0 end).
  assert (En : map zlen (map items vs) = map n oi).
  { clear - H. revert vs H. induction oi as [|i oi IH]; intros vs H; cbn [omap] in H; [injection H as <-; reflexivity|]. destruct (Z.ltb_spec i 0).
    - destruct (omap _ oi); [|discriminate]. injection H as <-. cbn [map items]. f_equal; [|apply IH; reflexivity]. unfold n. rewrite nthZ_neg by lia. reflexivity.
    - destruct (nthZ ws i) as [v|] eqn:Ev; [|discriminate]. destruct (omap _ oi); [|discriminate]. injection H as <-. cbn [map]. f_equal; [|apply IH; reflexivity]. unfold n. rewrite Ev. reflexivity. }
  rewrite En.
  edestruct (for_list oi (fun d st => exists r, st = (zlen d + 1, offsets_of (map n d) ++ r) /\ zlen d + zlen r = zlen oi)) as (s & E & r & -> & Hr); [| |rewrite E].
  - exists out. split; [reflexivity|]. change (zlen (@nil Z)) with 0. lia.
  - intros d i r t Ed (r1 & -> & Hr). assert (Hi : nthZ oi (zlen d) = Some i) by (rewrite <- Ed; apply nthZ_mid).
    cbv beta iota. rewrite (proj2 (rd_Ok oi _ _) Hi). cbn [bind]. destruct (omap_nth _ _ _ _ _ H Hi) as (_ & v & Hv).
    assert (Hr1 : 0 < zlen r1). { pose proof (zlen_nonneg r). apply (f_equal zlen) in Ed. rewrite zlen_app, zlen_cons in Ed. lia. }
    assert (Hp : rd (offsets_of (map n d) ++ r1) (zlen d + 1 - 1) = Ok (sumZ (map n d))).
    { apply rd_Ok. rewrite nthZ_app, zlen_offsets_of, zlen_map. destruct (Z.ltb_spec (zlen d + 1 - 1) (zlen d + 1)); [|lia]. replace (zlen d + 1 - 1) with (zlen d) by lia. pose proof (zlen_nonneg d).
      rewrite nthZ_offsets_of by (rewrite zlen_map; lia). rewrite slice_full' by (rewrite zlen_map; reflexivity). reflexivity. }
    assert (W : forall x, exists r2, wr (offsets_of (map n d) ++ r1) (zlen d + 1) (sumZ (map n d) + x) = Ok (offsets_of (map n d ++ [x]) ++ r2) /\ zlen r1 = zlen r2 + 1).
    { intros x. destruct (wr_push' (offsets_of (map n d)) r1 (sumZ (map n d) + x) Hr1) as (r2 & W & L). rewrite zlen_offsets_of, zlen_map in W. exists r2. rewrite W, offsets_of_snoc. auto. }
    assert (Fin : forall x, n i = x -> exists t', (let* outoffsets := wr (offsets_of (map n d) ++ r1) (zlen d + 1) (sumZ (map n d) + x) in Ok (zlen d + 1 + 1, outoffsets)) = Ok t' /\
              exists r0, t' = (zlen (d ++ [i]) + 1, offsets_of (map n (d ++ [i])) ++ r0) /\ zlen (d ++ [i]) + zlen r0 = zlen oi).
    { intros x <-. destruct (W (n i)) as (r2 & -> & L). cbn [bind]. eexists. split; [reflexivity|]. exists r2. rewrite map_app, zlen_app. change (zlen [i]) with 1. split; [reflexivity|lia]. }
    destruct (Z.ltb_spec i 0).
    + rewrite Hp. cbn [bind]. replace (sumZ (map n d)) with (sumZ (map n d) + 0) by lia. apply Fin. unfold n. rewrite nthZ_neg by lia. reflexivity.
    + pose proof (nthZ_Some _ _ _ Hv). rewrite zlen_offsets_of. unfold ns at 1. rewrite !zlen_map. destruct (Z.leb_spec (zlen ws + 1) (i + 1)); [lia|].
      assert (Hni : nthZ ns i = Some (zlen (items v))) by (unfold ns; rewrite !nthZ_map, Hv; reflexivity).
      assert (Hns : zlen ns = zlen ws) by (unfold ns; rewrite !zlen_map; reflexivity).
      assert (R1 : rd (offsets_of ns) (i + 1) = Ok (sumZ (slice 0 i ns) + zlen (items v))) by (apply rd_Ok; rewrite nthZ_offsets_of by lia; rewrite (sum_step _ _ _ Hni); reflexivity).
      assert (R2 : rd (offsets_of ns) i = Ok (sumZ (slice 0 i ns))) by (apply rd_Ok; apply nthZ_offsets_of; lia).
      rewrite R1, R2. cbn [bind]. rewrite Hp. cbn [bind]. apply Fin. unfold n. rewrite Hv. lia.
  - cbn [bind snd]. rewrite (zlen_0 r) by lia. rewrite app_nil_r. reflexivity.
Qed.

(** ** unions *)
Definition span (raws : list (list Z)) (ti : Z * Z) : Z * Z :=
  match nthZ raws (fst ti) with Some raw => match nthZ raw (snd ti), nthZ raw (snd ti + 1) with Some a, Some b => (a, b) | _, _ => (0, 0) end | None => (0, 0) end.
Definition spans_ok (raws : list (list Z)) (l : list (Z * Z)) : Prop :=
  Forall (fun ti => exists raw a b, nthZ raws (fst ti) = Some raw /\ nthZ raw (snd ti) = Some a /\ nthZ raw (snd ti + 1) = Some b /\ a <= b) l.
Lemma union_length_kernel tags index raws : spans_ok raws (combine tags index) -> zlen tags <= zlen index ->
  awkward_UnionArray_flatten_length tags index (zlen tags) raws = Ok (sumZ (map diff (map (span raws) (combine tags index)))).
Proof.
  intros HS HL. unfold awkward_UnionArray_flatten_length. rewrite <- (zlen_combine_le tags index) by assumption.
  edestruct (for_list (combine tags index) (fun d st => st = sumZ (map diff (map (span raws) d)))) as (s & E & ->); [| |exact E].
  - reflexivity.
  - intros d [t i] r st Ed ->. destruct (combine_mid _ _ _ _ _ _ Ed) as [Ht Hi]. unfold spans_ok in HS. rewrite Forall_forall in HS.
    destruct (HS (t, i)) as (raw & a & b & H1 & H2 & H3 & H4); [rewrite <- Ed; apply in_elt|]. cbn [fst snd] in *.
    rewrite (proj2 (rd_Ok tags _ _) Ht), (proj2 (rd_Ok index _ _) Hi). cbn [bind]. rewrite (proj2 (rd_Ok raws _ _) H1). cbn [bind]. rewrite (proj2 (rd_Ok raw _ _) H2), (proj2 (rd_Ok raw _ _) H3). cbn [bind].
    eexists. split; [reflexivity|]. assert (Hspan : span raws (t, i) = (a, b)) by (unfold span; cbn [fst snd]; rewrite H1, H2, H3; reflexivity).
    rewrite !map_app, sumZ_app. cbn [map]. rewrite Hspan. change (sumZ [diff (a, b)]) with (b - a + 0). lia.
Qed.
Lemma append2 tag a b (t1 t2 r1 r2 : list Z) : a <= b -> b - a <= zlen r1 -> b - a <= zlen r2 -> zlen t1 = zlen t2 ->
  exists r1' r2', for_ a b (fun j st' => let '(k, totags, toindex) := st' in let* totags := wr totags k tag in let* toindex := wr toindex k j in Ok (k + 1, totags, toindex)) (zlen t1, t1 ++ r1, t2 ++ r2)
    = Ok (zlen t1 + (b - a), (t1 ++ map (fun _ => tag) (zseq a b)) ++ r1', (t2 ++ zseq a b) ++ r2') /\ zlen r1 = b - a + zlen r1' /\ zlen r2 = b - a + zlen r2'.
Proof.
  intros Hab H1 H2 Ht.
  edestruct (for_inv (fun i st => exists r1' r2', st = (zlen t1 + (i - a), (t1 ++ map (fun _ : Z => tag) (zseq a i)) ++ r1', (t2 ++ zseq a i) ++ r2') /\ zlen r1 = i - a + zlen r1' /\ zlen r2 = i - a + zlen r2') a b) as (s & E & r1' & r2' & -> & L1 & L2); [exact Hab| | |].
  3: { rewrite E. eauto. }
  - exists r1, r2. rewrite zseq_nil by lia. cbn [map]. rewrite !app_nil_r. split; [f_equal; f_equal; lia|lia].
  - intros i st Hi (q1 & q2 & -> & L1 & L2). cbv beta iota.
    destruct (wr_push' (t1 ++ map (fun _ : Z => tag) (zseq a i)) q1 tag) as (q1' & W1 & K1); [lia|]. rewrite zlen_app, zlen_map, zlen_zseq in W1 by lia. rewrite W1. cbn [bind].
    destruct (wr_push' (t2 ++ zseq a i) q2 i) as (q2' & W2 & K2); [lia|]. rewrite zlen_app, zlen_zseq, <- Ht in W2 by lia. rewrite W2. cbn [bind].
    eexists. split; [reflexivity|]. exists q1', q2'. rewrite zseq_snoc by lia. rewrite map_app. cbn [map]. rewrite !app_assoc. split; [f_equal; f_equal; lia|lia].
Qed.
Lemma union_combine_kernel tags index raws : spans_ok raws (combine tags index) -> zlen tags <= zlen index ->
  let l := combine tags index in let n := sumZ (map diff (map (span raws) l)) in
  awkward_UnionArray_flatten_combine (alloc n) (alloc n) (alloc (zlen tags + 1)) tags index (zlen tags) raws =
  Ok (concat (map (fun ti => map (fun _ => fst ti) (zseq (fst (span raws ti)) (snd (span raws ti)))) l),
      concat (map (fun ti => zseq (fst (span raws ti)) (snd (span raws ti))) l), offsets_of (map diff (map (span raws) l))).
Proof.
  intros HS HL l n. unfold awkward_UnionArray_flatten_combine.
  set (T := fun d => concat (map (fun ti => map (fun _ => fst ti) (zseq (fst (span raws ti)) (snd (span raws ti)))) d)).
  set (X := fun d => concat (map (fun ti => zseq (fst (span raws ti)) (snd (span raws ti))) d)).
  set (D := fun d => map diff (map (span raws) d)).
  pose proof (zlen_nonneg tags) as Hn0.
  destruct (alloc (zlen tags + 1)) as [|o0 out] eqn:Ea; [apply (f_equal zlen) in Ea; rewrite zlen_alloc in Ea by lia; change (zlen (@nil Z)) with 0 in Ea; lia|].
  apply (f_equal zlen) in Ea. rewrite zlen_alloc, zlen_cons in Ea by lia. change (wr (o0 :: out) 0 0) with (Ok (0 :: out)). cbn [bind].
  assert (HD : forall d r, d ++ r = l -> Forall (fun n => 0 <= n) (D d) /\ zlen (T d) = sumZ (D d) /\ zlen (X d) = sumZ (D d) /\ sumZ (D d) + sumZ (D r) = n /\ 0 <= sumZ (D r)).
  { assert (Hsp : forall ti, In ti l -> 0 <= diff (span raws ti)).
    { intros ti Hti. unfold spans_ok in HS. rewrite Forall_forall in HS. destruct (HS ti Hti) as (raw & a & b & H1 & H2 & H3 & H4). unfold span. rewrite H1, H2, H3. unfold diff. simpl. lia. }
    assert (HF : forall d, (forall x, In x d -> In x l) -> Forall (fun n => 0 <= n) (D d)).
    { intros d Hd. unfold D. rewrite map_map. apply Forall_forall. intros x Hx. apply in_map_iff in Hx as (ti & <- & Hti). apply Hsp, Hd, Hti. }
    assert (HT : forall d, (forall x, In x d -> In x l) -> zlen (T d) = sumZ (D d) /\ zlen (X d) = sumZ (D d)).
    { induction d as [|ti d IH]; intros Hd; [split; reflexivity|]. destruct IH as [A B]; [intros; apply Hd; right; assumption|]. specialize (Hsp ti (Hd ti (or_introl eq_refl))). unfold T, X, D in *. cbn [map concat]. rewrite !zlen_app, A, B, zlen_map, zlen_zseq by (unfold diff in Hsp; lia).
      unfold diff at 2 4. simpl. split; reflexivity. }
    intros d r E. assert (I1 : forall x, In x d -> In x l) by (intros; rewrite <- E; apply in_or_app; auto). assert (I2 : forall x, In x r -> In x l) by (intros; rewrite <- E; apply in_or_app; auto).
    destruct (HT d I1). repeat split; auto; [|apply sumZ_nonneg, HF, I2]. rewrite <- sumZ_app. unfold n, D. rewrite <- !map_app, E. reflexivity. }
  assert (Hn : 0 <= n) by (destruct (HD [] l eq_refl) as (_ & _ & _ & A & B); change (sumZ (D [])) with 0 in A; lia).
  replace (zlen tags) with (zlen l) by (apply zlen_combine_le; exact HL).
  edestruct (for_list l (fun d st => exists r1 r2 r3, st = (zlen (T d), T d ++ r1, X d ++ r2, offsets_of (D d) ++ r3) /\ zlen (T d) + zlen r1 = n /\ zlen (X d) + zlen r2 = n /\ zlen d + zlen r3 = zlen l)) as (s & E & r1 & r2 & r3 & -> & L1 & L2 & L3); [| |rewrite E].
  - exists (alloc n), (alloc n), out. rewrite zlen_alloc by lia. change (zlen (T [])) with 0. change (zlen (X [])) with 0. change (zlen (@nil (Z * Z))) with 0. unfold l. rewrite zlen_combine_le by exact HL. split; [reflexivity|lia].
  - intros d [t i] r st Ed (r1 & r2 & r3 & -> & L1 & L2 & L3). destruct (combine_mid _ _ _ _ _ _ Ed) as [Ht Hi]. pose proof HS as HS'. unfold spans_ok in HS'. rewrite Forall_forall in HS'.
    destruct (HS' (t, i)) as (raw & a & b & H1 & H2 & H3 & H4); [fold l; rewrite <- Ed; apply in_elt|]. cbn [fst snd] in *. clear HS'.
    assert (Hspan : span raws (t, i) = (a, b)) by (unfold span; cbn [fst snd]; rewrite H1, H2, H3; reflexivity).
    cbv beta iota. rewrite (proj2 (rd_Ok tags _ _) Ht), (proj2 (rd_Ok index _ _) Hi). cbn [bind]. rewrite (proj2 (rd_Ok raws _ _) H1). cbn [bind]. rewrite (proj2 (rd_Ok raw _ _) H2), (proj2 (rd_Ok raw _ _) H3). cbn [bind].
    destruct (HD _ _ Ed) as (_ & T1 & X1 & S1 & S2). destruct (HD (d ++ [(t, i)]) r) as (_ & T2 & X2 & S3 & S4); [rewrite <- app_assoc; exact Ed|].
    assert (DD : D (d ++ [(t, i)]) = D d ++ [b - a]) by (unfold D; rewrite !map_app; cbn [map]; rewrite Hspan; reflexivity). rewrite DD, sumZ_app in S3, T2, X2. change (sumZ [b - a]) with (b - a + 0) in *.
    assert (Hl : zlen d < zlen l) by (rewrite <- Ed, zlen_app, zlen_cons; pose proof (zlen_nonneg r); lia).
    assert (LD : zlen (D d) = zlen d) by (unfold D; rewrite !zlen_map; reflexivity). pose proof (zlen_nonneg d).
    assert (Hp : rd (offsets_of (D d) ++ r3) (zlen d) = Ok (sumZ (D d))).
    { apply rd_Ok. rewrite nthZ_app, zlen_offsets_of, LD. destruct (Z.ltb_spec (zlen d) (zlen d + 1)); [|lia]. rewrite nthZ_offsets_of by lia. rewrite slice_full' by lia. reflexivity. }
    rewrite Hp. cbn [bind]. destruct (wr_push' (offsets_of (D d)) r3 (sumZ (D d) + (b - a))) as (r3' & W & K); [lia|]. rewrite zlen_offsets_of, LD in W. rewrite W, <- offsets_of_snoc. cbn [bind].
    destruct (append2 t a b (T d) (X d) r1 r2) as (q1 & q2 & A & K1 & K2); try lia. rewrite A. cbn [bind]. eexists. split; [reflexivity|]. exists q1, q2, r3'.
    assert (TT : T (d ++ [(t, i)]) = T d ++ map (fun _ => t) (zseq a b)) by (unfold T; rewrite map_app, concat_app; cbn [map concat fst]; rewrite Hspan, app_nil_r; reflexivity).
    assert (XX : X (d ++ [(t, i)]) = X d ++ zseq a b) by (unfold X; rewrite map_app, concat_app; cbn [map concat fst]; rewrite Hspan, app_nil_r; reflexivity).
    rewrite DD. rewrite TT, XX in *. rewrite (zlen_app d). change (zlen [(t, i)]) with 1. split; [f_equal; f_equal; f_equal; lia|lia].
  - cbn [bind]. destruct (HD l [] (app_nil_r l)) as (_ & T1 & X1 & S1 & _). change (sumZ (D [])) with 0 in S1. rewrite (zlen_0 r1), (zlen_0 r2), (zlen_0 r3), !app_nil_r by lia. reflexivity.
Qed.

(** ** the outcome of a call *)
Definition flat_outcome (k : Z) (f : form) (vs : list value) (r : res (list Z * content)) : Prop :=
  if flattens k f then
    exists o c', r = Ok (o, c') /\ o = (if k =? 1 then offsets_of (map zlen (map items vs)) else []) /\ den c' = Some (flattened k vs)
  else definite f = true -> exists m, r = Err m.

Lemma flatten_option_good k f rec pair c' ws vs :
  den c' = Some ws -> 1 <= k ->
  (exists nc oi ws', pair = Ok (nc, oi) /\ omap (nthZ ws) nc = Some ws' /\ omap (fun i => if i <? 0 then Some VNone else nthZ ws' i) oi = Some vs /\ ranked oi (zlen nc)) ->
  (forall nc next ws', carry c' nc false = Ok next -> den next = Some ws' -> flat_outcome k f ws' (rec next)) ->
  flat_outcome k f vs (flatten_option rec pair c').
Proof.
  intros Hc Hk (nc & oi & ws' & -> & Hnc & Hoi & HR) Hrec. unfold flatten_option. cbn [bind].
  destruct (carry_den _ _ _ _ false Hc Hnc) as (next & En & Hn). rewrite En. cbn [bind].
  specialize (Hrec nc next ws' En Hn). unfold flat_outcome in *. destruct (flattens k f).
  - destruct Hrec as (o & out & -> & -> & Ho). cbn [bind]. unfold flattened in *. assert (Hl : zlen nc = zlen ws') by (symmetry; exact (omap_zlen _ _ _ Hnc)). destruct (Z.eqb_spec k 1) as [->|Hk1].
    + pose proof (zlen_nonneg ws').
      assert (Ez : zlen (offsets_of (map zlen (map items ws'))) = zlen ws' + 1) by (rewrite zlen_offsets_of, !zlen_map; reflexivity). destruct (Z.eqb_spec (zlen (offsets_of (map zlen (map items ws')))) 0); [lia|].
      assert (Hle : 0 <= zlen oi) by apply zlen_nonneg.
      rewrite (none2empty_kernel oi ws' vs) by (assumption || (rewrite zlen_alloc; lia)). cbn [bind].
      do 2 eexists. split; [reflexivity|]. split; [reflexivity|]. rewrite Ho. f_equal. symmetry. eapply ranked_items; [|exact Hoi]. rewrite <- Hl. exact HR.
    + change (zlen (@nil Z) =? 0) with true. cbv iota. do 2 eexists. split; [reflexivity|]. split; [reflexivity|].
      eapply (nat_indexedoption (lift flat (k - 1)) oi next out ws' vs); [reflexivity|exact Hn|exact Ho|]. cbn [den]. rewrite Hn. exact Hoi.
  - intros Hdef. destruct (Hrec Hdef) as (m & ->). exists m. reflexivity.
Qed.

Lemma trimmed_range x us n : den x = Some us -> 0 <= n <= zlen us ->
  exists x', getitem_range_nowrap x 0 (Z.min n (length_ x)) = Ok x' /\ den x' = Some (slice 0 n us).
Proof. intros Hd Hn. rewrite (den_length _ _ Hd), Z.min_l by lia. apply range_den; [exact Hd|lia|lia]. Qed.
Lemma record_trim keys len cs cs' vss vs : omap den cs = Some vss -> omap den cs' = Some (map (slice 0 len) vss) -> zlen cs' = zlen cs ->
  den (Record keys len cs) = Some vs -> den (Record keys len cs') = Some vs.
Proof.
  intros Hc Hc' Hl H. cbn [den] in *. rewrite Hc in H. rewrite Hc', Hl. destruct ((0 <=? len) && keys_ok keys (zlen cs)) eqn:E; [|discriminate].
  rewrite <- H. apply omap_ext. intros i Hi. apply In_zseq in Hi. rewrite omap_map. f_equal. apply omap_ext. intros us _. rewrite nthZ_slice by lia. reflexivity.
Qed.
Lemma record_lengths keys len cs vss vs us : omap den cs = Some vss -> den (Record keys len cs) = Some vs -> In us vss -> 0 <= len <= zlen us.
Proof.
  intros Hc H Hin. cbn [den] in H. rewrite Hc in H. destruct (Z.leb_spec 0 len); [|discriminate]. split; [assumption|]. destruct (Z.leb_spec len 0) as [|Hp]; [pose proof (zlen_nonneg us); lia|].
  cbn [andb] in H. destruct (keys_ok keys (zlen cs)); [|discriminate].
  assert (Hn : nthZ (zseq 0 len) (len - 1) = Some (len - 1)) by (rewrite nthZ_zseq by lia; f_equal; lia).
  destruct (omap_nth _ _ _ _ _ H Hn) as (_ & row & Hrow). destruct (omap (fun us => nthZ us (len - 1)) vss) as [vals|] eqn:Ev; [|discriminate].
  apply In_nthZ in Hin as [j Hj]. destruct (omap_nth _ _ _ _ _ Ev Hj) as (_ & v & Hv). apply nthZ_Some in Hv. lia.
Qed.

(** union branches that give offsets *)
Lemma combine_app_eq {A B} (a a' : list A) (b b' : list B) : zlen a = zlen b -> combine (a ++ a') (b ++ b') = combine a b ++ combine a' b'.
Proof.
  revert b. induction a as [|x a IH]; intros [|y b] H; [reflexivity| | |]; rewrite ?zlen_cons in H.
  - pose proof (zlen_nonneg b). change (zlen (@nil A)) with 0 in H. lia.
  - pose proof (zlen_nonneg a). change (zlen (@nil B)) with 0 in H. lia.
  - cbn [app combine]. rewrite IH by lia. reflexivity.
Qed.
Lemma combine_const {A B} (t : A) (z : list B) : combine (map (fun _ => t) z) z = map (fun j => (t, j)) z.
Proof. induction z; cbn [map combine]; congruence. Qed.
Lemma union_flat tags index (vss : list (list value)) vs :
  omap (fun ti => match nthZ vss (fst ti) with Some us => nthZ us (snd ti) | None => None end) (combine tags index) = Some vs ->
  let raws := map (fun us => offsets_of (map zlen (map items us))) vss in
  spans_ok raws (combine tags index) /\ map diff (map (span raws) (combine tags index)) = map zlen (map items vs) /\
  omap (fun ti => match nthZ (map (fun us => concat (map items us)) vss) (fst ti) with Some us => nthZ us (snd ti) | None => None end)
    (combine (concat (map (fun ti => map (fun _ => fst ti) (zseq (fst (span raws ti)) (snd (span raws ti)))) (combine tags index)))
             (concat (map (fun ti => zseq (fst (span raws ti)) (snd (span raws ti))) (combine tags index)))) = Some (concat (map items vs)).
Proof.
  generalize (combine tags index). intros l H raws. revert vs H. induction l as [|[t i] l IH]; intros vs H; cbn [omap] in H.
  - injection H as <-. split; [constructor|]. split; reflexivity.
  - cbn [fst snd] in H. destruct (nthZ vss t) as [us|] eqn:Et; [|discriminate]. destruct (nthZ us i) as [v|] eqn:Ei; [|discriminate]. destruct (omap _ l) as [vs'|]; [|discriminate]. injection H as <-.
    destruct (IH _ eq_refl) as (A & B & C). clear IH. pose proof (nthZ_Some _ _ _ Ei) as Hi.
    assert (Hr : nthZ raws t = Some (offsets_of (map zlen (map items us)))) by (unfold raws; rewrite nthZ_map, Et; reflexivity).
    assert (Hx : nthZ (map zlen (map items us)) i = Some (zlen (items v))) by (rewrite !nthZ_map, Ei; reflexivity).
    set (ns := map zlen (map items us)) in *. assert (Hns : zlen ns = zlen us) by (unfold ns; rewrite !zlen_map; reflexivity).
    set (s0 := sumZ (slice 0 i ns)). assert (H0 : nthZ (offsets_of ns) i = Some s0) by (apply nthZ_offsets_of; lia).
    assert (H1 : nthZ (offsets_of ns) (i + 1) = Some (s0 + zlen (items v))) by (rewrite nthZ_offsets_of by lia; rewrite (sum_step _ _ _ Hx); reflexivity).
    assert (Hspan : span raws (t, i) = (s0, s0 + zlen (items v))) by (unfold span; cbn [fst snd]; rewrite Hr, H0, H1; reflexivity).
    pose proof (zlen_nonneg (items v)). destruct (slice_concat (map items us) i (i + 1)) as (S1 & S2 & S3); [lia|rewrite zlen_map; lia|]. fold ns in S1, S2, S3. rewrite (sum_step _ _ _ Hx) in S1, S2, S3. fold s0 in S1, S2, S3.
    assert (Hit : concat (slice i (i + 1) (map items us)) = items v). { rewrite (slice_cons_nth i (i + 1) (map items us) (items v)) by (rewrite ?nthZ_map, ?Ei; reflexivity || lia). rewrite slice_nil. cbn [concat]. apply app_nil_r. }
    rewrite Hit in S1. split; [|split].
    + constructor; [|exact A]. cbn [fst snd]. exists (offsets_of ns), s0, (s0 + zlen (items v)). repeat split; auto. lia.
    + cbn [map]. rewrite Hspan, B. unfold diff at 1. cbn [fst snd]. f_equal. lia.
    + cbn [map concat]. rewrite Hspan. cbn [fst snd]. rewrite combine_app_eq by (rewrite zlen_map; reflexivity). rewrite omap_app.
      assert (E : omap (fun ti => match nthZ (map (fun us => concat (map items us)) vss) (fst ti) with Some us => nthZ us (snd ti) | None => None end)
                (combine (map (fun _ => t) (zseq s0 (s0 + zlen (items v)))) (zseq s0 (s0 + zlen (items v)))) = Some (items v)).
      { rewrite combine_const, omap_map. cbn [fst snd]. rewrite nthZ_map, Et. cbn [option_map]. etransitivity; [apply omap_nthZ_zseq; lia|f_equal; exact S1]. }
      rewrite E, C. reflexivity.
Qed.

Lemma flatten_mapres (f : content -> res (list Z * content)) k cs vss :
  omap den cs = Some vss ->
  (forall c vs, In c cs -> den c = Some vs -> flat_outcome k (form_of c) vs (f c)) ->
  if forallb (fun c => flattens k (form_of c)) cs
  then exists ps, mapres f cs = Ok ps /\ map fst ps = map (fun us => if k =? 1 then offsets_of (map zlen (map items us)) else []) vss
        /\ omap den (map snd ps) = Some (map (flattened k) vss) /\ zlen ps = zlen cs
  else forallb (fun c => definite (form_of c)) cs = true -> exists m, mapres f cs = Err m.
Proof.
  revert vss. induction cs as [|c cs IH]; intros vss H Hf; cbn [omap] in H; cbn [forallb mapres].
  - injection H as <-. exists []. repeat split.
  - destruct (den c) as [vs|] eqn:Ec; [|discriminate]. destruct (omap den cs) as [vss'|] eqn:Ecs; [|discriminate]. injection H as <-.
    pose proof (Hf c vs (or_introl eq_refl) Ec) as Hc. specialize (IH _ eq_refl (fun x v Hi => Hf x v (or_intror Hi))). unfold flat_outcome in Hc. destruct (flattens k (form_of c)); cbn [andb].
    + destruct Hc as (o & c' & -> & -> & Hc'). cbn [bind]. destruct (forallb (fun c => flattens k (form_of c)) cs).
      * destruct IH as (ps & -> & A & B & D). cbn [bind]. eexists. split; [reflexivity|]. cbn [map fst snd omap]. rewrite A, Hc', B, !zlen_cons, D. repeat split; reflexivity.
      * intros Hd. apply andb_prop in Hd as [_ Hd]. destruct (IH Hd) as (m & ->). exists m. reflexivity.
    + intros Hd. apply andb_prop in Hd as [Hd _]. destruct (Hc Hd) as (m & ->). exists m. reflexivity.
Qed.
Lemma has_offsets_const (os : list (list Z)) (b : bool) : os <> [] -> (forall o, In o os -> negb (zlen o =? 0) = b) -> forall b0, fold_left (fun _ o => negb (zlen o =? 0)) os b0 = b.
Proof.
  intros Hne HF b0. destruct (exists_last Hne) as (os' & o & ->). rewrite fold_left_app. cbn [fold_left]. apply HF. apply in_or_app. right. left. reflexivity.
Qed.
Lemma record_mapres (f : content -> res content) k len cs vss :
  omap den cs = Some vss ->
  (forall c us, In c cs -> den c = Some us -> if flattens k (form_of c) then exists c', f c = Ok c' /\ den c' = Some (flattened k (slice 0 len us)) else definite (form_of c) = true -> exists m, f c = Err m) ->
  if forallb (fun c => flattens k (form_of c)) cs
  then exists cs', mapres f cs = Ok cs' /\ omap den cs' = Some (map (flattened k) (map (slice 0 len) vss)) /\ zlen cs' = zlen cs
  else forallb (fun c => definite (form_of c)) cs = true -> exists m, mapres f cs = Err m.
Proof.
  revert vss. induction cs as [|c cs IH]; intros vss H Hf; cbn [omap] in H; cbn [forallb mapres].
  - injection H as <-. exists []. repeat split.
  - destruct (den c) as [vs|] eqn:Ec; [|discriminate]. destruct (omap den cs) as [vss'|] eqn:Ecs; [|discriminate]. injection H as <-.
    pose proof (Hf c vs (or_introl eq_refl) Ec) as Hc. specialize (IH _ eq_refl (fun x v Hi => Hf x v (or_intror Hi))). destruct (flattens k (form_of c)); cbn [andb].
    + destruct Hc as (c' & -> & Hc'). cbn [bind]. destruct (forallb (fun c => flattens k (form_of c)) cs).
      * destruct IH as (ps & -> & B & D). cbn [bind]. eexists. split; [reflexivity|]. cbn [map omap]. rewrite Hc', B, !zlen_cons, D. split; reflexivity.
      * intros Hd. apply andb_prop in Hd as [_ Hd]. destruct (IH Hd) as (m & ->). exists m. reflexivity.
    + intros Hd. apply andb_prop in Hd as [Hd _]. destruct (Hc Hd) as (m & ->). exists m. reflexivity.
Qed.

Lemma offsets_inside o c vs : den (ListOffset o c) = Some vs -> nthZ o 0 = Some 0 -> Forall (fun i => 0 <= i <= length_ c) o.
Proof.
  intros D O0. destruct (list_inv _ _ _ _ D eq_refl) as (ws & _ & _ & Evs). rewrite Evs in D. destruct (listoffset0_inv _ _ _ D O0) as (Eo & tail & Hc).
  set (segs := map (seg ws) (pairs o)) in *. clearbody segs. rewrite (den_length _ _ Hc), zlen_app. rewrite Eo. apply Forall_forall. intros x Hx. apply In_nthZ in Hx as [i Hi].
  pose proof (nthZ_Some _ _ _ Hi) as Hl. rewrite zlen_offsets_of, zlen_map in Hl. rewrite nthZ_offsets_of in Hi by (rewrite zlen_map; lia). injection Hi as <-.
  destruct (slice_concat segs 0 i) as (_ & A & B); [lia|lia|]. change (sumZ (slice 0 0 _)) with 0 in A. pose proof (zlen_nonneg tail). lia.
Qed.

Section Flatten.
Variable is64 : content -> bool.

Lemma flatten_good fuel : forall c axis depth vs, (need c <= fuel)%nat -> den c = Some vs -> 0 <= depth < axis -> flat_ok (axis - depth) c ->
  flat_outcome (axis - depth) (form_of c) vs (offsets_and_flattened is64 fuel c axis depth).
Proof.
  induction fuel as [|fuel IH]; intros c axis depth vs Hf Hd Ha HZ.
  { pose proof (need_pos c). lia. }
  assert (Hw : forall c, axis_wrap_if_negative c axis = Ok axis) by (intros; apply wrap_nonneg; lia).
  assert (LO : forall w o x, den (ListOffset o x) = Some vs -> (bound x <= fuel)%nat -> flat_ok (axis - depth) (ListOffset o x) ->
     flat_outcome (axis - depth) (FList (form_of x)) vs
       (let* posaxis := axis_wrap_if_negative (ListOffset o x) axis in
        if posaxis =? depth then Err "axis=0 not allowed for flatten"
        else if posaxis =? depth + 1 then
          let* lo := toListOffsetArray64 w true (ListOffset o x) in
          match lo with
          | ListOffset offsets c'' =>
              let* stop := rd offsets (zlen offsets - 1) in
              let* content := getitem_range_nowrap c'' 0 stop in
              Ok (offsets, content)
          | _ => UB
          end
        else
          let* p := offsets_and_flattened is64 fuel x posaxis (depth + 1) in
          let '(inneroffsets, flattened) := p in
          if zlen inneroffsets =? 0 then
            let* out := mkListOffset o flattened in Ok ([], out)
          else if zlen o =? 1 then
            let* tooffsets := iview 0 1 inneroffsets in
            let* out := mkListOffset tooffsets flattened in Ok ([], out)
          else
            let* tooffsets := awkward_ListOffsetArray_flatten_offsets (alloc (zlen o)) o (zlen o) inneroffsets in
            let* out := mkListOffset tooffsets flattened in Ok ([], out))).
  { intros w o x Dx Bx Zx. rewrite Hw. cbn [bind]. destruct (Z.eqb_spec axis depth); [lia|]. unfold flat_outcome. cbn [flattens definite]. destruct (Z.eqb_spec axis (depth + 1)) as [->|Hne].
    - replace (depth + 1 - depth) with 1 by lia. change (1 =? 1) with true. cbv iota. destruct (to_listoffset w true _ _ _ _ Dx eq_refl) as (o' & c'' & E & D & O0). rewrite E. cbn [bind].
      destruct (list_inv _ _ _ _ D eq_refl) as (ws & _ & _ & Evs). rewrite Evs in D. destruct (listoffset0_inv _ _ _ D (O0 eq_refl)) as (Eo & tail & Hc). rewrite Evs.
      set (segs := map (seg ws) (pairs o')) in *. clearbody segs. rewrite Eo. rewrite zlen_offsets_of. replace (_ + 1 - 1) with (zlen (map (@zlen value) segs)) by lia.
      rewrite rd_offsets_last, <- zlen_concat. cbn [bind]. pose proof (zlen_nonneg (concat segs)). pose proof (zlen_nonneg tail).
      destruct (range_den _ _ 0 (zlen (concat segs)) Hc ltac:(lia)) as (c' & Er & Dr); [rewrite zlen_app; lia|]. rewrite Er. cbn [bind]. do 2 eexists. split; [reflexivity|].
      assert (Ei : map items (map VList segs) = segs) by (rewrite map_map; apply map_id). unfold flattened. change (1 =? 1) with true. cbv iota. rewrite Ei. split; [reflexivity|]. rewrite Dr, slice_app. reflexivity.
    - destruct (Z.eqb_spec (axis - depth) 1); [lia|]. cbn [flat_ok] in Zx. destruct (Z.eqb_spec (axis - depth) 1); [lia|]. destruct Zx as [HF Zx]. destruct (content_inv1 _ _ Dx) as [ws Hws]. cbn [below] in Hws. pose proof (need_bound x).
      assert (G : flat_outcome (axis - (depth + 1)) (form_of x) ws (offsets_and_flattened is64 fuel x axis (depth + 1))).
      { apply IH; try assumption; try lia. replace (axis - (depth + 1)) with (axis - depth - 1) by lia. exact Zx. }
      replace (axis - (depth + 1)) with (axis - depth - 1) in G by lia. unfold flat_outcome in G. destruct (flattens (axis - depth - 1) (form_of x)).
      + destruct G as (o' & c' & -> & -> & Hc'). cbn [bind]. rewrite (den_length _ _ Hws) in HF. unfold flattened in Hc' |- *. destruct (Z.eqb_spec (axis - depth) 1); [lia|]. destruct (Z.eqb_spec (axis - depth - 1) 1) as [E1|E1].
        * rewrite E1. pose proof (nested_den _ _ _ _ _ Hws Dx HF Hc') as D. set (ns := map zlen (map items ws)) in *. assert (Hns : zlen ns = zlen ws) by (unfold ns; rewrite !zlen_map; reflexivity). pose proof (zlen_nonneg ws).
          rewrite zlen_offsets_of. destruct (Z.eqb_spec (zlen ns + 1) 0); [lia|]. destruct (Z.eqb_spec (zlen o) 1) as [Ho|Ho].
          -- rewrite iview_Ok by (rewrite ?zlen_offsets_of; lia). cbn [bind]. rewrite (slice_cons_nth 0 1 (offsets_of ns) 0) by (lia || apply nthZ_offsets_0). rewrite slice_nil. cbn [mkListOffset]. change (mkListOffset [0] c') with (Ok (ListOffset [0] c')). cbn [bind].
             do 2 eexists. split; [reflexivity|]. split; [reflexivity|]. destruct o as [|z [|z' o]]; rewrite ?zlen_cons in Ho; [discriminate| |pose proof (zlen_nonneg o); lia].
             cbn [den] in *. rewrite Hws in Dx. rewrite Hc'. cbn in Dx |- *. injection Dx as <-. reflexivity.
          -- assert (EO : omap (nthZ (offsets_of ns)) o = Some (map (fun i => sumZ (slice 0 i ns)) o)).
             { rewrite <- omap_Some_map. apply omap_ext. intros i Hi. rewrite Forall_forall in HF. apply nthZ_offsets_of. rewrite Hns. apply HF. exact Hi. }
             rewrite (flatten_offsets_kernel _ _ _ EO). cbn [bind]. rewrite (mkListOffset_den _ _ _ D). cbn [bind]. do 2 eexists. split; [reflexivity|]. split; [reflexivity|exact D].
        * change (zlen (@nil Z) =? 0) with true. cbv iota.
          pose proof (nat_listoffset (lift flat (axis - depth - 1 - 1)) (lift flat (axis - depth - 1)) _ _ _ _ _ (fun l => lift_list flat (axis - depth - 1) l E1) Hws Hc' Dx) as D.
          rewrite (mkListOffset_den _ _ _ D). cbn [bind]. do 2 eexists. split; [reflexivity|]. split; [reflexivity|exact D].
      + intros Hdef. destruct (G Hdef) as (m & ->). exists m. reflexivity. }
  destruct c; cbn [offsets_and_flattened]; try (rewrite Hw; cbn [bind]; (destruct (Z.eqb_spec axis depth); [lia|])); cbn [need bound] in Hf.
  - cbn [den] in Hd. injection Hd as <-. unfold flat_outcome. cbn [form_of flattens definite]. destruct (Z.eqb_spec (axis - depth) 1) as [->|E]; [|discriminate]. do 2 eexists. split; [reflexivity|]. split; reflexivity.
  - intros _. eexists. reflexivity.
  - (* ListA *) destruct (to_listoffset (is64 (ListA starts stops c)) true _ _ _ _ Hd eq_refl) as (o & c'' & E & D & O0). rewrite E. cbn [bind].
    destruct (tolistoffset_same _ _ _ _ E) as (o' & x & Eq & S1 & S2). injection Eq as <- <-. cbn [form_of bound] in S1, S2. injection S1 as S1. injection S2 as S2. cbn [form_of]. rewrite <- S1.
    apply LO; [exact D|lia|]. cbn [flat_ok] in HZ |- *. destruct (axis - depth =? 1); [exact I|]. split; [exact (offsets_inside _ _ _ D (O0 eq_refl))|]. eapply tolistoffset_fok; [|exact HZ|exact E]. reflexivity.
  - (* ListOffset *) cbn [form_of]. pose proof (LO (is64 (ListOffset offsets c)) offsets c Hd ltac:(lia) HZ) as G. rewrite Hw in G. cbn [bind] in G. destruct (Z.eqb_spec axis depth); [lia|exact G].
  - (* Regular *) destruct (to_listoffset (is64 (Regular size zeros_length c)) true _ _ _ _ Hd eq_refl) as (o & c'' & E & D & O0). rewrite E. cbn [bind].
    destruct (tolistoffset_same _ _ _ _ E) as (o' & x & Eq & S1 & S2). injection Eq as <- <-. cbn [form_of bound] in S1, S2. injection S1 as S1. injection S2 as S2. cbn [form_of]. rewrite <- S1.
    apply LO; [exact D|lia|]. cbn [flat_ok] in HZ |- *. destruct (axis - depth =? 1); [exact I|]. split; [exact (offsets_inside _ _ _ D (O0 eq_refl))|]. eapply tolistoffset_fok; [|exact HZ|exact E]. reflexivity.
  - (* Indexed *) destruct (project_indexed _ _ _ Hd) as (p & E & Hp & F & B). rewrite E. cbn [bind]. cbn [form_of]. rewrite <- F. cbn [flat_ok] in HZ. apply IH; [|exact Hp|exact Ha|].
    + pose proof (project_need _ _ _ E) as PN. cbn [need bound] in PN. lia.
    + cbn [project] in E. binv E. eapply carry_fok; [exact HZ|exact E].
  - cbn [flat_ok form_of] in *. destruct (content_inv1 _ _ Hd) as [ws Hws]. apply (flatten_option_good _ _ _ _ _ ws); [exact Hws|lia|exact (indexedoption_nextcarry' _ _ _ _ Hws Hd)|].
    intros nc next ws' E Hn. destruct (carry_same _ _ _ _ E) as [F B]. cbn [flattens]. rewrite <- F.
    pose proof (need_bound next). apply IH; [lia|exact Hn|exact Ha|exact (carry_fok _ _ _ _ _ HZ E)].
  - cbn [flat_ok form_of] in *. destruct (content_inv1 _ _ Hd) as [ws Hws]. apply (flatten_option_good _ _ _ _ _ ws); [exact Hws|lia|exact (bytemasked_nextcarry' _ _ _ _ _ Hws Hd)|].
    intros nc next ws' E Hn. destruct (carry_same _ _ _ _ E) as [F B]. cbn [flattens]. rewrite <- F.
    pose proof (need_bound next). apply IH; [lia|exact Hn|exact Ha|exact (carry_fok _ _ _ _ _ HZ E)].
  - destruct (to_byte_masked _ _ Hd) as (m & vw' & c' & E & Hd' & _); [left; eauto 8|].
    assert (c' = c) as ->. { pose proof E as E'. cbn [toByteMaskedArray] in E'. binv E'. mkinv E'. congruence. } rewrite E. cbn [bind].
    cbn [flat_ok form_of] in *. destruct (content_inv1 _ _ Hd') as [ws Hws]. apply (flatten_option_good _ _ _ _ _ ws); [exact Hws|lia|exact (bytemasked_nextcarry' _ _ _ _ _ Hws Hd')|].
    intros nc next ws' E2 Hn. destruct (carry_same _ _ _ _ E2) as [F B]. cbn [flattens]. rewrite <- F.
    pose proof (need_bound next). apply IH; [lia|exact Hn|exact Ha|exact (carry_fok _ _ _ _ _ HZ E2)].
  - (* Unmasked *) cbn [den] in Hd. cbn [flat_ok] in HZ. pose proof (need_bound c). pose proof (IH c axis depth vs ltac:(lia) Hd Ha HZ) as G. unfold flat_outcome in *. cbn [form_of flattens definite]. destruct (flattens (axis - depth) (form_of c)).
    + destruct G as (o & c' & -> & Ho & Hc'). cbn [bind]. destruct (zlen o =? 0); do 2 eexists; (split; [reflexivity|]); (split; [exact Ho|exact Hc']).
    + intros Hdef. destruct (G Hdef) as (m & ->). exists m. reflexivity.
  - (* Record *) unfold flat_outcome. cbn [form_of flattens definite]. destruct (Z.eqb_spec axis (depth + 1)) as [->|Hne].
    { replace (depth + 1 - depth) with 1 by lia. change (1 =? 1) with true. cbn [negb andb]. intros _. eexists. reflexivity. }
    destruct (Z.eqb_spec (axis - depth) 1); [lia|]. cbn [negb andb]. destruct (record_inv _ _ _ _ Hd) as [vss Hvss]. rewrite !forallb_map. cbn [flat_ok] in HZ. destruct HZ as [Hne0 HZ]. rewrite fok_all, Forall_forall in HZ.
    match goal with |- context [mapres ?F contents] => pose proof (record_mapres F (axis - depth) length contents vss Hvss) as G end.
    destruct (forallb (fun c => flattens (axis - depth) (form_of c)) contents).
    + destruct G as (cs' & -> & A & B).
      { intros x us Hin Hx. destruct (omap_In _ _ _ _ Hvss Hin) as (us' & Hx' & Hus). rewrite Hx in Hx'. injection Hx' as <-. pose proof (record_lengths _ _ _ _ _ _ Hvss Hd Hus) as Hlen.
        destruct (trimmed_range _ _ length Hx Hlen) as (x' & Ex & Dx). rewrite Ex. cbn [bind]. destruct (range_same _ _ _ _ Ex) as [F Bd]. pose proof (need_bound x'). pose proof (maxl_In _ _ (in_map bound _ _ Hin)).
        pose proof (IH x' axis depth _ ltac:(lia) Dx Ha (range_fok _ _ _ _ _ (HZ _ Hin) Ex)) as G. unfold flat_outcome in G. rewrite F in G. destruct (flattens (axis - depth) (form_of x)).
        - destruct G as (o & c' & -> & -> & Dc'). cbn [bind]. destruct (Z.eqb_spec (axis - depth) 1); [lia|]. change (negb (zlen (@nil Z) =? 0)) with false. cbv iota. eauto.
        - intros Hdef. destruct (G Hdef) as (m & ->). exists m. reflexivity. }
      cbn [bind]. unfold flattened in *. destruct (Z.eqb_spec (axis - depth) 1); [lia|].
      assert (Hlen : match cs' with [] => 0 | _ => minlength cs' end = length).
      { destruct cs' as [|c0 cs''] eqn:Ecs; [destruct contents; [contradiction|rewrite zlen_cons in B; change (zlen (@nil content)) with 0 in B; pose proof (zlen_nonneg contents); lia]|]. rewrite <- Ecs in *.
        destruct contents as [|x0 xs]; [contradiction|]. destruct (omap_In _ _ _ x0 Hvss (or_introl eq_refl)) as (us0 & _ & Hus0). pose proof (record_lengths _ _ _ _ _ _ Hvss Hd Hus0).
        apply minlength_const; [rewrite Ecs; discriminate|lia|]. intros y Hy. destruct (omap_In _ _ _ _ A Hy) as (ys & Dy & Hys). rewrite (den_length _ _ Dy). rewrite map_map in Hys. apply in_map_iff in Hys as (us & <- & Hus).
        pose proof (record_lengths _ _ _ _ _ _ Hvss Hd Hus). rewrite zlen_map, zlen_slice by lia. lia. }
      rewrite Hlen. assert (DR : den (Record keys length cs') = Some (map (lift flat (axis - depth - 1)) vs)).
      { cbn [den] in Hd |- *. rewrite Hvss in Hd. rewrite A, B. destruct ((0 <=? length) && keys_ok keys (zlen contents)) eqn:Ek; [|discriminate].
        replace (Some (map (lift flat (axis - depth - 1)) vs)) with (option_map (map (lift flat (axis - depth - 1))) (omap (fun i => option_map (mkrow keys) (omap (fun vs => nthZ vs i) vss)) (zseq 0 length))) by (rewrite Hd; reflexivity).
        rewrite <- omap_option_map. apply omap_ext. intros i Hi. apply In_zseq in Hi. rewrite map_map, omap_map.
        rewrite (omap_ext _ (fun us => option_map (lift flat (axis - depth - 1)) (nthZ us i))) by (intros us _; rewrite nthZ_map, nthZ_slice by lia; reflexivity).
        rewrite omap_option_map. destruct (omap (fun vs0 => nthZ vs0 i) vss); cbn [option_map]; [rewrite lift_row|]; reflexivity. }
      assert (MK : mkRecord keys length cs' = Ok (Record keys length cs')).
      { unfold mkRecord. destruct keys as [ks|]; [|reflexivity]. cbn [den] in Hd. rewrite Hvss in Hd. cbn [keys_ok] in Hd. rewrite B. destruct (zlen ks =? zlen contents); [reflexivity|]. rewrite andb_false_r in Hd. discriminate. }
      rewrite MK. cbn [bind]. do 2 eexists. split; [reflexivity|]. split; [reflexivity|exact DR].
    + intros Hdef. destruct G as (m & ->); [|exact Hdef|exists m; reflexivity].
      intros x us Hin Hx. destruct (omap_In _ _ _ _ Hvss Hin) as (us' & Hx' & Hus). rewrite Hx in Hx'. injection Hx' as <-. pose proof (record_lengths _ _ _ _ _ _ Hvss Hd Hus) as Hlen.
      destruct (trimmed_range _ _ length Hx Hlen) as (x' & Ex & Dx). rewrite Ex. cbn [bind]. destruct (range_same _ _ _ _ Ex) as [F Bd]. pose proof (need_bound x'). pose proof (maxl_In _ _ (in_map bound _ _ Hin)).
      pose proof (IH x' axis depth _ ltac:(lia) Dx Ha (range_fok _ _ _ _ _ (HZ _ Hin) Ex)) as G. unfold flat_outcome in G. rewrite F in G. destruct (flattens (axis - depth) (form_of x)).
      * destruct G as (o & c' & -> & -> & Dc'). cbn [bind]. destruct (Z.eqb_spec (axis - depth) 1); [lia|]. change (negb (zlen (@nil Z) =? 0)) with false. cbv iota. eauto.
      * intros Hdef'. destruct (G Hdef') as (m & ->). exists m. reflexivity.
  - (* Union *) unfold flat_outcome. cbn [form_of flattens definite]. destruct (union_inv _ _ _ _ Hd) as [vss Hvss]. rewrite !forallb_map. cbn [flat_ok] in HZ. rewrite fok_all, Forall_forall in HZ.
    pose proof (flatten_mapres (fun x => offsets_and_flattened is64 fuel x axis depth) (axis - depth) contents vss Hvss) as G.
    assert (HI : forall x us, In x contents -> den x = Some us -> flat_outcome (axis - depth) (form_of x) us (offsets_and_flattened is64 fuel x axis depth)).
    { intros x us Hin Hx. pose proof (need_bound x). pose proof (maxl_In _ _ (in_map bound _ _ Hin)). apply IH; [lia|exact Hx|exact Ha|apply HZ; exact Hin]. }
    specialize (G HI). destruct (forallb (fun c => flattens (axis - depth) (form_of c)) contents).
    + destruct G as (ps & -> & A & B & C). cbn [bind]. pose proof Hd as Hd0. cbn [den] in Hd0. rewrite Hvss in Hd0. destruct (Z.leb_spec 1 (zlen contents)) as [Hc1|]; [|discriminate]. destruct (Z.leb_spec (zlen tags) (zlen index)) as [Hti|]; [|discriminate]. cbn [andb] in Hd0.
      rewrite A. assert (Hv1 : 1 <= zlen vss) by (rewrite (omap_zlen _ _ _ Hvss); lia). assert (Hvne : vss <> []) by (intros ->; change (zlen (@nil (list value))) with 0 in Hv1; lia).
      destruct (Z.eqb_spec (axis - depth) 1) as [E1|E1].
      * rewrite (has_offsets_const _ true).
        2: { intros E; apply map_eq_nil in E; contradiction. }
        2: { intros o Ho. apply in_map_iff in Ho as (us & <- & _). rewrite zlen_offsets_of, !zlen_map. pose proof (zlen_nonneg us). destruct (Z.eqb_spec (zlen us + 1) 0); [lia|reflexivity]. }
        destruct (union_flat tags index vss vs Hd0) as (U1 & U2 & U3). rewrite (union_length_kernel _ _ _ U1 Hti). cbn [bind]. rewrite (union_combine_kernel _ _ _ U1 Hti). cbn [bind]. rewrite U2.
        assert (DU : forall T X, omap (fun ti => match nthZ (map (fun us => concat (map items us)) vss) (fst ti) with Some us => nthZ us (snd ti) | None => None end) (combine T X) = Some (concat (map items vs)) -> zlen T <= zlen X ->
                   mkUnion T X (map snd ps) = Ok (Union T X (map snd ps)) /\ den (Union T X (map snd ps)) = Some (concat (map items vs))).
        { intros T X HO HL. split.
          - unfold mkUnion. assert (zlen (map snd ps) = zlen contents) as Hz by (rewrite zlen_map; exact C). destruct (map snd ps); [change (zlen (@nil content)) with 0 in Hz; lia|]. destruct (Z.ltb_spec (zlen X) (zlen T)); [lia|reflexivity].
          - cbn [den]. rewrite B, zlen_map, C. unfold flattened. destruct (Z.eqb_spec (axis - depth) 1); [|lia]. destruct (Z.leb_spec 1 (zlen contents)); [|lia]. destruct (Z.leb_spec (zlen T) (zlen X)); [|lia]. exact HO. }
        match type of U3 with omap _ (combine ?T ?X) = _ => destruct (DU T X U3) as [MK DD] end.
        { rewrite !zlen_concat, !map_map. apply Z.eq_le_incl. f_equal. apply map_ext. intros ti. apply zlen_map. }
        rewrite MK. cbn [bind]. do 2 eexists. split; [reflexivity|]. split; [reflexivity|]. unfold flattened. destruct (Z.eqb_spec (axis - depth) 1); [exact DD|lia].
      * rewrite (has_offsets_const _ false).
        2: { intros E; apply map_eq_nil in E; contradiction. }
        2: { intros o Ho. apply in_map_iff in Ho as (us & <- & _). reflexivity. }
        pose proof B as B'. rewrite (map_ext (flattened (axis - depth)) (map (lift flat (axis - depth - 1)))) in B' by (intros us; unfold flattened; destruct (Z.eqb_spec (axis - depth) 1); [lia|reflexivity]).
        pose proof (nat_union (lift flat (axis - depth - 1)) tags index contents (map snd ps) vss vs Hvss B' ltac:(rewrite zlen_map; exact C) Hd) as DU.
        assert (MK : mkUnion tags index (map snd ps) = Ok (Union tags index (map snd ps))).
        { unfold mkUnion. assert (zlen (map snd ps) = zlen contents) as Hz by (rewrite zlen_map; exact C). destruct (map snd ps); [change (zlen (@nil content)) with 0 in Hz; lia|]. destruct (Z.ltb_spec (zlen index) (zlen tags)); [lia|reflexivity]. }
        rewrite MK. cbn [bind]. do 2 eexists. split; [reflexivity|]. split; [reflexivity|]. unfold flattened. destruct (Z.eqb_spec (axis - depth) 1); [lia|exact DU].
    + intros Hdef. destruct (G Hdef) as (m & ->). exists m. reflexivity.
Qed.
End Flatten.
