(** Proofs about the kernels of slices with several items. *)
From Verif Require Import Base BaseLemmas LoopLemmas OmapLemmas Content KCore Core KRange KGetitem SpecArray SpecSlice PCore PRange PCarry PList.
From Verif Require Import Getitem SpecGetitem.

Lemma for_omap {X Y S} (xs : list X) (f : X -> option Y) (P : list Y -> S -> Prop) (body : Z -> S -> res S) n s :
  n = zlen xs -> P [] s ->
  (forall d x r ys t, d ++ x :: r = xs -> omap f d = Some ys -> P ys t ->
     match f x with Some y => exists t', body (zlen d) t = Ok t' /\ P (ys ++ [y]) t' | None => exists m, body (zlen d) t = Err m end) ->
  match omap f xs with Some ys => exists t, for_ 0 n body s = Ok t /\ P ys t | None => exists m, for_ 0 n body s = Err m end.
Proof.
  intros -> H0 Hs.
  assert (G : forall r d ys t, d ++ r = xs -> omap f d = Some ys -> P ys t ->
    match omap f r with Some zs => exists t', for_ (zlen d) (zlen xs) body t = Ok t' /\ P (ys ++ zs) t' | None => exists m, for_ (zlen d) (zlen xs) body t = Err m end).
  { induction r as [|x r IH]; intros d ys t Hd Ho HP.
    - cbn [omap]. rewrite app_nil_r in Hd. subst d. rewrite app_nil_r. exists t. rewrite for_nil by lia. auto.
    - assert (Hlt : zlen d < zlen xs) by (rewrite <- Hd, zlen_app, zlen_cons; pose proof (zlen_nonneg r); lia).
      rewrite for_step by exact Hlt. cbn [omap]. specialize (Hs d x r ys t Hd Ho HP). destruct (f x) as [y|] eqn:Ef.
      + destruct Hs as (t' & -> & HP'). cbn [bind]. specialize (IH (d ++ [x]) (ys ++ [y]) t').
        rewrite <- app_assoc in IH. specialize (IH Hd). rewrite (omap_app_Some f d [x] ys [y]) in IH; [|exact Ho|simpl; now rewrite Ef].
        specialize (IH eq_refl HP'). rewrite zlen_app in IH. change (zlen [x]) with 1 in IH.
        destruct (omap f r) as [zs|]; [|exact IH]. rewrite <- app_assoc in IH. exact IH.
      + destruct Hs as (m & ->). exists m. reflexivity. }
  exact (G xs [] [] s eq_refl eq_refl H0).
Qed.

Ltac conc_type T := lazymatch T with ?A -> ?B => conc_type B | _ => T end.
Ltac concl G G' := let T := type of G in let C := conc_type T in assert (G' : C).

Lemma regular_at_wrap i n : regular_at i n = match wrap i n with Some k => Ok k | None => Err "index out of range" end.
Proof. unfold regular_at, wrap. destruct (_ && _); reflexivity. Qed.
Lemma wrap_range i n k : wrap i n = Some k -> 0 <= k < n.
Proof. unfold wrap. destruct (Z.leb_spec 0 (if i <? 0 then i + n else i)); [|discriminate]. destruct (Z.ltb_spec (if i <? 0 then i + n else i) n); [|discriminate]. intros [= <-]. lia. Qed.
Definition at_pos (i : Z) (ab : Z * Z) : option Z := option_map (Z.add (fst ab)) (wrap i (diff ab)).
Lemma elem_pos ws ab i : sub_ok (zlen ws) ab = true ->
  elem (seg ws ab) i = match at_pos i ab with Some p => nthZ ws p | None => None end.
Proof.
  intros Hs. unfold elem, at_pos. rewrite (zlen_seg _ _ Hs). destruct (wrap i (diff ab)) as [k|] eqn:W; [|reflexivity]. cbn [option_map].
  apply wrap_range in W. unfold seg, diff in *. unfold sub_ok in Hs. apply nthZ_slice; [|lia]. lia.
Qed.
Lemma at_pos_in (ws : list value) ab i p : sub_ok (zlen ws) ab = true -> at_pos i ab = Some p -> exists x, nthZ ws p = Some x.
Proof.
  intros Hs. unfold at_pos. destruct (wrap i (diff ab)) as [k|] eqn:W; [|discriminate]. intros [= <-].
  apply wrap_range in W. unfold diff in W. unfold sub_ok in Hs. apply nthZ_lt. lia.
Qed.

Ltac combine_at Hd Ha Hb := destruct (combine_mid _ _ _ _ _ _ Hd) as [Ha Hb]; apply rd_Ok in Ha, Hb.

Lemma list_at_spec starts stops i n out : zlen starts <= zlen stops -> n = zlen starts -> zlen out = n ->
  match omap (at_pos i) (combine starts stops) with
  | Some nc => awkward_ListArray_getitem_next_at out starts stops n i = Ok nc
  | None => exists m, awkward_ListArray_getitem_next_at out starts stops n i = Err m
  end.
Proof.
  intros Hl -> Ho. unfold awkward_ListArray_getitem_next_at.
  match goal with |- context [for_ 0 _ ?body _] =>
    pose proof (for_omap (combine starts stops) (at_pos i) (fun ys t => exists r, t = ys ++ r /\ zlen r + zlen ys = zlen starts) body (zlen starts) out) as G end.
  concl G G'.
  { apply G; clear G; [symmetry; apply zlen_combine_le; exact Hl|exists out; rewrite zlen_nil; split; [reflexivity|lia]|].
    intros d [a b] r ys t Hd Hys (rr & -> & Hr). combine_at Hd Ha Hb. rewrite Ha, Hb. cbn [bind]. rewrite regular_at_wrap. unfold at_pos, diff. cbn [fst snd].
    destruct (wrap i (b - a)) as [k|]; cbn [option_map bind]; [|eauto].
    assert (0 < zlen rr) as Hpos. { pose proof (omap_zlen _ _ _ Hys). pose proof (zlen_combine_le starts stops Hl) as Hc. rewrite <- Hd, zlen_app, zlen_cons in Hc. pose proof (zlen_nonneg r). lia. }
    destruct (wr_push' ys rr (a + k) Hpos) as (r' & Hw & Hz). rewrite <- (omap_zlen _ _ _ Hys), Hw. eexists; split; [reflexivity|]. exists r'. split; [reflexivity|]. rewrite zlen_app. change (zlen [a + k]) with 1. lia. }
  clear G. destruct (omap (at_pos i) (combine starts stops)) as [nc|] eqn:E; [|exact G'].
  destruct G' as (t & Ht & r & -> & Hr). rewrite Ht. f_equal. apply omap_zlen in E. rewrite zlen_combine_le in E by exact Hl. rewrite (zlen_0 r); [apply app_nil_r|lia].
Qed.

(** the pairs of a RegularArray *)
Definition regs (size n : Z) : list (Z * Z) := map (fun i => (i * size, (i + 1) * size)) (zseq 0 n).
Lemma zlen_regs size n : 0 <= n -> zlen (regs size n) = n.
Proof. intros; unfold regs. rewrite zlen_map, zlen_zseq by lia. lia. Qed.
Lemma regs_at_pos size n i ab : In ab (regs size n) -> at_pos i ab = option_map (Z.add (fst ab)) (wrap i size).
Proof. unfold regs. rewrite in_map_iff. intros (j & <- & _). unfold at_pos, diff. cbn [fst snd]. now replace ((j + 1) * size - j * size) with size by lia. Qed.
Lemma regular_at_spec i n size out : 0 <= n -> zlen out = n ->
  match wrap i size with
  | Some k => exists nc, awkward_RegularArray_getitem_next_at out i n size = Ok nc /\ omap (at_pos i) (regs size n) = Some nc
  | None => exists m, awkward_RegularArray_getitem_next_at out i n size = Err m
  end.
Proof.
  intros Hn Ho. unfold awkward_RegularArray_getitem_next_at. rewrite regular_at_wrap. destruct (wrap i size) as [k|] eqn:W; cbn [bind]; [|eauto].
  rewrite (for_fill_all _ (fun j => j * size + k)); [|exact Ho|reflexivity]. eexists; split; [reflexivity|].
  rewrite (omap_ext _ (fun ab => Some (fst ab + k))); [|intros ab Hab; rewrite (regs_at_pos _ _ _ _ Hab), W; reflexivity].
  rewrite omap_Some_map. unfold regs. rewrite map_map. reflexivity.
Qed.

(** index arrays *)
Definition arr_pos (index : list Z) (ab : Z * Z) : option (list Z) := omap (fun x => at_pos x ab) index.
Lemma inner_array ab (index : list Z) tc ta d1 d2 i n (body : Z -> list Z * list Z -> res (list Z * list Z)) :
  n = zlen index -> n <= zlen tc -> zlen tc = zlen ta -> zlen d1 = i * n -> zlen d2 = i * n ->
  (forall j x tc ta, nthZ index j = Some x -> body j (tc, ta) =
     match at_pos x ab with Some p => let* tc := wr tc (i * n + j) p in let* ta := wr ta (i * n + j) j in Ok (tc, ta) | None => Err "index out of range" end) ->
  match arr_pos index ab with
  | Some ps => exists tc' ta', for_ 0 n body (d1 ++ tc, d2 ++ ta) = Ok ((d1 ++ ps) ++ tc', (d2 ++ zseq 0 n) ++ ta') /\ zlen tc = n + zlen tc' /\ zlen ta = n + zlen ta'
  | None => exists m, for_ 0 n body (d1 ++ tc, d2 ++ ta) = Err m
  end.
Proof.
  intros Hn Hc Ha H1 H2 Hb. unfold arr_pos.
  pose proof (for_omap index (fun x => at_pos x ab) (fun ys t => exists tc' ta', t = ((d1 ++ ys) ++ tc', (d2 ++ zseq 0 (zlen ys)) ++ ta') /\ zlen tc = zlen ys + zlen tc' /\ zlen ta = zlen ys + zlen ta') body n (d1 ++ tc, d2 ++ ta) Hn) as G.
  concl G G'.
  { apply G; clear G.
    - exists tc, ta. change (zlen (@nil Z)) with 0. rewrite zseq_nil by lia. rewrite !app_nil_r. repeat split; lia.
    - intros d x r ys t Hd Hys (tc' & ta' & -> & L1 & L2). rewrite (Hb _ x) by (rewrite <- Hd; apply nthZ_mid). pose proof (omap_zlen _ _ _ Hys) as Hz.
      destruct (at_pos x ab) as [p|]; [|eauto].
      assert (Hi : zlen index = zlen d + zlen r + 1) by (rewrite <- Hd, zlen_app, zlen_cons; lia). pose proof (zlen_nonneg r).
      destruct (wr_push' (d1 ++ ys) tc' p ltac:(lia)) as (tc'' & W1 & Z1). destruct (wr_push' (d2 ++ zseq 0 (zlen ys)) ta' (zlen d) ltac:(lia)) as (ta'' & W2 & Z2).
      rewrite zlen_app, H1, Hz in W1. rewrite zlen_app, H2, zlen_zseq, Hz in W2 by (pose proof (zlen_nonneg ys); lia). replace (i * n + (zlen d - 0)) with (i * n + zlen d) in W2 by lia.
      rewrite Hz, W1. cbn [bind]. rewrite W2. cbn [bind]. eexists; split; [reflexivity|]. exists tc'', ta''. rewrite zlen_app. change (zlen [p]) with 1. rewrite zseq_snoc by (pose proof (zlen_nonneg ys); lia).
      rewrite Hz, !app_assoc. repeat split; lia. }
  clear G. destruct (omap (fun x => at_pos x ab) index) as [ys|] eqn:E; [|exact G'].
  apply omap_zlen in E. destruct G' as (t & Ht & tc' & ta' & -> & L1 & L2). exists tc', ta'. rewrite Ht, E, <- Hn. repeat split; lia.
Qed.
Lemma concat_const_map {A B} (l : list A) (x : list B) : zlen (concat (map (fun _ => x) l)) = zlen l * zlen x.
Proof. rewrite (zlen_concat_const _ (zlen x)); [now rewrite zlen_map|]. intros y Hy. apply in_map_iff in Hy. destruct Hy as (_ & <- & _). reflexivity. Qed.
Lemma arr_pos_zlen index ab ps : arr_pos index ab = Some ps -> zlen ps = zlen index.
Proof. apply omap_zlen. Qed.
Lemma concat_pos_zlen index l pss : omap (arr_pos index) l = Some pss -> zlen (concat pss) = zlen l * zlen index.
Proof.
  intros H. rewrite (zlen_concat_const _ (zlen index)); [now rewrite (omap_zlen _ _ _ H)|]. intros ps Hp. apply In_nthZ in Hp. destruct Hp as (i & Hi).
  destruct (omap_nth' _ _ _ _ _ H Hi) as (ab & _ & E). exact (arr_pos_zlen _ _ _ E).
Qed.
Lemma outer_array {X} (xs : list X) (f : X -> Z * Z) (index tc ta : list Z) n m (body : Z -> list Z * list Z -> res (list Z * list Z)) :
  n = zlen xs -> m = zlen index -> zlen tc = n * m -> zlen ta = n * m ->
  (forall d x r d1 tc d2 ta, d ++ x :: r = xs -> zlen d1 = zlen d * m -> zlen d2 = zlen d * m -> m <= zlen tc -> zlen tc = zlen ta ->
    match arr_pos index (f x) with
    | Some ps => exists tc' ta', body (zlen d) (d1 ++ tc, d2 ++ ta) = Ok ((d1 ++ ps) ++ tc', (d2 ++ zseq 0 m) ++ ta') /\ zlen tc = m + zlen tc' /\ zlen ta = m + zlen ta'
    | None => exists e, body (zlen d) (d1 ++ tc, d2 ++ ta) = Err e
    end) ->
  match omap (fun x => arr_pos index (f x)) xs with
  | Some pss => for_ 0 n body (tc, ta) = Ok (concat pss, concat (map (fun _ => zseq 0 m) xs))
  | None => exists e, for_ 0 n body (tc, ta) = Err e
  end.
Proof.
  intros Hn Hm H1 H2 Hb. pose proof (zlen_nonneg index) as Hm0.
  pose proof (for_omap xs (fun x => arr_pos index (f x)) (fun pss t => exists tc' ta', t = (concat pss ++ tc', concat (map (fun _ => zseq 0 m) pss) ++ ta') /\ zlen (concat pss) = zlen pss * m /\
     zlen tc' + zlen pss * m = n * m /\ zlen ta' + zlen pss * m = n * m) body n (tc, ta) Hn) as G.
  concl G G'.
  { apply G; clear G.
    - exists tc, ta. cbn [concat map app]. change (zlen (@nil Z)) with 0. change (zlen (@nil (list Z))) with 0. repeat split; lia.
    - intros d x r pss t Hd Hp (tc' & ta' & -> & L0 & L1 & L2). pose proof (omap_zlen _ _ _ Hp) as Hz.
      assert (Hi : n = zlen d + zlen r + 1) by (rewrite Hn, <- Hd, zlen_app, zlen_cons; lia). pose proof (zlen_nonneg r).
      assert (L3 : zlen (concat (map (fun _ : list Z => zseq 0 m) pss)) = zlen pss * m) by (rewrite concat_const_map, zlen_zseq by lia; lia).
      specialize (Hb d x r (concat pss) tc' (concat (map (fun _ => zseq 0 m) pss)) ta' Hd).
      rewrite L0, L3, Hz in Hb. specialize (Hb eq_refl eq_refl ltac:(nia) ltac:(lia)).
      destruct (arr_pos index (f x)) as [ps|] eqn:Ep; [|exact Hb]. destruct Hb as (tc'' & ta'' & -> & M1 & M2). eexists; split; [reflexivity|].
      exists tc'', ta''. rewrite map_app, !concat_app. cbn [map concat]. rewrite !app_nil_r. split; [reflexivity|]. rewrite zlen_app. pose proof (arr_pos_zlen _ _ _ Ep). rewrite zlen_app. change (zlen [ps]) with 1. repeat split; nia. }
  clear G. destruct (omap (fun x => arr_pos index (f x)) xs) as [pss|] eqn:E; [|exact G']. destruct G' as (t & -> & tc' & ta' & -> & L0 & L1 & L2).
  apply omap_zlen in E. rewrite (zlen_0 tc'), (zlen_0 ta') by nia. rewrite !app_nil_r. f_equal. f_equal. f_equal.
  apply list_eqZ; rewrite !zlen_map; [lia|]. intros i Hi. rewrite !nthZ_map. destruct (nthZ_lt pss i) as [? ->]; [lia|]. destruct (nthZ_lt xs i) as [? ->]; [lia|]. reflexivity.
Qed.

Lemma list_array_spec starts stops index len n tc ta : zlen starts <= zlen stops -> n = zlen starts -> zlen tc = n * zlen index -> zlen ta = n * zlen index ->
  forallb (sub_ok len) (combine starts stops) = true ->
  match omap (arr_pos index) (combine starts stops) with
  | Some pss => awkward_ListArray_getitem_next_array tc ta starts stops index n (zlen index) len
      = Ok (concat pss, concat (map (fun _ => zseq 0 (zlen index)) (combine starts stops)))
  | None => exists m, awkward_ListArray_getitem_next_array tc ta starts stops index n (zlen index) len = Err m
  end.
Proof.
  intros Hl -> H1 H2 Hs. unfold awkward_ListArray_getitem_next_array. rewrite <- (zlen_combine_le starts stops) in * by exact Hl.
  apply (outer_array (combine starts stops) (fun ab => ab)); [reflexivity|reflexivity|exact H1|exact H2|].
  intros d [a b] r d1 tc' d2 ta' Hd L1 L2 L3 L4. combine_at Hd Ha Hb. rewrite Ha, Hb. cbn [bind].
  assert (sub_ok len (a, b) = true) as Hab. { rewrite forallb_forall in Hs. apply Hs. rewrite <- Hd. apply in_or_app; right; left; reflexivity. }
  unfold sub_ok in Hab. cbn [fst snd] in Hab.
  destruct (Z.ltb_spec b a); [exfalso; lia|]. destruct (negb (a =? b) && (len <? b)) eqn:E; [exfalso; lia|].
  apply (inner_array (a, b) _ _ _ _ _ (zlen d)); [reflexivity|exact L3|exact L4|exact L1|exact L2|].
  intros j x t0 t1 Hx. apply rd_Ok in Hx. rewrite Hx. cbn [bind]. rewrite regular_at_wrap. unfold at_pos, diff. cbn [fst snd]. destruct (wrap x (b - a)); reflexivity.
Qed.
(** the advanced version: row i uses the entry [adv i] of the index array *)
Definition adv_pos (index : list Z) (kab : Z * (Z * Z)) : option Z := match nthZ index (fst kab) with Some x => at_pos x (snd kab) | None => None end.
Lemma fill2 {X} (xs : list X) (f : X -> option Z) (tc ta : list Z) n (body : Z -> list Z * list Z -> res (list Z * list Z)) :
  n = zlen xs -> zlen tc = n -> zlen ta = n ->
  (forall d x r tc ta, d ++ x :: r = xs -> match f x with
     | Some p => body (zlen d) (tc, ta) = let* tc := wr tc (zlen d) p in let* ta := wr ta (zlen d) (zlen d) in Ok (tc, ta)
     | None => exists m, body (zlen d) (tc, ta) = Err m end) ->
  match omap f xs with
  | Some ps => for_ 0 n body (tc, ta) = Ok (ps, zseq 0 n)
  | None => exists m, for_ 0 n body (tc, ta) = Err m
  end.
Proof.
  intros Hn H1 H2 Hb.
  pose proof (for_omap xs f (fun ps t => exists tc' ta', t = (ps ++ tc', zseq 0 (zlen ps) ++ ta') /\ zlen tc' + zlen ps = n /\ zlen ta' + zlen ps = n) body n (tc, ta) Hn) as G.
  concl G G'.
  { apply G; clear G.
    - exists tc, ta. change (zlen (@nil Z)) with 0. rewrite zseq_nil by lia. repeat split; lia.
    - intros d x r ps t Hd Hp (tc' & ta' & -> & L1 & L2). specialize (Hb d x r (ps ++ tc') (zseq 0 (zlen ps) ++ ta') Hd). destruct (f x) as [p|]; [|exact Hb].
      pose proof (omap_zlen _ _ _ Hp) as Hz. assert (Hi : n = zlen d + zlen r + 1) by (rewrite Hn, <- Hd, zlen_app, zlen_cons; lia). pose proof (zlen_nonneg r). pose proof (zlen_nonneg d).
      destruct (wr_push' ps tc' p ltac:(lia)) as (tc'' & W1 & Z1). destruct (wr_push' (zseq 0 (zlen ps)) ta' (zlen d) ltac:(lia)) as (ta'' & W2 & Z2).
      rewrite zlen_zseq in W2 by lia. rewrite Hz in W1. rewrite Hz in W2. replace (zlen d - 0) with (zlen d) in W2 by lia.
      rewrite Hb, W1. cbn [bind]. rewrite Hz, W2. cbn [bind]. eexists; split; [reflexivity|]. exists tc'', ta''. rewrite zlen_app. change (zlen [p]) with 1. rewrite Hz, zseq_snoc by lia. repeat split; lia. }
  clear G. destruct (omap f xs) as [ps|] eqn:E; [|exact G']. destruct G' as (t & -> & tc' & ta' & -> & L1 & L2). apply omap_zlen in E.
  rewrite (zlen_0 tc'), (zlen_0 ta') by lia. rewrite !app_nil_r. now replace (zlen ps) with n by lia.
Qed.
Lemma list_array_adv_spec starts stops index adv len n tc ta : zlen starts <= zlen stops -> n = zlen starts -> zlen tc = n -> zlen ta = n -> zlen adv = n ->
  forallb (sub_ok len) (combine starts stops) = true -> Forall (fun k => 0 <= k < zlen index) adv ->
  match omap (adv_pos index) (combine adv (combine starts stops)) with
  | Some ps => awkward_ListArray_getitem_next_array_advanced tc ta starts stops index adv n len = Ok (ps, zseq 0 n)
  | None => exists m, awkward_ListArray_getitem_next_array_advanced tc ta starts stops index adv n len = Err m
  end.
Proof.
  intros Hl -> H1 H2 H3 Hs Hadv. unfold awkward_ListArray_getitem_next_array_advanced. pose proof (zlen_combine_le starts stops Hl) as Hc.
  apply fill2; [rewrite zlen_combine; lia|exact H1|exact H2|].
  intros d [k [a b]] r tc' ta' Hd. destruct (combine_mid _ _ _ _ _ _ Hd) as [Hk Hab]. rewrite nthZ_combine in Hab.
  destruct (nthZ starts (zlen d)) as [a'|] eqn:Ea; [|discriminate]. destruct (nthZ stops (zlen d)) as [b'|] eqn:Eb; [|discriminate]. injection Hab as -> ->.
  assert (sub_ok len (a, b) = true) as Hab. { rewrite forallb_forall in Hs. apply Hs. apply (in_combine_r adv _ k). rewrite <- Hd. apply in_or_app; right; left; reflexivity. }
  assert (0 <= k < zlen index) as Hkr by (rewrite Forall_forall in Hadv; apply Hadv; eapply nthZ_In; exact Hk).
  apply rd_Ok in Ea, Eb, Hk. unfold adv_pos. cbn [fst snd]. destruct (nthZ_lt index k Hkr) as [x Hx]. rewrite Hx. apply rd_Ok in Hx.
  rewrite Ea, Eb. cbn [bind]. unfold sub_ok in Hab. cbn [fst snd] in Hab.
  destruct (Z.ltb_spec b a); [exfalso; lia|]. destruct (negb (a =? b) && (len <? b)) eqn:E; [exfalso; lia|]. rewrite Hk. cbn [bind]. rewrite Hx. cbn [bind].
  rewrite regular_at_wrap. unfold at_pos, diff. cbn [fst snd]. destruct (wrap x (b - a)); cbn [option_map bind]; [reflexivity|eauto].
Qed.

(** regular *)
Lemma regularize_spec index size out : zlen out = zlen index ->
  match omap (fun x => wrap x size) index with
  | Some r => awkward_RegularArray_getitem_next_array_regularize out index (zlen index) size = Ok r
  | None => exists m, awkward_RegularArray_getitem_next_array_regularize out index (zlen index) size = Err m
  end.
Proof.
  intros Ho. unfold awkward_RegularArray_getitem_next_array_regularize.
  match goal with |- context [for_ 0 _ ?body _] =>
    pose proof (for_omap index (fun x => wrap x size) (fun ys t => exists r, t = ys ++ r /\ zlen r + zlen ys = zlen index) body (zlen index) out eq_refl) as G end.
  concl G G'.
  { apply G; clear G; [exists out; rewrite zlen_nil; split; [reflexivity|lia]|].
    intros d x r ys t Hd Hys (rr & -> & Hr). assert (rd index (zlen d) = Ok x) as Hx by (apply rd_Ok; rewrite <- Hd; apply nthZ_mid). rewrite Hx. cbn [bind]. rewrite regular_at_wrap.
    destruct (wrap x size) as [k|]; cbn [bind]; [|eauto]. pose proof (omap_zlen _ _ _ Hys) as Hz.
    assert (zlen index = zlen d + zlen r + 1) by (rewrite <- Hd, zlen_app, zlen_cons; lia). pose proof (zlen_nonneg r).
    destruct (wr_push' ys rr k ltac:(lia)) as (r' & Hw & Hz'). rewrite <- Hz, Hw. eexists; split; [reflexivity|]. exists r'. split; [reflexivity|]. rewrite zlen_app. change (zlen [k]) with 1. lia. }
  clear G. destruct (omap (fun x => wrap x size) index) as [nc|] eqn:E; [|exact G'].
  destruct G' as (t & Ht & r & -> & Hr). rewrite Ht. f_equal. apply omap_zlen in E. rewrite (zlen_0 r); [apply app_nil_r|lia].
Qed.
Lemma regs_arr_pos index r size n : omap (fun x => wrap x size) index = Some r ->
  forall ab, In ab (regs size n) -> arr_pos index ab = Some (map (Z.add (fst ab)) r).
Proof.
  intros H ab Hab. unfold arr_pos. rewrite (omap_ext _ (fun x => option_map (Z.add (fst ab)) (wrap x size))) by (intros x _; exact (regs_at_pos _ _ _ _ Hab)).
  rewrite omap_option_map, H. reflexivity.
Qed.
Lemma regular_array_spec index r size n tc ta : 0 <= n -> omap (fun x => wrap x size) index = Some r -> zlen tc = n * zlen index -> zlen ta = n * zlen index ->
  exists pss, omap (arr_pos index) (regs size n) = Some pss /\
    awkward_RegularArray_getitem_next_array tc ta r n (zlen r) size = Ok (concat pss, concat (map (fun _ => zseq 0 (zlen index)) (regs size n))).
Proof.
  intros Hn Hr H1 H2. exists (map (fun ab => map (Z.add (fst ab)) r) (regs size n)).
  assert (E : omap (arr_pos index) (regs size n) = Some (map (fun ab => map (Z.add (fst ab)) r) (regs size n))).
  { rewrite <- omap_Some_map. apply omap_ext. intros ab Hab. exact (regs_arr_pos _ _ _ _ Hr ab Hab). }
  split; [exact E|]. pose proof (omap_zlen _ _ _ Hr) as Hz. unfold awkward_RegularArray_getitem_next_array. rewrite Hz in *.
  match goal with |- for_ 0 n ?body _ = _ => pose proof (outer_array (regs size n) (fun ab => ab) index tc ta n (zlen index) body) as G end.
  cbv beta in G; change (fun x : Z * Z => arr_pos index x) with (arr_pos index) in G; rewrite E in G. apply G; clear G; [symmetry; apply zlen_regs; exact Hn|reflexivity|exact H1|exact H2|].
  intros d ab rr d1 tc' d2 ta' Hd L1 L2 L3 L4.
  assert (Hab : ab = (zlen d * size, (zlen d + 1) * size)).
  { assert (Hx : nthZ (regs size n) (zlen d) = Some ab) by (rewrite <- Hd; apply nthZ_mid). assert (Hlt : 0 <= zlen d < n). { apply nthZ_Some in Hx. rewrite zlen_regs in Hx by exact Hn. exact Hx. }
    unfold regs in Hx. rewrite nthZ_map, nthZ_zseq in Hx by lia. cbn [option_map] in Hx. injection Hx as <-. f_equal; lia. }
  assert (Hin : In ab (regs size n)) by (rewrite <- Hd; apply in_or_app; right; left; reflexivity).
  apply (inner_array ab _ _ _ _ _ (zlen d)); [reflexivity|exact L3|exact L4|exact L1|exact L2|].
  intros j x t0 t1 Hx. rewrite (regs_at_pos _ _ _ _ Hin). destruct (omap_nth _ _ _ _ _ Hr Hx) as (Ex & k & Hk). rewrite Hk in Ex. symmetry in Ex. apply rd_Ok in Ex. rewrite Ex, Hk. cbn [bind option_map]. rewrite Hab. reflexivity.
Qed.
Lemma regular_array_adv_spec index r adv size n tc ta : 0 <= n -> omap (fun x => wrap x size) index = Some r -> zlen tc = n -> zlen ta = n -> zlen adv = n ->
  Forall (fun k => 0 <= k < zlen index) adv ->
  exists ps, omap (adv_pos index) (combine adv (regs size n)) = Some ps /\
    awkward_RegularArray_getitem_next_array_advanced tc ta adv r n size = Ok (ps, zseq 0 n).
Proof.
  intros Hn Hr H1 H2 H3 Hadv. pose proof (zlen_regs size n Hn) as Hz. pose proof (omap_zlen _ _ _ Hr) as Hzr.
  assert (P : forall k ab, In (k, ab) (combine adv (regs size n)) -> exists x y, nthZ index k = Some x /\ nthZ r k = Some y /\ wrap x size = Some y /\ at_pos x ab = Some (fst ab + y)).
  { intros k ab Hin. rewrite Forall_forall in Hadv. destruct (nthZ_lt index k (Hadv k (in_combine_l _ _ _ _ Hin))) as [x Hx].
    destruct (omap_nth _ _ _ _ _ Hr Hx) as (Ex & y & Hy). exists x, y. rewrite (regs_at_pos _ _ _ _ (in_combine_r _ _ _ _ Hin)), Hy. rewrite Hy in Ex. auto. }
  destruct (omap_total (adv_pos index) (combine adv (regs size n))) as [ps Hps].
  { intros [k ab] Hin. destruct (P k ab Hin) as (x & y & Hx & _ & _ & Hp). unfold adv_pos. cbn [fst snd]. rewrite Hx. eauto. }
  exists ps. split; [exact Hps|]. unfold awkward_RegularArray_getitem_next_array_advanced.
  match goal with |- for_ 0 n ?body _ = _ => pose proof (fill2 (combine adv (regs size n)) (adv_pos index) tc ta n body) as G end.
  rewrite Hps in G. apply G; clear G; [rewrite zlen_combine; lia|exact H1|exact H2|].
  intros d [k ab] rr tc' ta' Hd. assert (Hin : In (k, ab) (combine adv (regs size n))) by (rewrite <- Hd; apply in_or_app; right; left; reflexivity).
  destruct (P k ab Hin) as (x & y & Hx & Hy & _ & Hp). destruct (combine_mid _ _ _ _ _ _ Hd) as [Hk Hab].
  assert (Hlt : 0 <= zlen d < n). { apply nthZ_Some in Hab. lia. }
  unfold regs in Hab. rewrite nthZ_map, nthZ_zseq in Hab by lia. cbn [option_map] in Hab. injection Hab as <-.
  unfold adv_pos. cbn [fst snd]. rewrite Hx, Hp. apply rd_Ok in Hk, Hy. rewrite Hk. cbn [bind]. rewrite Hy. cbn [bind fst]. now replace (0 + zlen d) with (zlen d) by lia.
Qed.

(** ** advanced indices spread over a range *)
Lemma counts_spec a lens : awkward_ListArray_getitem_next_range_counts (offsets_from a lens) (zlen lens) = Ok (sumZ lens).
Proof.
  unfold awkward_ListArray_getitem_next_range_counts.
  match goal with |- for_ 0 _ ?body _ = _ => destruct (for_list lens (fun d t => t = sumZ d) body 0) as (t & Ht & ->) end; [reflexivity| |exact Ht].
  intros d x r t Hd ->. eexists. split; [|reflexivity].
  pose proof (zlen_nonneg d). pose proof (zlen_nonneg r). assert (zlen lens = zlen d + zlen r + 1) by (rewrite <- Hd, zlen_app, zlen_cons; lia).
  assert (E1 : rd (offsets_from a lens) (zlen d + 1) = Ok (a + sumZ (slice 0 (zlen d + 1) lens))) by (apply rd_Ok, nthZ_offsets_from; lia).
  assert (E2 : rd (offsets_from a lens) (zlen d) = Ok (a + sumZ (slice 0 (zlen d) lens))) by (apply rd_Ok, nthZ_offsets_from; lia).
  rewrite E1, E2. cbn [bind]. rewrite <- Hd. change (d ++ x :: r) with (d ++ [x] ++ r). rewrite slice_app, app_assoc.
  replace (zlen d + 1) with (zlen (d ++ [x])) by (rewrite zlen_app; reflexivity). rewrite slice_app, sumZ_app. f_equal. lia.
Qed.
Definition spread {A} (xs : list A) (lens : list Z) : list A := concat (map (fun xn => repeat (fst xn) (Z.to_nat (snd xn))) (combine xs lens)).
Lemma zlen_spread {A} (xs : list A) lens : zlen lens <= zlen xs -> Forall (fun n => 0 <= n) lens -> zlen (spread xs lens) = sumZ lens.
Proof.
  revert xs; induction lens as [|n lens IH]; intros xs Hl HF; [destruct xs; reflexivity|]. destruct xs as [|x xs]; [rewrite zlen_cons, zlen_nil in Hl; pose proof (zlen_nonneg lens); lia|].
  inversion HF; subst. unfold spread. cbn [combine map concat fst snd]. rewrite zlen_app, zlen_repeat. fold (spread xs lens). rewrite !zlen_cons in Hl. rewrite IH by (auto; lia). simpl. lia.
Qed.
Lemma map_const_zseq {A} (x : A) n : 0 <= n -> map (fun _ => x) (zseq 0 n) = repeat x (Z.to_nat n).
Proof.
  intros Hn. apply list_eqZ; rewrite zlen_map, zlen_zseq by lia; [rewrite zlen_repeat; lia|]. intros i Hi. rewrite nthZ_map, nthZ_zseq, nthZ_repeat by lia. reflexivity.
Qed.
Lemma list_spread_spec lens adv out : zlen lens <= zlen adv -> Forall (fun n => 0 <= n) lens -> zlen out = sumZ lens ->
  awkward_ListArray_getitem_next_range_spreadadvanced out adv (offsets_of lens) (zlen lens) = Ok (spread adv lens).
Proof.
  intros Hl HF Ho. unfold awkward_ListArray_getitem_next_range_spreadadvanced.
  match goal with |- for_ 0 _ ?body _ = _ => destruct (for_list lens (fun d t => exists r, t = spread adv d ++ r /\ zlen t = sumZ lens) body out) as (t & Ht & r & -> & Hz) end.
  - exists out. unfold spread. destruct adv; simpl; auto.
  - intros d n r t Hd (rr & -> & Hz). pose proof (zlen_nonneg d). pose proof (zlen_nonneg r). assert (Hlen : zlen lens = zlen d + zlen r + 1) by (rewrite <- Hd, zlen_app, zlen_cons; lia).
    assert (HF' : Forall (fun n => 0 <= n) d /\ 0 <= n /\ Forall (fun n => 0 <= n) r). { rewrite <- Hd in HF. apply Forall_app in HF. destruct HF as [A B]. inversion B; auto. }
    destruct HF' as (F1 & F2 & F3).
    assert (E1 : rd (offsets_of lens) (zlen d + 1) = Ok (sumZ d + n)).
    { apply rd_Ok. unfold offsets_of. rewrite nthZ_offsets_from by lia. rewrite <- Hd. change (d ++ n :: r) with (d ++ [n] ++ r). rewrite app_assoc.
      replace (zlen d + 1) with (zlen (d ++ [n])) by (rewrite zlen_app; reflexivity). rewrite slice_app, sumZ_app. f_equal. simpl. lia. }
    assert (E2 : rd (offsets_of lens) (zlen d) = Ok (sumZ d)). { apply rd_Ok. unfold offsets_of. rewrite nthZ_offsets_from by lia. rewrite <- Hd, slice_app. f_equal. }
    rewrite E1, E2. cbn [bind]. destruct (nthZ_lt adv (zlen d) ltac:(lia)) as [x Hx].
    pose proof (zlen_spread adv d ltac:(lia) F1) as Hsp.
    assert (Hs : sumZ lens = sumZ d + n + sumZ r) by (rewrite <- Hd, sumZ_app; simpl; lia). pose proof (sumZ_nonneg r F3).
    match goal with |- context [for_ 0 _ ?b _] => destruct (for_fill_at b (fun _ => x) n (spread adv d) rr) as (rest' & Hf & Hr') end.
    { rewrite zlen_app in Hz. lia. }
    { intros i o Hi Hzo. apply rd_Ok in Hx. rewrite Hx. cbn [bind]. now rewrite Hsp. }
    replace (sumZ d + n - sumZ d) with n by lia. rewrite Hf. eexists; split; [reflexivity|]. exists rest'. split.
    + f_equal. rewrite map_const_zseq by lia. unfold spread. replace (combine adv (d ++ [n])) with (combine adv d ++ [(x, n)]); [rewrite map_app, concat_app; cbn [map concat fst snd]; now rewrite app_nil_r|].
      apply list_eqZ.
      * rewrite zlen_app, !zlen_combine_le_r by (rewrite ?zlen_app; change (zlen [n]) with 1; lia). rewrite zlen_app. reflexivity.
      * intros i Hi. rewrite nthZ_app, !nthZ_combine, nthZ_app. rewrite zlen_combine_le_r by lia. destruct (Z.ltb_spec i (zlen d)); [reflexivity|].
        rewrite zlen_app, zlen_combine_le_r in Hi by lia. change (zlen [(x, n)]) with 1 in Hi. replace i with (zlen d) by lia. rewrite Hx, Z.sub_diag. reflexivity.
    + rewrite !zlen_app, zlen_map, zlen_zseq by lia. rewrite zlen_app in Hz. lia.
  - rewrite Ht. f_equal. rewrite zlen_app, zlen_spread in Hz by assumption. rewrite (zlen_0 r) by lia. apply app_nil_r.
Qed.
Lemma regular_spread_spec adv n size out : 0 <= n -> n <= zlen adv -> 0 <= size -> zlen out = n * size ->
  awkward_RegularArray_getitem_next_range_spreadadvanced out adv n size = Ok (spread adv (map (fun _ => size) (zseq 0 n))).
Proof.
  intros Hn Ha Hs Ho. unfold awkward_RegularArray_getitem_next_range_spreadadvanced.
  destruct (for_fill2 (fun i j o => let* x := rd adv i in wr o (i * size + j) x) (fun i _ => match nthZ adv i with Some x => x | None => 0 end) n size out Hn Hs ltac:(lia)) as (rest & Hf & Hr).
  { intros i j o Hi Hj _. destruct (nthZ_lt adv i ltac:(lia)) as [x Hx]. pose proof (proj2 (rd_Ok _ _ _) Hx) as Hx'. rewrite Hx', Hx. reflexivity. }
  rewrite Hf. rewrite (zlen_0 rest) by lia. rewrite app_nil_r. f_equal. unfold spread. f_equal.
  apply list_eqZ; rewrite !zlen_map.
  - rewrite zlen_zseq, zlen_combine_le_r by (rewrite ?zlen_map, ?zlen_zseq; lia). rewrite zlen_map, zlen_zseq; lia.
  - intros i Hi. rewrite zlen_zseq in Hi by lia. rewrite !nthZ_map, nthZ_combine, nthZ_map, nthZ_zseq by lia. cbn [option_map]. replace (0 + i) with i by lia. destruct (nthZ_lt adv i ltac:(lia)) as [x Hx]. rewrite Hx. cbn [option_map fst snd].
    f_equal. now rewrite map_const_zseq by lia.
Qed.
