(** Proofs about carry and getitem_at. *)
From Verif Require Export PCore.

Lemma for_gather {A} (src : list A) (cry : list Z) out r n :
  omap (nthZ src) cry = Some r -> n = zlen cry -> zlen out = n ->
  for_ 0 n (fun i o => let* c := rd cry i in let* x := rd src c in wr o i x) out = Ok r.
Proof.
  intros H -> Ho. pose proof (omap_zlen _ _ _ H) as Hl. pose proof (zlen_nonneg cry).
  destruct r as [|d r'].
  - change (zlen (@nil A)) with 0 in Hl. rewrite for_nil by lia. f_equal. apply zlen_0. lia.
  - set (r := d :: r') in *.
    rewrite (for_fill _ (fun i => match nthZ r i with Some x => x | None => d end)).
    + f_equal. rewrite Ho, slice_nil, app_nil_r. rewrite (map_nthZ_slice _ (fun x => x) r).
      * rewrite map_id. apply slice_full'. lia.
      * lia.
      * lia.
      * intros i x Hi Hx. now rewrite Hx.
    + lia.
    + intros i o Hi Hlo. destruct (rd_in cry i) as (c & -> & Hc); [lia|]. cbn [bind].
      destruct (omap_nth _ _ _ _ _ H Hc) as [E [y Hy]]. rewrite Hy in E. assert (rd src c = Ok y) as -> by now apply rd_Ok.
      cbn [bind]. now rewrite <- E.
Qed.
(** the same loop with a guard that never fires *)
Lemma for_gather_guard {A} (src : list A) (cry : list Z) out r n (guard : Z -> bool) m :
  omap (nthZ src) cry = Some r -> n = zlen cry -> zlen out = n ->
  (forall c, In c cry -> guard c = false) ->
  for_ 0 n (fun i o => let* c := rd cry i in if guard c then Err m else let* x := rd src c in wr o i x) out = Ok r.
Proof.
  intros H Hn Ho Hg. rewrite <- (for_gather src cry out r n H Hn Ho). apply for_ext. intros i o Hi.
  destruct (rd_in cry i) as (c & Hc & Hc'); [lia|]. rewrite Hc. cbn [bind]. rewrite Hg; [reflexivity|eapply nthZ_In; eauto].
Qed.

Lemma iscontiguous_spec cry :
  exists b, awkward_Index_iscontiguous cry (zlen cry) = Ok b /\ (b = true <-> cry = zseq 0 (zlen cry)).
Proof.
  unfold awkward_Index_iscontiguous. pose proof (zlen_nonneg cry).
  match goal with |- context [for_ 0 (zlen cry) ?f (true, 0)] =>
    destruct (for_inv (fun i st => (st = (true, i) /\ slice 0 i cry = zseq 0 i) \/ (fst st = false /\ slice 0 i cry <> zseq 0 i)) 0 (zlen cry) f (true, 0))
      as (st & Hst & HP) end.
  - lia.
  - left; split; [reflexivity|]. rewrite slice_nil, zseq_nil by lia. reflexivity.
  - intros i [res e] Hi [[E Hs]|[E Hs]]; cbn [fst] in E.
    + injection E as -> ->. cbn [negb]. destruct (rd_in cry i) as (x & Hx & Hx'); [lia|]. rewrite Hx. cbn [bind].
      rewrite (slice_snoc_nth 0 i cry x), zseq_snoc by (auto; lia). rewrite Hs.
      destruct (Z.eqb_spec x i) as [->|Hne]; cbn [negb].
      * eexists; split; [reflexivity|]. left; auto.
      * eexists; split; [reflexivity|]. right; split; [reflexivity|]. intros Heq. apply app_inj_tail in Heq. destruct Heq; congruence.
    + subst res. cbn [negb]. eexists; split; [reflexivity|]. right; split; [reflexivity|].
      destruct (nthZ_lt cry i) as [x Hx]; [lia|]. rewrite (slice_snoc_nth 0 i cry x), zseq_snoc by (auto; lia).
      intros Heq. apply app_inj_tail in Heq. destruct Heq; congruence.
  - rewrite Hst. cbn [bind]. exists (fst st); split; [reflexivity|]. rewrite slice_full in HP.
    destruct HP as [[-> ?]|[-> ?]]; cbn; split; auto; congruence.
Qed.

(** *** concat *)
Lemma omap_concat {A B} (f : A -> option B) ls :
  omap f (concat ls) = option_map (@concat B) (omap (omap f) ls).
Proof.
  induction ls as [|l ls IH]; [reflexivity|]. cbn [concat omap]. rewrite omap_app, IH.
  destruct (omap f l), (omap (omap f) ls); reflexivity.
Qed.
Lemma zlen_concat_const {A} (ls : list (list A)) k :
  (forall l, In l ls -> zlen l = k) -> zlen (concat ls) = zlen ls * k.
Proof.
  induction ls as [|l ls IH]; intros H; [reflexivity|]. cbn [concat].
  rewrite zlen_app, zlen_cons, IH by (intros; apply H; now right). rewrite (H l) by now left. ring.
Qed.
Lemma slice_concat_const {A} (ls : list (list A)) k i l :
  0 <= k -> (forall l, In l ls -> zlen l = k) -> nthZ ls i = Some l -> slice (i * k) ((i + 1) * k) (concat ls) = l.
Proof.
  intros Hk. revert i; induction ls as [|a ls IH]; intros i H Hi; [rewrite nthZ_nil in Hi; discriminate|].
  rewrite nthZ_cons in Hi. cbn [concat]. assert (zlen a = k) as Ha by (apply H; now left).
  destruct (Z.eqb_spec i 0) as [->|].
  - injection Hi as ->. replace (0 * k) with 0 by ring. replace ((0 + 1) * k) with (zlen l) by lia. apply slice_app.
  - pose proof (nthZ_Some _ _ _ Hi). rewrite slice_app_shift by nia. rewrite Ha.
    replace (i * k - k) with ((i - 1) * k) by ring. replace ((i + 1) * k - k) with ((i - 1 + 1) * k) by ring.
    apply IH; [intros; apply H; now right|exact Hi].
Qed.
Lemma map_zseq_nth {A B} (l : list A) (h : A -> B) d n :
  n = zlen l -> map (fun i => h (match nthZ l i with Some x => x | None => d end)) (zseq 0 n) = map h l.
Proof.
  intros ->. rewrite (map_nthZ_slice _ h l).
  - now rewrite slice_full.
  - pose proof (zlen_nonneg l); lia.
  - lia.
  - intros i x _ ->; reflexivity.
Qed.

Lemma regular_nextcarry cry size n out :
  0 <= size -> n = zlen cry -> zlen out = n * size ->
  awkward_RegularArray_getitem_carry out cry n size = Ok (concat (map (fun c => zseq (c * size) ((c + 1) * size)) cry)).
Proof.
  intros Hs -> Ho. unfold awkward_RegularArray_getitem_carry. pose proof (zlen_nonneg cry).
  destruct (for_fill2 (fun i j o => let* c := rd cry i in wr o (i * size + j) (c * size + j))
     (fun i j => (match nthZ cry i with Some c => c | None => 0 end) * size + j) (zlen cry) size out) as (rest & Hf & Hl); try lia.
  - intros i j o Hi Hj _. destruct (rd_in cry i) as (c & -> & ->); [lia|]. reflexivity.
  - rewrite Hf. f_equal. assert (zlen rest = 0) as Hr by lia. apply zlen_0 in Hr. subst rest. rewrite app_nil_r. f_equal.
    rewrite (map_zseq_nth cry (fun c => map (fun j => c * size + j) (zseq 0 size)) 0) by reflexivity.
    apply map_ext. intros c. replace ((c + 1) * size) with (size + c * size) by ring.
    replace (c * size) with (0 + c * size) at 2 by ring. rewrite <- (map_id (zseq (0 + c * size) _)), map_zseq_shift.
    apply map_ext. intros; lia.
Qed.
Lemma regular_den size n c segs :
  0 <= size -> (size = 0 -> n = zlen segs) -> (forall l, In l segs -> zlen l = size) -> den c = Some (concat segs) ->
  den (Regular size n c) = Some (map VList segs).
Proof.
  intros Hs Hn Hl Hd. cbn [den]. rewrite Hd. pose proof (zlen_nonneg segs). destruct (Z.ltb_spec 0 size).
  - rewrite (zlen_concat_const _ size) by exact Hl. rewrite Z.div_mul by lia.
    apply omap_intro; [rewrite zlen_map, zlen_zseq; lia|]. intros i x Hx. pose proof (nthZ_Some _ _ _ Hx) as Hi.
    rewrite zlen_zseq in Hi by lia. rewrite nthZ_zseq in Hx by lia. injection Hx as <-. rewrite Z.add_0_l, nthZ_map.
    destruct (nthZ_lt segs i) as [l Hli]; [lia|]. rewrite Hli. cbn [option_map].
    unfold sublist. rewrite (zlen_concat_const _ size) by exact Hl.
    destruct (Z.eqb_spec (i * size) ((i + 1) * size)); [nia|].
    destruct (Z.leb_spec 0 (i * size)), (Z.leb_spec (i * size) ((i + 1) * size)), (Z.leb_spec ((i + 1) * size) (zlen segs * size)); try nia.
    cbn [andb]. now rewrite (slice_concat_const segs size i l) by (auto; lia).
  - assert (size = 0) by lia. subst. rewrite (Hn eq_refl). change (0 =? 0) with true. destruct (Z.leb_spec 0 (zlen segs)); [|lia].
    cbn [andb]. f_equal. apply list_eqZ; rewrite zlen_repeat; rewrite ?zlen_map; [lia|]. intros i Hi. rewrite nthZ_repeat, nthZ_map by lia.
    destruct (nthZ_lt segs i) as [l Hli]; [lia|]. rewrite Hli. cbn. rewrite (zlen_0 l); [reflexivity|]. apply Hl. eapply nthZ_In; eauto.
Qed.
(** a RegularArray is a list of segments of equal length *)
Lemma regular_inv size zl c vs : den (Regular size zl c) = Some vs ->
  exists ws segs, den c = Some ws /\ 0 <= size /\ vs = map VList segs /\ (forall l, In l segs -> zlen l = size)
    /\ (forall i l, nthZ segs i = Some l -> l = slice (i * size) ((i + 1) * size) ws /\ (i + 1) * size <= zlen ws)
    /\ (size = 0 -> zl = zlen segs) /\ (0 < size -> zlen segs = zlen ws / size).
Proof.
  intros Hd. pose proof (den_length _ _ Hd) as HL. cbn [length_] in HL.
  cbn [den] in Hd. destruct (den c) as [ws|] eqn:Ec; [|discriminate]. rewrite (den_length _ _ Ec) in HL. pose proof (zlen_nonneg ws).
  exists ws. destruct (Z.ltb_spec 0 size).
  - destruct (Z.eqb_spec size 0); [lia|]. cbn [negb] in HL. rewrite Z.quot_div_nonneg in HL by lia.
    exists (map (fun i => slice (i * size) ((i + 1) * size) ws) (zseq 0 (zlen ws / size))).
    assert (0 <= zlen ws / size) by (apply Z.div_pos; lia).
    assert (Hb : forall i, 0 <= i < zlen ws / size -> (i + 1) * size <= zlen ws) by (intros; nia).
    split; [reflexivity|]. split; [lia|]. split; [|split; [|split; [|split]]].
    + apply list_eqZ; [rewrite !zlen_map, zlen_zseq by lia; lia|]. intros i Hi.
      rewrite !nthZ_map, nthZ_zseq by lia. cbn [option_map]. rewrite Z.add_0_l.
      destruct (omap_nth _ _ _ i i Hd) as [E _]; [rewrite nthZ_zseq by lia; f_equal; lia|]. rewrite <- E. unfold sublist.
      destruct (Z.eqb_spec (i * size) ((i + 1) * size)); [nia|]. specialize (Hb i).
      destruct (Z.leb_spec 0 (i * size)), (Z.leb_spec (i * size) ((i + 1) * size)), (Z.leb_spec ((i + 1) * size) (zlen ws)); try nia.
      reflexivity.
    + intros l Hl. apply in_map_iff in Hl. destruct Hl as (i & <- & Hi). apply In_zseq in Hi. specialize (Hb i Hi). rewrite zlen_slice by nia. ring.
    + intros i l Hl. rewrite nthZ_map in Hl. destruct (nthZ (zseq 0 (zlen ws / size)) i) as [j|] eqn:Ej; [|discriminate].
      pose proof (nthZ_Some _ _ _ Ej) as Hi. rewrite zlen_zseq in Hi by lia. rewrite nthZ_zseq in Ej by lia. injection Ej as <-.
      injection Hl as <-. rewrite Z.add_0_l. split; [reflexivity|apply Hb; lia].
    + lia.
    + rewrite zlen_map, zlen_zseq by lia. lia.
  - destruct (Z.eqb_spec size 0) as [->|]; [|discriminate]. destruct (Z.leb_spec 0 zl); [|discriminate]. cbn in Hd. injection Hd as <-.
    exists (repeat [] (Z.to_nat zl)). rewrite zlen_repeat. split; [reflexivity|]. split; [lia|]. split; [|split; [|split; [|split]]].
    + generalize (Z.to_nat zl); intros k. induction k; cbn; [reflexivity|now rewrite IHk].
    + intros l Hl. apply repeat_spec in Hl. now subst.
    + intros i l Hl. apply nthZ_In, repeat_spec in Hl. subst. rewrite slice_empty by lia. split; [reflexivity|lia].
    + lia.
    + lia.
Qed.

(** *** carry *)
Lemma carry_contiguous_den c vs cry vs' k :
  den c = Some vs -> omap (nthZ vs) cry = Some vs' ->
  (exists c', k tt = Ok c' /\ den c' = Some vs') ->
  exists c', carry_contiguous c cry k = Ok c' /\ den c' = Some vs'.
Proof.
  intros Hd Hp Hk. unfold carry_contiguous. destruct (iscontiguous_spec cry) as (b & -> & Hb). cbn [bind].
  destruct b; [|exact Hk]. assert (cry = zseq 0 (zlen cry)) as Hc by now apply Hb. pose proof (zlen_nonneg cry).
  assert (zlen cry <= zlen vs).
  { destruct (Z.eqb_spec (zlen cry) 0); [pose proof (zlen_nonneg vs); lia|].
    pose proof (omap_nthZ_range _ _ _ Hp (zlen cry - 1)) as H0. rewrite Hc in H0. rewrite zlen_zseq in H0 by lia.
    rewrite In_zseq in H0. lia. }
  rewrite Hc, omap_nthZ_zseq in Hp by lia. injection Hp as <-. rewrite (den_length _ _ Hd).
  destruct (Z.eqb_spec (zlen cry) (zlen vs)) as [E|].
  - exists c. split; [reflexivity|]. rewrite E, slice_full. exact Hd.
  - apply range_den; [exact Hd|lia|lia].
Qed.

Lemma list_carry cs vs cry vs' starts stops (s : Z * Z -> option value) n out1 out2 c :
  omap s (combine starts stops) = Some vs -> zlen starts <= zlen stops -> omap (nthZ vs) cry = Some vs' ->
  n = zlen cry -> zlen out1 = n -> zlen out2 = n -> cs = zlen starts ->
  exists a b, awkward_ListArray_getitem_carry out1 out2 starts stops cry cs n = Ok (a, b)
    /\ mkListA a b c = Ok (ListA a b c) /\ zlen a <= zlen b /\ omap s (combine a b) = Some vs'.
Proof.
  intros Hs Hle Hp -> Ho1 Ho2 ->.
  pose proof (omap_zlen _ _ _ Hs) as Hvl. rewrite zlen_combine_le in Hvl by lia.
  assert (Hr : forall i, In i cry -> 0 <= i < zlen starts) by (rewrite <- Hvl; exact (omap_nthZ_range _ _ _ Hp)).
  destruct (omap_nthZ_total starts cry) as [a Ha]; [exact Hr|].
  destruct (omap_nthZ_total stops cry) as [b Hb]; [intros i Hi; specialize (Hr i Hi); lia|].
  pose proof (omap_zlen _ _ _ Ha) as Hla. pose proof (omap_zlen _ _ _ Hb) as Hlb. pose proof (omap_zlen _ _ _ Hp) as Hlp.
  exists a, b. split; [|split; [|split]].
  - unfold awkward_ListArray_getitem_carry.
    match goal with |- for_ 0 _ ?f _ = _ => 
      destruct (for_inv (fun i st => st = (slice 0 i a ++ slice i (zlen cry) out1, slice 0 i b ++ slice i (zlen cry) out2)) 0 (zlen cry) f (out1, out2))
       as (st & Hst & HP) end.
    + pose proof (zlen_nonneg cry); lia.
    + rewrite !slice_nil. cbn [app]. rewrite !slice_full' by lia. reflexivity.
    + intros i st Hi ->. destruct (rd_in cry i) as (c0 & -> & Hc0); [lia|]. cbn [bind].
      specialize (Hr c0 (nthZ_In _ _ _ Hc0)). destruct (Z.leb_spec (zlen starts) c0); [lia|].
      destruct (omap_nth _ _ _ _ _ Ha Hc0) as [Ea [x Hx]]. destruct (omap_nth _ _ _ _ _ Hb Hc0) as [Eb [y Hy]].
      rewrite (proj2 (rd_Ok _ _ _) Hx), (proj2 (rd_Ok _ _ _) Hy). cbn [bind].
      destruct (nthZ_lt out1 i) as [o1 Ho1']; [lia|]. destruct (nthZ_lt out2 i) as [o2 Ho2']; [lia|].
      rewrite (slice_cons_nth i (zlen cry) out1 o1), (slice_cons_nth i (zlen cry) out2 o2) by (auto; lia).
      assert (zlen (slice 0 i a) = i) as Hsa by (rewrite zlen_slice; lia). assert (zlen (slice 0 i b) = i) as Hsb by (rewrite zlen_slice; lia).
      assert (H1 : forall (d r : list Z) y z, zlen d = i -> wr (d ++ y :: r) i z = Ok ((d ++ [z]) ++ r)) by (intros d r y' z <-; apply wr_push).
      rewrite H1 by exact Hsa. cbn [bind]. rewrite H1 by exact Hsb. cbn [bind].
      eexists; split; [reflexivity|]. rewrite (slice_snoc_nth 0 i a x), (slice_snoc_nth 0 i b y) by (try lia; congruence). reflexivity.
    + rewrite Hst, HP, !slice_nil, !app_nil_r, !slice_full' by lia. reflexivity.
  - unfold mkListA. destruct (Z.ltb_spec (zlen b) (zlen a)); [lia|reflexivity].
  - lia.
  - apply omap_intro; [rewrite zlen_combine_le by lia; lia|]. intros i [x y] Hxy. rewrite nthZ_combine in Hxy.
    destruct (nthZ a i) as [x'|] eqn:Ex; [|discriminate]. destruct (nthZ b i) as [y'|] eqn:Ey; [|discriminate]. injection Hxy as -> ->.
    destruct (omap_nth' _ _ _ _ _ Ha Ex) as (j & Hj & Hjx). destruct (omap_nth' _ _ _ _ _ Hb Ey) as (j' & Hj' & Hjy).
    assert (j' = j) by congruence. subst j'. destruct (omap_nth _ _ _ _ _ Hp Hj) as [E _]. rewrite <- E.
    destruct (omap_nth _ _ _ j (x, y) Hs) as [E' _]; [rewrite nthZ_combine, Hjx, Hjy; reflexivity|]. exact E'.
Qed.

Lemma make_starts_spec o : 1 <= zlen o -> make_starts o = Ok (slice 0 (zlen o - 1) o).
Proof. intros; apply view_Ok; lia. Qed.
Lemma make_stops_spec o : 1 <= zlen o -> make_stops o = Ok (slice 1 (zlen o) o).
Proof. intros; apply view_Ok; lia. Qed.
Lemma combine_starts_stops o : 1 <= zlen o -> combine (slice 0 (zlen o - 1) o) (slice 1 (zlen o) o) = pairs o.
Proof.
  intros. apply list_eqZ.
  - rewrite zlen_combine by (rewrite !zlen_slice; lia). rewrite zlen_slice, zlen_pairs by lia. lia.
  - intros i Hi. rewrite zlen_combine in Hi by (rewrite !zlen_slice; lia). rewrite zlen_slice in Hi by lia.
    rewrite nthZ_combine, nthZ_pairs, !nthZ_slice by lia. rewrite Z.add_0_l. now rewrite (Z.add_comm 1 i).
Qed.
Lemma omap_comp_nth {A B} (f : A -> option B) l ys cry r : omap f l = Some ys -> omap (nthZ ys) cry = Some r ->
  exists l', omap (nthZ l) cry = Some l' /\ omap f l' = Some r.
Proof.
  intros H Hp. destruct (omap_nthZ_total l cry) as [l' Hl'].
  { intros i Hi. pose proof (omap_nthZ_range _ _ _ Hp i Hi). rewrite (omap_zlen _ _ _ H) in *. lia. }
  exists l'; split; [exact Hl'|]. rewrite (omap_comp _ _ _ _ Hl'). rewrite <- Hp. apply omap_ext. intros i Hi.
  destruct (omap_In _ _ _ _ Hl' Hi) as (x & Hx & _). rewrite Hx. now destruct (omap_nth _ _ _ _ _ H Hx) as [E _].
Qed.
Lemma map_comp_nth {A B} (f : A -> B) l cry r : omap (nthZ (map f l)) cry = Some r ->
  exists l', omap (nthZ l) cry = Some l' /\ map f l' = r.
Proof.
  intros Hp. destruct (omap_comp_nth (fun x => Some (f x)) l (map f l) cry r) as (l' & H1 & H2); [apply omap_Some_map|exact Hp|].
  rewrite omap_Some_map in H2. injection H2 as <-. eauto.
Qed.
Lemma combine_comp_nth {A B} (a : list A) (b : list B) cry l' : zlen a <= zlen b -> omap (nthZ (combine a b)) cry = Some l' ->
  exists a' b', omap (nthZ a) cry = Some a' /\ omap (nthZ b) cry = Some b' /\ l' = combine a' b' /\ zlen a' = zlen b'.
Proof.
  intros Hab Hp. pose proof (omap_nthZ_range _ _ _ Hp) as Hr. rewrite zlen_combine_le in Hr by lia.
  destruct (omap_nthZ_total a cry Hr) as [a' Ha]. destruct (omap_nthZ_total b cry) as [b' Hb]; [intros i Hi; specialize (Hr i Hi); lia|].
  pose proof (omap_zlen _ _ _ Ha). pose proof (omap_zlen _ _ _ Hb). pose proof (omap_zlen _ _ _ Hp).
  exists a', b'. repeat split; try assumption; [|lia]. apply list_eqZ; [rewrite zlen_combine; lia|]. intros i Hi.
  destruct (nthZ_lt cry i) as [j Hj]; [lia|]. rewrite nthZ_combine.
  destruct (omap_nth _ _ _ _ _ Ha Hj) as [<- _]. destruct (omap_nth _ _ _ _ _ Hb Hj) as [<- _]. destruct (omap_nth _ _ _ _ _ Hp Hj) as [<- _].
  apply nthZ_combine.
Qed.

(** the mask + content case, shared by ByteMasked and BitMasked *)
Lemma bytemasked_carry mask vw c ws cry vs vs' lazy :
  den c = Some ws -> den (ByteMasked mask vw c) = Some vs -> omap (nthZ vs) cry = Some vs' ->
  (forall ws', omap (nthZ ws) cry = Some ws' -> exists c', carry c cry lazy = Ok c' /\ den c' = Some ws') ->
  exists c', (let* m := awkward_ByteMaskedArray_getitem_carry (alloc (zlen cry)) mask (zlen mask) cry (zlen cry) in
              let* c'' := carry c cry lazy in mkByteMasked m vw c'') = Ok c' /\ den c' = Some vs'.
Proof.
  intros Ec Hd Hp IH. pose proof (zlen_nonneg cry). cbn [den] in Hd. rewrite Ec in Hd.
  destruct (Z.leb_spec (zlen mask) (zlen ws)); [|discriminate]. injection Hd as <-.
  destruct (map_comp_nth _ _ _ _ Hp) as (l' & Hl' & <-).
  destruct (combine_comp_nth _ _ _ _ ltac:(eassumption) Hl') as (m' & ws' & Hm & Hw & -> & Hlen).
  unfold awkward_ByteMaskedArray_getitem_carry. rewrite (for_gather_guard mask cry _ m').
  - cbn [bind]. destruct (IH _ Hw) as (c' & -> & Hd'). cbn [bind]. unfold mkByteMasked. rewrite (den_length _ _ Hd').
    destruct (Z.ltb_spec (zlen ws') (zlen m')); [lia|]. eexists; split; [reflexivity|]. cbn [den]. rewrite Hd'.
    destruct (Z.leb_spec (zlen m') (zlen ws')); [|lia]. reflexivity.
  - exact Hm.
  - reflexivity.
  - now rewrite zlen_alloc.
  - intros i Hi. pose proof (omap_nthZ_range _ _ _ Hm i Hi). lia.
Qed.

Lemma carry_den c vs cry vs' lazy :
  den c = Some vs -> omap (nthZ vs) cry = Some vs' ->
  exists c', carry c cry lazy = Ok c' /\ den c' = Some vs'.
Proof.
  revert vs cry vs'; induction c using content_ind'; intros vs cry vs' Hd Hp; pose proof (zlen_nonneg cry) as Hcry; cbn [carry].
  - cbn in Hd. injection Hd as <-. destruct cry as [|i cry].
    + cbn in Hp. injection Hp as <-. exists Empty. split; reflexivity.
    + cbn in Hp. rewrite nthZ_nil in Hp. discriminate.
  - eapply carry_contiguous_den; eauto. cbn in Hd. injection Hd as <-. destruct (map_comp_nth _ _ _ _ Hp) as (l' & Hl' & <-).
    unfold awkward_NumpyArray_getitem_next_null. rewrite (for_gather data cry _ l') by (auto; rewrite ?zlen_alloc; lia).
    cbn [bind]. eexists; split; reflexivity.
  - eapply carry_contiguous_den; eauto. cbn [den] in Hd. destruct (den c) as [ws|] eqn:Ec; [|discriminate].
    destruct (Z.leb_spec (zlen starts) (zlen stops)); [|discriminate]. destruct (Z.ltb_spec (zlen stops) (zlen starts)); [lia|].
    destruct (list_carry (zlen starts) vs cry vs' starts stops _ (zlen cry) (alloc (zlen cry)) (alloc (zlen cry)) c Hd) as (a & b & H1 & H2 & H3 & H4);
      auto; try (rewrite zlen_alloc; lia).
    rewrite H1. cbn [bind fst snd]. rewrite H2. eexists; split; [reflexivity|]. cbn [den]. rewrite Ec.
    destruct (Z.leb_spec (zlen a) (zlen b)); [|lia]. exact H4.
  - eapply carry_contiguous_den; eauto. cbn [den] in Hd. destruct (den c) as [ws|] eqn:Ec; [|discriminate].
    destruct (Z.leb_spec 1 (zlen offsets)); [|discriminate]. rewrite make_starts_spec, make_stops_spec by lia. cbn [bind].
    rewrite <- combine_starts_stops in Hd by lia.
    destruct (list_carry (zlen offsets - 1) vs cry vs' _ _ _ (zlen cry) (alloc (zlen cry)) (alloc (zlen cry)) c Hd) as (a & b & H1 & H2 & H3 & H4);
      auto; try (rewrite zlen_alloc; lia); try (rewrite !zlen_slice by lia; lia).
    rewrite H1. cbn [bind fst snd]. rewrite H2. eexists; split; [reflexivity|]. cbn [den]. rewrite Ec.
    destruct (Z.leb_spec (zlen a) (zlen b)); [|lia]. exact H4.
  - eapply carry_contiguous_den; eauto. destruct (regular_inv _ _ _ _ Hd) as (ws & segs & Ec & Hs & -> & Hl & Hseg & _).
    destruct (map_comp_nth _ _ _ _ Hp) as (segs' & Hsegs' & <-).
    rewrite regular_nextcarry by (auto; rewrite ?zlen_alloc; nia). cbn [bind].
    assert (Hl' : forall l, In l segs' -> zlen l = size).
    { intros l Hin. destruct (In_nthZ _ _ Hin) as [i Hi]. destruct (omap_nth' _ _ _ _ _ Hsegs' Hi) as (j & _ & Hj). apply Hl. eapply nthZ_In; eauto. }
    destruct (IHc ws (concat (map (fun c => zseq (c * size) ((c + 1) * size)) cry)) (concat segs') Ec) as (c' & Hc' & Hd').
    { rewrite omap_concat, omap_map. erewrite omap_ext; [rewrite Hsegs'; reflexivity|]. intros i Hi. cbn beta.
      destruct (omap_In _ _ _ _ Hsegs' Hi) as (l & Hli & _). rewrite Hli. pose proof (nthZ_Some _ _ _ Hli). destruct (Hseg _ _ Hli) as [-> Hb].
      apply omap_nthZ_zseq; nia. }
    rewrite Hc'. cbn [bind]. unfold mkRegular. pose proof (den_length _ _ Hd') as HL. cbn [length_].
    pose proof (zlen_nonneg (concat segs')). pose proof (omap_zlen _ _ _ Hsegs').
    destruct (Z.ltb_spec size 0); [lia|].
    assert (0 <= (if negb (size =? 0) then Z.quot (length_ c') size else zlen cry)).
    { destruct (Z.eqb_spec size 0); cbn [negb]; [lia|]. rewrite HL. rewrite Z.quot_div_nonneg by lia. apply Z.div_pos; lia. }
    destruct (Z.ltb_spec (if negb (size =? 0) then Z.quot (length_ c') size else zlen cry) 0); [lia|].
    eexists; split; [reflexivity|]. apply regular_den; auto.
  - eapply carry_contiguous_den; eauto. cbn [den] in Hd. destruct (den c) as [ws|] eqn:Ec; [|discriminate].
    destruct (omap_comp_nth _ _ _ _ _ Hd Hp) as (l' & Hl' & Hl'').
    unfold awkward_IndexedArray_getitem_carry. rewrite (for_gather_guard index cry _ l').
    + cbn [bind]. eexists; split; [reflexivity|]. cbn [den]. rewrite Ec. exact Hl''.
    + exact Hl'.
    + reflexivity.
    + now rewrite zlen_alloc.
    + intros i Hi. pose proof (omap_nthZ_range _ _ _ Hl' i Hi). lia.
  - eapply carry_contiguous_den; eauto. cbn [den] in Hd. destruct (den c) as [ws|] eqn:Ec; [|discriminate].
    destruct (omap_comp_nth _ _ _ _ _ Hd Hp) as (l' & Hl' & Hl'').
    unfold awkward_IndexedArray_getitem_carry. rewrite (for_gather_guard index cry _ l').
    + cbn [bind]. eexists; split; [reflexivity|]. cbn [den]. rewrite Ec. exact Hl''.
    + exact Hl'.
    + reflexivity.
    + now rewrite zlen_alloc.
    + intros i Hi. pose proof (omap_nthZ_range _ _ _ Hl' i Hi). lia.
  - eapply carry_contiguous_den; eauto. destruct (den c) as [ws|] eqn:Ec; [|cbn [den] in Hd; rewrite Ec in Hd; discriminate].
    eapply bytemasked_carry; eauto.
  - eapply carry_contiguous_den; eauto. destruct (bitmasked_den _ _ _ _ _ _ Hd) as [Hlen Hd2]. rewrite bytemask0_spec by lia. cbn [bind].
    set (bm := map _ _) in *. destruct (den c) as [ws|] eqn:Ec; [|cbn [den] in Hd; rewrite Ec in Hd; discriminate].
    assert (Hle : zlen bm <= zlen ws) by (cbn [den] in Hd2; rewrite Ec in Hd2; destruct (Z.leb_spec (zlen bm) (zlen ws)); [lia|discriminate]).
    unfold mkByteMasked at 1. rewrite (den_length _ _ Ec). destruct (Z.ltb_spec (zlen ws) (zlen bm)); [lia|]. cbn [bind].
    eapply carry_contiguous_den; eauto. eapply bytemasked_carry; eauto.
  - eapply carry_contiguous_den; eauto. cbn [den] in Hd. destruct (IHc _ _ _ Hd Hp) as (c' & -> & Hd'). cbn. eauto.
  - destruct lazy.
    { eexists; split; [reflexivity|]. change (den (Indexed cry (Record keys len cs))) with
        (match den (Record keys len cs) with Some vs => omap (nthZ vs) cry | None => None end). now rewrite Hd. }
    eapply carry_contiguous_den; eauto. pose proof (den_length _ _ Hd) as HL. cbn [length_] in HL. cbn [den] in Hd.
    destruct (omap den cs) as [vss|] eqn:Ecs; [|discriminate].
    destruct (Z.leb_spec 0 len); [|discriminate]. destruct (keys_ok keys (zlen cs)) eqn:Ek; [|discriminate]. cbn [andb] in Hd.
    pose proof (omap_nthZ_range _ _ _ Hp) as Hr.
    assert (Hvs : forall v i, In v vss -> In i cry -> 0 <= i < zlen v).
    { intros v i Hv Hi. specialize (Hr i Hi). destruct (omap_nth _ _ _ i i Hd) as [_ [y Hy]]; [rewrite nthZ_zseq by lia; f_equal; lia|].
      destruct (omap (fun vs => nthZ vs i) vss) as [row|] eqn:Er; [|discriminate].
      destruct (omap_In _ _ _ _ Er Hv) as (z & Hz & _); apply nthZ_Some in Hz; lia. }
    destruct (mapres_den (fun c => carry c cry false) den (fun v => omap (nthZ v) cry) cs vss Ecs) as (cs' & vss' & H1 & H2 & H3 & H4).
    { intros c v Hc Hcv. rewrite Forall_forall in H. destruct (omap_In _ _ _ _ Ecs Hc) as (v0 & Hv0 & Hin). rewrite Hcv in Hv0. injection Hv0 as <-.
      destruct (omap_nthZ_total v cry) as [v' Hv']; [intros; apply Hvs; auto|].
      destruct (H c Hc v cry v' Hcv Hv') as (c' & Hc' & Hd'). eauto. }
    rewrite H1. cbn [bind]. assert (mkRecord keys (zlen cry) cs' = Ok (Record keys (zlen cry) cs')) as ->.
    { unfold mkRecord. destruct keys as [ks|]; [|reflexivity]. cbn [keys_ok] in Ek. rewrite H4, Ek. reflexivity. }
    eexists; split; [reflexivity|]. cbn [den]. rewrite H2, H4, Ek. destruct (Z.leb_spec 0 (zlen cry)); [|lia]. cbn [andb].
    pose proof (omap_zlen _ _ _ Hp). apply omap_intro; [rewrite zlen_zseq; lia|]. intros i x Hx.
    pose proof (nthZ_Some _ _ _ Hx) as Hi. rewrite zlen_zseq in Hi by lia. rewrite nthZ_zseq in Hx by lia. injection Hx as <-. rewrite Z.add_0_l.
    destruct (nthZ_lt cry i) as [j Hj]; [lia|]. destruct (omap_nth _ _ _ _ _ Hp Hj) as [<- _]. specialize (Hr j (nthZ_In _ _ _ Hj)).
    destruct (omap_nth _ _ _ j j Hd) as [<- _]; [rewrite nthZ_zseq by lia; f_equal; lia|]. f_equal.
    rewrite (omap_comp _ _ _ _ H3). apply omap_ext. intros v Hv. destruct (omap_In _ _ _ _ H3 Hv) as (v' & Hv' & _). rewrite Hv'.
    now destruct (omap_nth _ _ _ _ _ Hv' Hj) as [<- _].
  - eapply carry_contiguous_den; eauto. cbn [den] in Hd. destruct (omap den cs) as [vss|] eqn:Ecs; [|discriminate].
    destruct (Z.leb_spec 1 (zlen cs)); [|discriminate]. destruct (Z.leb_spec (zlen tags) (zlen index)); [|discriminate]. cbn [andb] in Hd.
    destruct (Z.ltb_spec (zlen index) (zlen tags)); [lia|].
    destruct (omap_comp_nth _ _ _ _ _ Hd Hp) as (l' & Hl' & Hl'').
    destruct (combine_comp_nth tags index cry l') as (t' & i' & Ht & Hi & -> & Hlen); [lia|exact Hl'|].
    unfold awkward_index_carry, awkward_index_carry_nocheck. rewrite (for_gather_guard tags cry _ t').
    + cbn [bind]. rewrite (for_gather index cry _ i') by (auto; rewrite ?zlen_alloc; lia). cbn [bind].
      unfold mkUnion. destruct cs as [|c0 cs0]; [change (zlen (@nil content)) with 0 in *; lia|].
      destruct (Z.ltb_spec (zlen i') (zlen t')); [lia|]. eexists; split; [reflexivity|]. cbn [den]. rewrite Ecs.
      destruct (Z.leb_spec 1 (zlen (c0 :: cs0))); [|lia]. destruct (Z.leb_spec (zlen t') (zlen i')); [|lia]. exact Hl''.
    + exact Ht.
    + reflexivity.
    + now rewrite zlen_alloc.
    + intros i Hii. pose proof (omap_nthZ_range _ _ _ Ht i Hii). lia.
Qed.
