(** Proofs about the reducers: option types. *)
From Verif Require Import Base BaseLemmas OmapLemmas LoopLemmas Content KCore Core KConvert Convert KOption Option KAxis Axis KReduce Reduce SpecArray SpecForm SpecMerge SpecReduce
  PCore PCarry PList PConvert POption PForm PAxis PNat PPadK PNum PFlatten PReduceK PReduceF.

Lemma pick_all {A} n (l : list A) : pick (map (fun _ => true) l) l = l /\ (zlen l <= n -> pick (map (fun _ : Z => true) (zseq 0 n)) l = l).
Proof.
  split; [induction l as [|x l IH]; simpl; congruence|]. intros Hn.
  assert (G : forall a, zlen l <= n - a -> pick (map (fun _ : Z => true) (zseq a n)) l = l); [|apply G; lia]. clear Hn.
  induction l as [|x l IH]; intros a Ha; [apply pick_nil|]. rewrite zlen_cons in Ha. pose proof (zlen_nonneg l). rewrite zseq_cons by lia. simpl. rewrite IH by lia. reflexivity.
Qed.
Lemma zlen_pick {A B} fl (a : list A) (b : list B) : zlen a = zlen b -> zlen (pick fl a) = zlen (pick fl b).
Proof.
  revert a b; induction fl as [|x p IH]; intros [|y a] [|z b] H; simpl; try reflexivity; rewrite ?zlen_cons in H; try (change (zlen (@nil A)) with 0 in H); try (change (zlen (@nil B)) with 0 in H);
    try (pose proof (zlen_nonneg a)); try (pose proof (zlen_nonneg b)); try lia.
  destruct x; rewrite ?zlen_cons; rewrite (IH a b) by lia; reflexivity.
Qed.
Lemma zlen_pick_filter {X A} (p : X -> bool) xs (l : list A) : zlen l = zlen xs -> zlen (pick (map p xs) l) = zlen (filter p xs).
Proof. intros H. rewrite filter_pick. apply zlen_pick. exact H. Qed.
Lemma ranks_flags {X} (p : X -> bool) xs k : ranks (fun b : bool => b) k (map p xs) = ranks p k xs.
Proof. revert k; induction xs as [|x xs IH]; intros k; simpl; [reflexivity|]. rewrite !IH. reflexivity. Qed.

(** ** the kernels *)
Lemma for_next3 {X} (xs : list X) (p : X -> bool) (h : X -> Z) (parents : list Z) (body : Z -> Z * list Z * list Z * list Z -> res (Z * list Z * list Z * list Z)) tc tp oi n :
  n = zlen xs -> zlen parents = n -> zlen tc = zlen (filter p xs) -> zlen tp = zlen (filter p xs) -> zlen oi = n ->
  (forall i x k t q o, nthZ xs i = Some x -> body i (k, t, q, o) =
     if p x then let* t := wr t k (h x) in let* a := rd parents i in let* q := wr q k a in let* o := wr o i k in Ok (k + 1, t, q, o)
     else let* o := wr o i (-1) in Ok (k, t, q, o)) ->
  for_ 0 n body (0, tc, tp, oi) = Ok (zlen (filter p xs), map h (filter p xs), pick (map p xs) parents, ranks p 0 xs).
Proof.
  intros -> Hp Htc Htp Hoi HB.
  destruct (for_list xs (fun d st => exists t q o, st = (zlen (filter p d), map h (filter p d) ++ t, pick (map p d) parents ++ q, ranks p 0 d ++ o) /\
     zlen (filter p d) + zlen t = zlen (filter p xs) /\ zlen (filter p d) + zlen q = zlen (filter p xs) /\ zlen d + zlen o = zlen xs) body (0, tc, tp, oi)) as (st & HF & t & q & o & -> & L1 & L2 & L3).
  - exists tc, tp, oi. split; [reflexivity|]. change (zlen (filter p [])) with 0. change (zlen (@nil X)) with 0. lia.
  - intros d x r st Hd (t & q & o & -> & L1 & L2 & L3).
    assert (Hx : nthZ xs (zlen d) = Some x) by (rewrite <- Hd; apply nthZ_mid). rewrite (HB _ _ _ _ _ _ Hx).
    pose proof (nthZ_Some _ _ _ Hx) as Hdl. destruct (nthZ_lt parents (zlen d)) as [a Ha]; [lia|].
    assert (PD : pick (map p (d ++ [x])) parents = pick (map p d) parents ++ (if p x then [a] else [])).
    { rewrite map_app. assert (E : exists P1 P2, parents = P1 ++ a :: P2 /\ zlen P1 = zlen d).
      { exists (slice 0 (zlen d) parents), (slice (zlen d + 1) (zlen parents) parents). pose proof (zlen_nonneg d). split; [|rewrite zlen_slice by lia; lia].
        rewrite <- (slice_cons_nth (zlen d) (zlen parents) parents a) by (assumption || lia). rewrite <- slice_split by lia. rewrite slice_full. reflexivity. }
      destruct E as (P1 & P2 & -> & HP1). rewrite pick_app by (rewrite zlen_map; lia). simpl. 
      replace (pick (map p d) (P1 ++ a :: P2)) with (pick (map p d) P1); [destruct (p x); reflexivity|].
      rewrite <- (app_nil_r (map p d)) at 2. rewrite pick_app by (rewrite zlen_map; lia). simpl. rewrite app_nil_r. reflexivity. }
    assert (Hrk : zlen (ranks p 0 d) = zlen d) by apply zlen_ranks. assert (Ho : 0 < zlen o).
    { assert (zlen xs = zlen d + (zlen r + 1)) by (rewrite <- Hd, zlen_app, zlen_cons; lia). pose proof (zlen_nonneg r). lia. }
    assert (RK : ranks p 0 (d ++ [x]) = ranks p 0 d ++ [if p x then zlen (filter p d) else -1]) by (rewrite ranks_app; simpl; destruct (p x); f_equal; f_equal; lia).
    rewrite filter_app_snoc, RK, PD. destruct (p x) eqn:Epx.
    + pose proof (zlen_filter_split p d x r xs Hd Epx) as Hlt.
      destruct (wr_push' (map h (filter p d)) t (h x)) as (t' & Ht' & Lt'); [lia|]. rewrite zlen_map in Ht'. rewrite Ht'. cbn [bind].
      unfold rd. rewrite Ha. cbn [bind].
      assert (HPL : zlen (pick (map p d) parents) = zlen (filter p d)).
      { rewrite <- (zlen_pick_filter p d (slice 0 (zlen d) parents)) by (pose proof (zlen_nonneg d); rewrite zlen_slice by lia; lia). f_equal. pose proof (zlen_nonneg d).
        rewrite <- (slice_full parents) at 1. rewrite (slice_split 0 (zlen d) (zlen parents)) by lia. rewrite <- (app_nil_r (map p d)) at 1. rewrite pick_app by (rewrite zlen_map, zlen_slice by lia; lia). simpl. apply app_nil_r. }
      destruct (wr_push' (pick (map p d) parents) q a) as (q' & Hq' & Lq'); [lia|]. rewrite HPL in Hq'. rewrite Hq'. cbn [bind].
      destruct (wr_push' (ranks p 0 d) o (zlen (filter p d))) as (o' & Ho' & Lo'); [lia|]. rewrite Hrk in Ho'. rewrite Ho'. cbn [bind].
      eexists. split; [reflexivity|]. exists t', q', o'. rewrite !zlen_app, map_app. cbn [map]. change (zlen [x]) with 1. split; [reflexivity|]. lia.
    + destruct (wr_push' (ranks p 0 d) o (-1)) as (o' & Ho' & Lo'); [lia|]. rewrite Hrk in Ho'. rewrite Ho'. cbn [bind].
      eexists. split; [reflexivity|]. exists t, q, o'. rewrite !app_nil_r, zlen_app. change (zlen [x]) with 1. split; [reflexivity|]. lia.
  - rewrite HF. pose proof (zlen_nonneg t). pose proof (zlen_nonneg q). pose proof (zlen_nonneg o). rewrite (zlen_0 t), (zlen_0 q), (zlen_0 o) by lia. rewrite !app_nil_r. reflexivity.
Qed.

(** what the kernels find out about an option-type node: which elements are there *)
Definition next3_ok (vs ws : list value) (parents : list Z) (next3 : res (list Z * list Z * list Z)) (valid : Z -> res bool) (fl : list bool) (nc : list Z) : Prop :=
  next3 = Ok (nc, pick fl parents, ranks (fun b => b) 0 fl) /\ zlen fl = zlen vs /\ omap (nthZ ws) nc = Some (pick fl vs) /\
  (forall i, nthZ fl i = Some false -> nthZ vs i = Some VNone) /\ (forall i b, nthZ fl i = Some b -> valid i = Ok b).
Lemma pick_omap {X} (p : X -> bool) (h : X -> Z) (ws vs : list value) xs : omap (fun x => if p x then nthZ ws (h x) else Some VNone) xs = Some vs ->
  omap (nthZ ws) (map h (filter p xs)) = Some (pick (map p xs) vs) /\ (forall i, nthZ (map p xs) i = Some false -> nthZ vs i = Some VNone) /\ zlen vs = zlen xs.
Proof.
  revert vs; induction xs as [|x xs IH]; intros vs H; simpl in H; [injection H as <-; simpl; repeat split; intros i Hi; change (@nthZ bool [] i = Some false) in Hi; rewrite nthZ_nil in Hi; discriminate|].
  destruct (p x) eqn:Ep.
  - destruct (nthZ ws (h x)) as [v|] eqn:Ev; [|discriminate]. destruct (omap _ xs) as [vs'|] eqn:Eo; [|discriminate]. injection H as <-. destruct (IH vs' eq_refl) as (A & B & C).
    simpl. rewrite Ep. simpl. rewrite Ev, A. split; [reflexivity|]. split; [|rewrite !zlen_cons; lia]. intros i Hi. change (nthZ (true :: map p xs) i = Some false) in Hi. rewrite (nthZ_cons true) in Hi. rewrite nthZ_cons. destruct (i =? 0); [discriminate Hi|]. apply B. exact Hi.
  - destruct (omap _ xs) as [vs'|] eqn:Eo; [|discriminate]. injection H as <-. destruct (IH vs' eq_refl) as (A & B & C).
    simpl. rewrite Ep. split; [exact A|]. split; [|rewrite !zlen_cons; lia]. intros i Hi. change (nthZ (false :: map p xs) i = Some false) in Hi. rewrite (nthZ_cons false) in Hi. rewrite nthZ_cons. destruct (i =? 0); [reflexivity|]. apply B. exact Hi.
Qed.
Lemma bytemasked_next3 mask vw c ws vs parents : den c = Some ws -> den (ByteMasked mask vw c) = Some vs -> zlen parents = zlen vs ->
  exists fl nc, next3_ok vs ws parents (let* numnull := awkward_ByteMaskedArray_numnull mask (zlen mask) vw in
     awkward_ByteMaskedArray_reduce_next_64 (alloc (zlen mask - numnull)) (alloc (zlen mask - numnull)) (alloc (zlen mask)) mask parents (zlen mask) vw)
    (fun i => let* m := rd mask i in Ok (Bool.eqb (negb (m =? 0)) vw)) fl nc.
Proof.
  intros Hc Hd Hp. cbn [den] in Hd. rewrite Hc in Hd. destruct (Z.leb_spec (zlen mask) (zlen ws)); [|discriminate]. injection Hd as Hd.
  pose proof (zlen_nonneg mask). unfold awkward_ByteMaskedArray_numnull, awkward_ByteMaskedArray_reduce_next_64.
  set (p := fun i => match nthZ mask i with Some m => Bool.eqb (negb (m =? 0)) vw | None => false end).
  assert (Hvs : zlen vs = zlen mask) by (rewrite <- Hd, zlen_map, zlen_combine_le by lia; reflexivity).
  destruct (pick_omap p (fun i => i) ws vs (zseq 0 (zlen mask))) as (A & B & C).
  { rewrite <- Hd, <- (omap_Some_map (fun mv => if Bool.eqb (negb (fst mv =? 0)) vw then snd mv else VNone)).
    assert (E : omap (nthZ (combine mask ws)) (zseq 0 (zlen mask)) = Some (combine mask ws)).
    { rewrite omap_nthZ_zseq by (rewrite ?zlen_combine_le; lia). rewrite slice_full'; [reflexivity|]. rewrite zlen_combine_le; lia. }
    rewrite (omap_comp _ _ _ _ E). apply omap_ext. intros i Hi. apply In_zseq in Hi. rewrite nthZ_combine. unfold p.
    destruct (nthZ_lt mask i) as [m ->]; [lia|]. destruct (nthZ_lt ws i) as [w ->]; [lia|]. cbn [fst snd]. destruct (Bool.eqb _ vw); reflexivity. }
  exists (map p (zseq 0 (zlen mask))), (map (fun i => i) (filter p (zseq 0 (zlen mask)))).
  rewrite (for_count (zseq 0 (zlen mask)) (fun i => negb (p i))).
  2: rewrite zlen_zseq; lia.
  2: { intros i x k Hx. zpos Hx Hi. unfold p. destruct (rd_in mask i) as (x & -> & ->); [lia|]. reflexivity. }
  cbn [bind]. pose proof (filter_negb p (zseq 0 (zlen mask))) as Hn. rewrite zlen_zseq in Hn by lia. pose proof (zlen_nonneg (filter p (zseq 0 (zlen mask)))).
  rewrite (for_next3 (zseq 0 (zlen mask)) p (fun i => i) parents).
  2: rewrite zlen_zseq; lia.
  2: lia.
  2: rewrite zlen_alloc; lia.
  2: rewrite zlen_alloc; lia.
  2: rewrite zlen_alloc; lia.
  2: { intros i x k t q o Hx. zpos Hx Hi. unfold p. destruct (rd_in mask i) as (x & -> & ->); [lia|]. reflexivity. }
  cbn [bind]. split; [rewrite ranks_flags; reflexivity|]. split; [rewrite zlen_map, zlen_zseq by lia; lia|]. split; [exact A|]. split; [exact B|].
  intros i b Hb. pose proof (nthZ_Some _ _ _ Hb) as Hi. rewrite zlen_map, zlen_zseq in Hi by lia. rewrite nthZ_map, nthZ_zseq in Hb by lia. cbn [option_map] in Hb. injection Hb as <-. unfold p. rewrite Z.add_0_l.
  destruct (rd_in mask i) as (x & -> & ->); [lia|]. reflexivity.
Qed.
Lemma indexed_next3 index c ws vs parents : den c = Some ws -> den (IndexedOption index c) = Some vs -> zlen parents = zlen vs ->
  exists fl nc, next3_ok vs ws parents (let* numnull := awkward_IndexedArray_numnull index (zlen index) in
     awkward_IndexedArray_reduce_next_64 (alloc (zlen index - numnull)) (alloc (zlen index - numnull)) (alloc (zlen index)) index parents (zlen index))
    (fun i => let* j := rd index i in Ok (0 <=? j)) fl nc /\ fl = map (fun i => 0 <=? i) index.
Proof.
  intros Hc Hd Hp. cbn [den] in Hd. rewrite Hc in Hd. pose proof (zlen_nonneg index). unfold awkward_IndexedArray_numnull, awkward_IndexedArray_reduce_next_64.
  set (p := fun i => 0 <=? i).
  destruct (pick_omap p (fun i => i) ws vs index) as (A & B & C).
  { rewrite <- Hd. apply omap_ext. intros i _. unfold p. destruct (Z.ltb_spec i 0), (Z.leb_spec 0 i); try lia; reflexivity. }
  exists (map p index), (map (fun i => i) (filter p index)). split; [|reflexivity].
  rewrite (for_count index (fun i => negb (p i))).
  2: reflexivity.
  2: { intros i x k Hx. unfold p. apply rd_Ok in Hx. rewrite Hx. cbn [bind]. destruct (Z.ltb_spec x 0), (Z.leb_spec 0 x); try lia; reflexivity. }
  cbn [bind]. pose proof (filter_negb p index) as Hn. pose proof (zlen_nonneg (filter p index)).
  rewrite (for_next3 index p (fun i => i) parents).
  2: reflexivity.
  2: lia.
  2: rewrite zlen_alloc; lia.
  2: rewrite zlen_alloc; lia.
  2: rewrite zlen_alloc; lia.
  2: { intros i x k t q o Hx. unfold p. apply rd_Ok in Hx. rewrite Hx. cbn [bind]. reflexivity. }
  cbn [bind]. split; [rewrite ranks_flags; reflexivity|]. split; [rewrite zlen_map; lia|]. split; [exact A|]. split; [exact B|].
  intros i b Hb. rewrite nthZ_map in Hb. destruct (nthZ index i) as [j|] eqn:Ej; [|discriminate]. injection Hb as <-. unfold rd. rewrite Ej. reflexivity.
Qed.

(** ** shifts *)
Fixpoint shifted (fl : list bool) (sh : list Z) (nulls : Z) : list Z :=
  match fl, sh with
  | b :: fl, s :: sh => if b then (s + nulls) :: shifted fl sh nulls else shifted fl sh (nulls + 1)
  | _, _ => []
  end.
Lemma zlen_shifted fl : forall sh k, zlen (shifted fl sh k) = zlen (pick fl sh).
Proof. induction fl as [|b fl IH]; intros [|s sh] k; simpl; try reflexivity. destruct b; rewrite ?zlen_cons, IH; reflexivity. Qed.
Lemma nextshifts_ok fl sh valid shift out : zlen sh = zlen fl -> zlen out = zlen (pick fl sh) ->
  (forall i b, nthZ fl i = Some b -> valid i = Ok b) -> (forall i s, nthZ sh i = Some s -> shift i = Ok s) ->
  nextshifts_loop valid shift out (zlen fl) = Ok (shifted fl sh 0).
Proof.
  intros Hl Ho HV HS. unfold nextshifts_loop.
  assert (G : forall fl2 sh2 fl1 k nulls d rest, fl = fl1 ++ fl2 -> zlen sh2 = zlen fl2 -> (forall i s, nthZ sh2 i = Some s -> shift (zlen fl1 + i) = Ok s) -> k = zlen d -> zlen rest = zlen (pick fl2 sh2) ->
    exists a b, for_ (zlen fl1) (zlen fl) (fun i st => let '(nullsum, k, nextshifts) := st in let* v := valid i in if v then let* s := shift i in let* nextshifts := wr nextshifts k (s + nullsum) in Ok (nullsum, k + 1, nextshifts) else Ok (nullsum + 1, k, nextshifts)) (nulls, k, d ++ rest)
      = Ok (a, b, d ++ shifted fl2 sh2 nulls)).
  { induction fl2 as [|b fl2 IH]; intros [|s sh2] fl1 k nulls d rest Hf Hz HSh Hk Hr; rewrite ?zlen_cons in Hz; try (change (zlen (@nil Z)) with 0 in Hz); try (change (zlen (@nil bool)) with 0 in Hz); try (pose proof (zlen_nonneg fl2)); try (pose proof (zlen_nonneg sh2)); try lia.
    - rewrite app_nil_r in Hf. subst fl. rewrite for_nil by lia. simpl in Hr. change (zlen (@nil Z)) with 0 in Hr. rewrite (zlen_0 rest) by lia. simpl. eauto.
    - assert (Hi : nthZ fl (zlen fl1) = Some b) by (rewrite Hf; apply nthZ_mid). pose proof (nthZ_Some _ _ _ Hi). rewrite for_step by lia. rewrite (HV _ _ Hi). cbn [bind].
      assert (Hs : shift (zlen fl1) = Ok s) by (specialize (HSh 0 s eq_refl); rewrite Z.add_0_r in HSh; exact HSh).
      assert (HSh' : forall i s0, nthZ sh2 i = Some s0 -> shift (zlen (fl1 ++ [b]) + i) = Ok s0).
      { intros i s0 H2. rewrite zlen_app. change (zlen [b]) with 1. rewrite <- Z.add_assoc. apply HSh. rewrite nthZ_cons. pose proof (nthZ_Some _ _ _ H2). destruct (Z.eqb_spec (1 + i) 0); [lia|]. replace (1 + i - 1) with i by lia. exact H2. }
      assert (Hf' : fl = (fl1 ++ [b]) ++ fl2) by (rewrite <- app_assoc; exact Hf).
      replace (zlen fl1 + 1) with (zlen (fl1 ++ [b])) by (rewrite zlen_app; reflexivity).
      destruct b; simpl in Hr |- *.
      + rewrite Hs. cbn [bind]. rewrite zlen_cons in Hr. pose proof (zlen_nonneg (pick fl2 sh2)). destruct (wr_push' d rest (s + nulls)) as (rest' & Hw & Hl'); [lia|]. rewrite Hk, Hw. cbn [bind].
        destruct (IH sh2 (fl1 ++ [true]) (zlen d + 1) nulls (d ++ [s + nulls]) rest' Hf' ltac:(lia) HSh' ltac:(rewrite zlen_app; reflexivity) ltac:(lia)) as (x & y & E). rewrite E. exists x, y. rewrite <- app_assoc. reflexivity.
      + destruct (IH sh2 (fl1 ++ [false]) k (nulls + 1) d rest Hf' ltac:(lia) HSh' Hk Hr) as (x & y & E). cbn [bind] in *. rewrite E. eauto. }
  destruct (G fl sh [] 0 0 [] out eq_refl Hl ltac:(intros i s Hi; change (zlen (@nil bool)) with 0; rewrite Z.add_0_l; apply HS; exact Hi) eq_refl Ho) as (a & b & E).
  change (zlen (@nil bool)) with 0 in E. cbn [app] in E. rewrite E. reflexivity.
Qed.
Lemma placed_pick starts fl : forall sh parents tags j nulls, zlen sh = zlen parents -> zlen tags = zlen parents ->
  (forall i p tag, nthZ parents i = Some p -> nthZ tags i = Some tag -> exists s h, nthZ starts p = Some s /\ nthZ sh i = Some h /\ tag = j + i + h - s) ->
  (forall i p tag, nthZ (pick fl parents) i = Some p -> nthZ (pick fl tags) i = Some tag -> exists s h, nthZ starts p = Some s /\ nthZ (shifted fl sh nulls) i = Some h /\ tag = j - nulls + i + h - s).
Proof.
  induction fl as [|b fl IH]; intros [|h sh] [|p parents] [|t tags] j nulls H1 H2 HP i p' tag Hi Ht; rewrite ?zlen_cons in *; simpl in Hi, Ht; rewrite ?nthZ_nil in *; try discriminate;
    try (change (zlen (@nil Z)) with 0 in *); try (pose proof (zlen_nonneg parents)); try (pose proof (zlen_nonneg sh)); try lia.
  assert (HP' : forall i p tag, nthZ parents i = Some p -> nthZ tags i = Some tag -> exists s h, nthZ starts p = Some s /\ nthZ sh i = Some h /\ tag = (j + 1) + i + h - s).
  { intros i0 p0 t0 A B. pose proof (nthZ_Some _ _ _ A). destruct (HP (i0 + 1) p0 t0) as (s & h' & X & Y & Z0); [rewrite nthZ_cons; destruct (Z.eqb_spec (i0 + 1) 0); [lia|]; replace (i0 + 1 - 1) with i0 by lia; exact A|rewrite nthZ_cons; destruct (Z.eqb_spec (i0 + 1) 0); [lia|]; replace (i0 + 1 - 1) with i0 by lia; exact B|].
    rewrite nthZ_cons in Y. destruct (Z.eqb_spec (i0 + 1) 0); [lia|]. replace (i0 + 1 - 1) with i0 in Y by lia. exists s, h'. repeat split; try assumption. lia. }
  destruct b; simpl.
  - rewrite nthZ_cons in Hi. rewrite nthZ_cons in Ht. rewrite nthZ_cons. destruct (Z.eqb_spec i 0) as [->|Hne].
    + injection Hi as <-. injection Ht as <-. destruct (HP 0 p t eq_refl eq_refl) as (s & h' & X & Y & Z0). injection Y as <-. exists s, (h + nulls). repeat split; try assumption. lia.
    + destruct (IH sh parents tags (j + 1) nulls ltac:(lia) ltac:(lia) HP' _ _ _ Hi Ht) as (s & h' & X & Y & Z0). exists s, h'. repeat split; try assumption. lia.
  - destruct (IH sh parents tags (j + 1) (nulls + 1) ltac:(lia) ltac:(lia) HP' _ _ _ Hi Ht) as (s & h' & X & Y & Z0). exists s, h'. repeat split; try assumption. lia.
Qed.
