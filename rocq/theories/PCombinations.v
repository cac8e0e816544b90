(** combinations: proofs. *)
From Verif Require Import Base BaseLemmas LoopLemmas Content KCore Core KConvert Convert KOption Option KAxis Axis KCombinations Combinations
  SpecArray SpecForm SpecAxis SpecOption SpecConvert SpecCombinations OmapLemmas PCore PCarry PList PConvert POption PForm PNat PAxis PLocalIndex PCombos.

(** ** slicing and carrying keep the sizes of the RegularArrays *)
Lemma mapres_regs (f : content -> res content) cs cs' :
  Forall (fun c => forall c', f c = Ok c' -> regular_sizes c' = regular_sizes c) cs -> mapres f cs = Ok cs' ->
  map regular_sizes cs' = map regular_sizes cs.
Proof.
  intros HF; revert cs'; induction HF as [|c cs Hc _ IH]; intros cs' H; simpl in H; [injection H as <-; reflexivity|].
  binv H. injection H as <-. simpl. rewrite (Hc _ E), (IH _ E0). reflexivity.
Qed.
Lemma range_regs c : forall a b c', getitem_range_nowrap c a b = Ok c' -> regular_sizes c' = regular_sizes c.
Proof.
  induction c using content_ind'; intros a b c' H0; simpl in H0; binv H0; try (mkinv H0; subst; reflexivity);
    try (mkinv H0; subst; simpl; first [eapply IHc; eassumption | f_equal; eapply IHc; eassumption]).
  destruct cs as [|c0 cs]; [mkinv H0; subst; reflexivity|]. binv H0; [injection H0 as <-; reflexivity|].
    mkinv H0; subst. cbn [regular_sizes]. rewrite (mapres_regs (fun c => getitem_range_nowrap c a b) (c0 :: cs) a0); [reflexivity| |exact E].
    eapply Forall_impl; [|exact H]; intros c Hc c' Hc'; eapply Hc; exact Hc'.
Qed.
Lemma contiguous_regs c cry k c' : carry_contiguous c cry k = Ok c' -> (k tt = Ok c' -> regular_sizes c' = regular_sizes c) -> regular_sizes c' = regular_sizes c.
Proof.
  unfold carry_contiguous; intros H Hk. binv H.
  - injection H as <-. reflexivity.
  - eapply range_regs; exact H.
  - auto.
Qed.
Lemma carry_regs c : forall cry lz c', carry c cry lz = Ok c' -> regular_sizes c' = regular_sizes c.
Proof.
  induction c using content_ind'; intros cry lz c' H0; cbn [carry] in H0;
    try (eapply contiguous_regs; [exact H0|clear H0; intros H0; cbv beta in H0]); binv H0; try (mkinv H0; subst; reflexivity);
    try (mkinv H0; subst; simpl; first [eapply IHc; eassumption | f_equal; eapply IHc; eassumption]).
  - assert (HX : regular_sizes c' = regular_sizes (ByteMasked a vw c)).
    { eapply contiguous_regs; [exact H0|clear H0; intros H0; cbv beta in H0]. binv H0. mkinv H0; subst. simpl. eapply IHc; eassumption. }
    exact HX.
  - eapply contiguous_regs; [exact H0|clear H0; intros H0; cbv beta in H0]. binv H0. mkinv H0; subst.
    cbn [regular_sizes]. rewrite (mapres_regs (fun c => carry c cry false) cs a); [reflexivity| |exact E].
    eapply Forall_impl; [|exact H]; intros c Hc c' Hc'; eapply Hc; exact Hc'.
Qed.
Lemma tolistoffset_regs is64 saz c o c' : toListOffsetArray64 is64 saz c = Ok (ListOffset o c') -> (forall s z x, c <> Regular s z x) -> regular_sizes c' = regular_sizes c.
Proof.
  intros H Hr. assert (B : forall o2, broadcast_tooffsets64 c o2 = Ok (ListOffset o c') -> regular_sizes c' = regular_sizes c).
  { intros o2 HB. destruct c; try discriminate HB; try (exfalso; eapply Hr; reflexivity); simpl in HB; unfold starts_at_0 in HB; binv HB; mkinv HB; injection HB as -> <-; simpl; eapply carry_regs; eassumption. }
  unfold toListOffsetArray64 in H. destruct c; try (simpl in H; discriminate); binv H; try (eapply B; eassumption).
  injection H as <- <-. reflexivity.
Qed.

(** ** from rows of positions to rows of values *)
Definition getd (ws : list value) (i : Z) : value := match nthZ ws i with Some v => v | None => VNone end.
Lemma slice_getd ws a b : 0 <= a <= b -> b <= zlen ws -> slice a b ws = map (getd ws) (zseq a b).
Proof.
  intros H1 H2. symmetry. rewrite (map_nthZ_slice (getd ws) (fun x => x) ws a b H1 H2); [apply map_id|]. intros i x Hi Hx. unfold getd. rewrite Hx. reflexivity.
Qed.
Lemma sub_ok_cases n ab : sub_ok n ab = true -> fst ab = snd ab \/ 0 <= fst ab <= snd ab /\ snd ab <= n.
Proof. unfold sub_ok. intros H. lia. Qed.
Lemma seg_getd ws ab : sub_ok (zlen ws) ab = true -> seg ws ab = map (getd ws) (zseq (fst ab) (snd ab)).
Proof.
  intros H. unfold seg. destruct (sub_ok_cases _ _ H) as [E|[E1 E2]]; [rewrite E, slice_nil, zseq_nil by lia; reflexivity|]. apply slice_getd; lia.
Qed.
Definition rows (n : nat) (r : bool) (l : list (Z * Z)) : list (list Z) := concat (map (fun ab => combos n r (zseq (fst ab) (snd ab))) l).
Lemma rows_values n r (ws : list value) l : forallb (sub_ok (zlen ws)) l = true -> map (map (getd ws)) (rows n r l) = concat (map (combos n r) (map (seg ws) l)).
Proof.
  intros H. unfold rows. rewrite concat_map, !map_map. f_equal. apply map_ext_in. intros ab Hin. rewrite forallb_forall in H.
  rewrite seg_getd by auto. rewrite combos_map. reflexivity.
Qed.
Lemma rows_in n r (ws : list value) l t : forallb (sub_ok (zlen ws)) l = true -> In t (rows n r l) -> length t = n /\ forall i, In i t -> 0 <= i < zlen ws.
Proof.
  intros H Hin. unfold rows in Hin. apply in_concat in Hin as (x & Hx & Ht). apply in_map_iff in Hx as (ab & <- & Hab).
  split; [eapply combos_len; exact Ht|]. intros i Hi. pose proof (combos_sub _ _ _ _ Ht i Hi) as HI. apply In_zseq in HI.
  rewrite forallb_forall in H. destruct (sub_ok_cases _ _ (H _ Hab)); lia.
Qed.

(** ** the kernel on a list of ranges *)
Lemma rows_kernel (n : Z) repl (l : list (Z * Z)) total ti fi (body : Z -> comb_state -> res comb_state) len :
  1 <= n -> len = zlen l -> total = zlen (rows (Z.to_nat n) repl l) -> n <= zlen ti -> n <= zlen fi ->
  (forall i ab tc ti fi, nthZ l i = Some ab -> body i (tc, ti, fi) =
     let* fi := wr fi 0 (fst ab) in awkward_ListArray_combinations_step (Z.to_nat n) 0 (snd ab) n repl (tc, ti, fi)) ->
  (let* ti := for_ 0 n (fun j toindex => wr toindex j 0) ti in
   let* s := for_ 0 len body (repeat (alloc total) (Z.to_nat n), ti, fi) in let '(tc, _, _) := s in Ok tc)
  = Ok (map (fun q => col q (rows (Z.to_nat n) repl l)) (zseq 0 n)).
Proof.
  intros Hn -> HT Hti Hfi Hb. set (N := Z.to_nat n) in *.
  rewrite (for_fill _ (fun _ => 0)) by (try lia; reflexivity). cbn [bind]. set (ti0 := map (fun _ => 0) (zseq 0 n) ++ slice n (zlen ti) ti).
  destruct (for_list l (fun d s => inv n total (rows N repl d) s) body (repeat (alloc total) N, ti0, fi)) as (((tc & ti1) & fi1) & E & A & B & C & D).
  - split; [rewrite zlen_repeat; unfold N; lia|]. split; [unfold ti0; rewrite zlen_app, zlen_map, zlen_zseq, zlen_slice; lia|]. split; [exact Hfi|].
    intros q Hq. split.
    + unfold ti0. rewrite nthZ_app, zlen_map, zlen_zseq by lia. destruct (Z.ltb_spec q (n - 0)); [|lia]. rewrite nthZ_map, nthZ_zseq by lia. reflexivity.
    + exists (alloc total). split; [apply nthZ_repeat; unfold N; lia|]. rewrite zlen_alloc by (pose proof (zlen_nonneg (rows N repl l)); lia). reflexivity.
  - intros d ab r ((tc & ti1) & fi1) El HI. assert (Hx : nthZ l (zlen d) = Some ab) by (rewrite <- El; apply nthZ_mid).
    rewrite (Hb _ _ _ _ _ Hx). assert (n <= zlen fi1) by apply HI. destruct (wr_spec fi1 0 (fst ab)) as (fi2 & -> & L2 & N2); [lia|]. cbn [bind].
    destruct (step_spec n total repl (snd ab) N 0 (rows N repl d) tc ti1 fi2 (fst ab) []) as (tc3 & ti3 & fi3 & E3 & HI3 & _).
    + unfold N; lia.
    + lia.
    + unfold N; lia.
    + destruct HI as (A & B & C & D). split; [exact A|]. split; [exact B|]. split; [lia|exact D].
    + rewrite N2. reflexivity.
    + reflexivity.
    + rewrite HT, <- El. unfold rows. rewrite map_app, concat_app, zlen_app. cbn [map concat]. rewrite zlen_app. match goal with |- _ <= _ + (_ + zlen ?x) => pose proof (zlen_nonneg x) end. lia.
    + exists (tc3, ti3, fi3). split; [exact E3|]. replace (rows N repl (d ++ [ab])) with (rows N repl d ++ map (app []) (combos N repl (zseq (fst ab) (snd ab)))); [exact HI3|].
      unfold rows. rewrite map_app, concat_app. cbn [map concat]. rewrite app_nil_r. f_equal. apply map_id.
  - rewrite E. cbn [bind]. cbv beta iota. f_equal. apply list_eqZ; [rewrite zlen_map, zlen_zseq; lia|]. intros q Hq. rewrite nthZ_map, nthZ_zseq by lia. cbn [option_map].
    destruct (D q ltac:(lia)) as (_ & r & -> & HR). rewrite (zlen_0 r) by lia. rewrite app_nil_r. reflexivity.
Qed.

(** ** columns make records *)
Lemma mapres_out {A} (f : A -> res content) (g : A -> list value) l :
  (forall x, In x l -> exists y, f x = Ok y /\ den y = Some (g x)) -> exists ys, mapres f l = Ok ys /\ omap den ys = Some (map g l) /\ zlen ys = zlen l.
Proof.
  induction l as [|x l IH]; intros H; cbn [mapres map]; [exists []; repeat split|].
  destruct (H x (or_introl eq_refl)) as (y & -> & Hy). destruct IH as (ys & -> & A' & B); [intros; apply H; right; assumption|]. cbn [bind].
  exists (y :: ys). cbn [omap]. rewrite Hy, A', !zlen_cons, B. repeat split.
Qed.
Lemma minlength_const cs k : cs <> [] -> 0 <= k -> (forall x, In x cs -> length_ x = k) -> minlength cs = k.
Proof.
  intros Hne Hk H. unfold minlength. destruct cs as [|c cs]; [congruence|]. cbn [fold_left]. rewrite (H c (or_introl eq_refl)). cbn [Z.ltb Z.compare orb].
  assert (G : forall l, (forall x, In x l -> length_ x = k) -> fold_left (fun out x => if (out <? 0) || (length_ x <? out) then length_ x else out) l k = k).
  { induction l as [|x l IH]; intros HL; [reflexivity|]. cbn [fold_left]. rewrite (HL x (or_introl eq_refl)). destruct ((k <? 0) || (k <? k)); apply IH; intros; apply HL; right; assumption. }
  apply G. intros x Hx. apply H. right. exact Hx.
Qed.
Lemma omap_den_in cs vss c : omap den cs = Some vss -> In c cs -> exists vs, den c = Some vs /\ In vs vss.
Proof.
  revert vss. induction cs as [|x cs IH]; intros vss H [].
  - subst. simpl in H. destruct (den c) as [vs|]; [|discriminate]. destruct (omap den cs); [|discriminate]. injection H as <-. exists vs. split; [reflexivity|left; reflexivity].
  - simpl in H. destruct (den x) as [vs|]; [|discriminate]. destruct (omap den cs) as [vss'|]; [|discriminate]. injection H as <-. destruct (IH _ eq_refl H0) as (v & A & B). exists v. split; [exact A|right; exact B].
Qed.
Lemma columns_record n (ws : list value) (R : list (list Z)) keys cs : 1 <= n -> (forall t, In t R -> zlen t = n) -> keys_ok keys n = true ->
  omap den cs = Some (map (fun q => map (getd ws) (col q R)) (zseq 0 n)) -> zlen cs = n ->
  minlength cs = zlen R /\ den (Record keys (minlength cs) cs) = Some (map (mkrow keys) (map (map (getd ws)) R)).
Proof.
  intros Hn HR Hk Hc Hl. assert (HM : minlength cs = zlen R).
  { apply minlength_const; [intros ->; change (zlen (@nil content)) with 0 in Hl; lia|apply zlen_nonneg|]. intros x Hx. destruct (omap_den_in _ _ _ Hc Hx) as (vs & Hv & Hin).
    apply in_map_iff in Hin as (q & <- & _). rewrite (den_length _ _ Hv), zlen_map. apply zlen_map. }
  split; [exact HM|]. rewrite HM. cbn [den]. rewrite Hc, Hl, Hk. pose proof (zlen_nonneg R). destruct (Z.leb_spec 0 (zlen R)); [|lia]. cbn [andb].
  transitivity (omap (fun t => Some (mkrow keys (map (getd ws) t))) R).
  - assert (E : omap (nthZ R) (zseq 0 (zlen R)) = Some R) by (rewrite omap_nthZ_zseq by lia; now rewrite slice_full).
    rewrite (omap_comp _ _ _ _ E). apply omap_ext. intros i Hi. apply In_zseq in Hi. destruct (nthZ_lt R i) as [t Ht]; [lia|]. rewrite Ht.
    rewrite omap_map. pose proof (HR t (nthZ_In _ _ _ Ht)) as Hlen.
    rewrite (omap_ext _ (fun q => Some (getd ws (match nthZ t q with Some x => x | None => 0 end)))).
    2: { intros q Hq. unfold col. rewrite map_map, nthZ_map, Ht. reflexivity. }
    rewrite omap_Some_map. cbn [option_map]. do 2 f_equal. apply map_zseq_nth. lia.
  - rewrite omap_Some_map, map_map. reflexivity.
Qed.
Lemma column_range n r (ws : list value) l q : 1 <= n -> forallb (sub_ok (zlen ws)) l = true -> 0 <= q < n ->
  omap (nthZ ws) (col q (rows (Z.to_nat n) r l)) = Some (map (getd ws) (col q (rows (Z.to_nat n) r l))).
Proof.
  intros Hn Hl Hq. rewrite <- omap_Some_map. apply omap_ext. intros i Hi. unfold getd.
  assert (HR : 0 <= i < zlen ws). { unfold col in Hi. apply in_map_iff in Hi as (t & <- & Ht). destruct (rows_in _ _ _ _ _ Hl Ht) as [A B].
    destruct (nthZ_lt t q) as [x E]; [unfold zlen; lia|]. rewrite E. apply B. eapply nthZ_In; exact E. }
  destruct (nthZ_lt ws i HR) as [v ->]. reflexivity.
Qed.
Lemma rows_len n r (ws : list value) l t : 1 <= n -> forallb (sub_ok (zlen ws)) l = true -> In t (rows (Z.to_nat n) r l) -> zlen t = n.
Proof. intros Hn Hl Ht. destruct (rows_in _ _ _ _ _ Hl Ht) as [A _]. unfold zlen. lia. Qed.

(** the carried contents make a record array whose rows are the combinations *)
Lemma carried_record n r ws l c' keys : 1 <= n -> keys_ok keys n = true -> den c' = Some ws -> forallb (sub_ok (zlen ws)) l = true ->
  exists cs, mapres (fun ptr => carry c' ptr true) (map (fun q => col q (rows (Z.to_nat n) r l)) (zseq 0 n)) = Ok cs /\
   minlength cs = zlen (rows (Z.to_nat n) r l) /\
   den (Record keys (minlength cs) cs) = Some (map (mkrow keys) (concat (map (combos (Z.to_nat n) r) (map (seg ws) l)))).
Proof.
  intros Hn Hk Hc Hl.
  destruct (mapres_out (fun ptr => carry c' ptr true) (map (getd ws)) (map (fun q => col q (rows (Z.to_nat n) r l)) (zseq 0 n))) as (cs & E & D & L).
  - intros x Hx. apply in_map_iff in Hx as (q & <- & Hq). apply In_zseq in Hq. eapply carry_den; [exact Hc|]. apply column_range; lia || assumption.
  - exists cs. split; [exact E|]. rewrite map_map in D. rewrite zlen_map, zlen_zseq in L by lia.
    destruct (columns_record n ws (rows (Z.to_nat n) r l) keys cs Hn) as [A B]; try assumption; try lia.
    + intros t Ht. eapply rows_len; eassumption.
    + split; [exact A|]. rewrite B. rewrite rows_values by exact Hl. reflexivity.
Qed.

(** ** the number of combinations of each list *)
Lemma zlen_combos_range {A} n r (s : list A) ab : 0 <= diff ab -> zlen s = diff ab -> zlen (combos n r (zseq (fst ab) (snd ab))) = zlen (combos n r s).
Proof.
  intros H0 H. unfold diff in *. assert (HL : length (zseq (fst ab) (snd ab)) = length s) by (apply Nat2Z.inj; fold (zlen s); change (Z.of_nat (length (zseq (fst ab) (snd ab)))) with (zlen (zseq (fst ab) (snd ab))); rewrite zlen_zseq; lia).
  destruct n as [|n]; [reflexivity|]. destruct r; [rewrite !zlen_combos_true|rewrite !zlen_combos_false]; rewrite HL; reflexivity.
Qed.
Lemma length_kernel n r starts stops (ws : list value) len : 1 <= n -> zlen starts <= zlen stops -> len = zlen starts -> forallb (sub_ok (zlen ws)) (combine starts stops) = true ->
  let counts := map zlen (map (combos (Z.to_nat n) r) (map (seg ws) (combine starts stops))) in
  awkward_ListArray_combinations_length (alloc (len + 1)) n r starts stops len = Ok (sumZ counts, offsets_of counts).
Proof.
  intros Hn Hss -> Hl counts. set (l := combine starts stops) in *. assert (HL : zlen l = zlen starts) by (apply zlen_combine_le; exact Hss).
  pose proof (zlen_nonneg starts). set (cnt := fun ab => zlen (combos (Z.to_nat n) r (seg ws ab))). assert (HC : counts = map cnt l) by (unfold counts; rewrite !map_map; reflexivity). clearbody counts. subst counts.
  unfold awkward_ListArray_combinations_length. destruct (wr_spec (alloc (zlen starts + 1)) 0 0) as (to & -> & L & N); [rewrite zlen_alloc; lia|]. cbn [bind]. rewrite zlen_alloc in L by lia.
  rewrite <- HL.
  match goal with |- for_ 0 _ ?b _ = _ => set (body := b) end.
  destruct (for_list l (fun d st => let '(t, o) := st in t = sumZ (map cnt d) /\ exists rest, o = offsets_of (map cnt d) ++ rest /\ zlen d + zlen rest = zlen l) body (0, to)) as ((t & o) & E & -> & rest & -> & HR).
  - split; [reflexivity|]. exists (slice 1 (zlen to) to). split; [|change (zlen (@nil (Z * Z))) with 0; rewrite zlen_slice; lia].
    assert (E : slice 0 (zlen to) to = 0 :: slice 1 (zlen to) to) by (apply (slice_cons_nth 0); [lia|rewrite N; reflexivity]). rewrite slice_full in E. exact E.
  - intros d ab rr [t o] El (-> & rest & -> & HR). unfold body. cbv beta iota.
    assert (Hx : nthZ l (zlen d) = Some ab) by (rewrite <- El; apply nthZ_mid). unfold l in Hx. rewrite nthZ_combine in Hx.
    destruct (nthZ starts (zlen d)) as [a|] eqn:Ea; [|discriminate]. destruct (nthZ stops (zlen d)) as [b|] eqn:Eb; [|discriminate]. injection Hx as <-.
    apply rd_Ok in Ea. apply rd_Ok in Eb. rewrite Ea, Eb. cbn [bind].
    assert (Hab : sub_ok (zlen ws) (a, b) = true). { rewrite forallb_forall in Hl. apply Hl. fold l. rewrite <- El. apply in_app_iff. right. left. reflexivity. }
    assert (HN : combinationslen n r (b - a) = cnt (a, b)). { unfold cnt. rewrite <- combinationslen_spec by exact Hn. rewrite zlen_seg by exact Hab. reflexivity. }
    rewrite HN. assert (HZ : zlen (offsets_of (map cnt d)) = zlen d + 1) by (rewrite zlen_offsets_of, zlen_map; reflexivity).
    assert (R0 : rd (offsets_of (map cnt d) ++ rest) (zlen d) = Ok (sumZ (map cnt d))).
    { apply rd_Ok. rewrite nthZ_app. destruct (Z.ltb_spec (zlen d) (zlen (offsets_of (map cnt d)))); [|lia]. rewrite <- (zlen_map cnt d). unfold offsets_of. rewrite nthZ_offsets_last. f_equal. }
    rewrite R0. cbn [bind]. assert (HP : 0 < zlen rest). { apply (f_equal zlen) in El. rewrite zlen_app, zlen_cons in El. pose proof (zlen_nonneg rr). lia. }
    destruct (wr_push' (offsets_of (map cnt d)) rest (sumZ (map cnt d) + cnt (a, b))) as (rest' & W & LW); [exact HP|]. rewrite HZ in W. rewrite W. cbn [bind].
    eexists. split; [reflexivity|]. rewrite map_app, sumZ_app. cbn [map sumZ fold_right]. split; [simpl; lia|]. exists rest'. split.
    + f_equal. assert (OS : forall x s y, offsets_from x (s ++ [y]) = offsets_from x s ++ [x + sumZ s + y]).
      { intros x s; revert x; induction s as [|z s IH]; intros x y; [cbn; do 2 f_equal; lia|]. change ((z :: s) ++ [y]) with (z :: (s ++ [y])). rewrite !offsets_from_cons, IH. cbn [app sumZ fold_right]. do 3 f_equal. fold (sumZ s). lia. }
      unfold offsets_of. rewrite OS. do 2 f_equal.
    + rewrite zlen_app. change (zlen [(a, b)]) with 1. lia.
  - rewrite E. rewrite (zlen_0 rest) by lia. rewrite app_nil_r. reflexivity.
Qed.
Lemma zlen_rows n r (ws : list value) l : forallb (sub_ok (zlen ws)) l = true -> zlen (rows n r l) = sumZ (map zlen (map (combos n r) (map (seg ws) l))).
Proof.
  intros Hl. unfold rows. induction l as [|ab l IH]; [reflexivity|]. cbn [forallb] in Hl. apply andb_true_iff in Hl as [H1 H2]. cbn [map concat]. rewrite zlen_app, (IH H2). cbn [sumZ fold_right]. f_equal.
  apply zlen_combos_range; [eapply sub_ok_diff; exact H1|apply zlen_seg; exact H1].
Qed.

Lemma list_combinations_good n r ws starts stops len c' keys : 1 <= n -> keys_ok keys n = true -> den c' = Some ws -> zlen starts <= zlen stops -> len = zlen starts ->
  forallb (sub_ok (zlen ws)) (combine starts stops) = true ->
  good (list_combinations starts stops len c' n r keys) (Some (map (combinations_of keys n r) (map (seg ws) (combine starts stops)))).
Proof.
  intros Hn Hk Hc Hss Hlen Hl. unfold list_combinations. rewrite (length_kernel n r starts stops ws len Hn Hss Hlen Hl). cbn [bind]. cbv beta iota.
  set (l := combine starts stops) in *. set (segs := map (combos (Z.to_nat n) r) (map (seg ws) l)).
  unfold awkward_ListArray_combinations. rewrite (rows_kernel n r l).
  2: exact Hn. 2: unfold l; rewrite zlen_combine_le by lia; exact Hlen. 2: { unfold segs. symmetry. apply zlen_rows. exact Hl. } 2,3: rewrite zlen_alloc; lia.
  2: { intros i [a b] tc ti fi Hx. unfold l in Hx. rewrite nthZ_combine in Hx.
       destruct (nthZ starts i) as [a'|] eqn:Ea; [|discriminate]. destruct (nthZ stops i) as [b'|] eqn:Eb; [|discriminate]. injection Hx as <- <-.
       apply rd_Ok in Ea. apply rd_Ok in Eb. rewrite Ea, Eb. reflexivity. }
  cbn [bind]. destruct (carried_record n r ws l c' keys Hn Hk Hc Hl) as (cs & -> & _ & D). cbn [bind].
  assert (D2 : den (ListOffset (offsets_of (map zlen segs)) (Record keys (minlength cs) cs)) = Some (map VList (map (map (mkrow keys)) segs))).
  { replace (map zlen segs) with (map zlen (map (map (mkrow keys)) segs)) by (rewrite map_map; apply map_ext; intros; apply zlen_map). apply listoffset_den0. rewrite D, concat_map. reflexivity. }
  rewrite (mkListOffset_den _ _ _ D2). eexists. split; [reflexivity|]. rewrite D2. unfold segs. rewrite !map_map. reflexivity.
Qed.

Lemma combinations_axis0_good c vs n r keys : 1 <= n -> keys_ok keys n = true -> den c = Some vs ->
  good (combinations_axis0 c n r keys) (Some (map (mkrow keys) (combos (Z.to_nat n) r vs))).
Proof.
  intros Hn Hk Hd. unfold combinations_axis0. rewrite (den_length _ _ Hd). pose proof (zlen_nonneg vs).
  assert (Hl : forallb (sub_ok (zlen vs)) [(0, zlen vs)] = true) by (cbn [forallb]; unfold sub_ok; cbn [fst snd]; lia).
  unfold awkward_RegularArray_combinations. rewrite (rows_kernel n r [(0, zlen vs)]).
  2: exact Hn. 2: reflexivity. 3,4: rewrite zlen_alloc; lia.
  2: { rewrite (zlen_rows _ _ vs) by exact Hl. cbn [map sumZ fold_right]. unfold seg. cbn [fst snd]. rewrite slice_full, combinationslen_spec by exact Hn. lia. }
  2: { intros i ab tc ti fi Hx. pose proof (nthZ_Some _ _ _ Hx) as Hi. change (zlen [(0, zlen vs)]) with 1 in Hi. assert (i = 0) as -> by lia. injection Hx as <-. cbn [fst snd]. rewrite Z.mul_0_r. reflexivity. }
  cbn [bind]. set (R := rows (Z.to_nat n) r [(0, zlen vs)]).
  destruct (columns_record n vs R keys (map (fun ptr => Indexed ptr c) (map (fun q => col q R) (zseq 0 n))) Hn) as [A B].
  - intros t Ht. eapply rows_len; eassumption.
  - exact Hk.
  - rewrite !omap_map. rewrite <- omap_Some_map. apply omap_ext. intros q Hq. apply In_zseq in Hq. cbn [den]. rewrite Hd. apply column_range; assumption || lia.
  - rewrite !zlen_map, zlen_zseq; lia.
  - eexists. split; [reflexivity|]. rewrite B. unfold R. rewrite rows_values by exact Hl. cbn [map concat]. rewrite app_nil_r. unfold seg. cbn [fst snd]. rewrite slice_full. reflexivity.
Qed.

Section Width.
Variable is64 : content -> bool.

Definition sizes_fit (n : Z) (r : bool) (c : content) : Prop := r = true \/ Forall (fun s => s = 0 \/ n <= s) (regular_sizes c).
Lemma sizes_fit_eq n r c c' : regular_sizes c' = regular_sizes c -> sizes_fit n r c -> sizes_fit n r c'.
Proof. intros E [H|H]; [left; exact H|right; rewrite E; exact H]. Qed.
Lemma sizes_fit_in n r cs x : In x cs -> (r = true \/ Forall (fun s => s = 0 \/ n <= s) (concat (map regular_sizes cs))) -> sizes_fit n r x.
Proof.
  intros Hin [H|H]; [left; exact H|right]. rewrite Forall_forall in *. intros s Hs. apply H. apply in_concat. exists (regular_sizes x). split; [apply in_map; exact Hin|exact Hs].
Qed.

Lemma combinations_good fuel : forall c n r keys axis depth vs, (need c <= fuel)%nat -> den c = Some vs -> 0 <= depth < axis ->
  1 <= n -> keys_ok keys n = true -> sizes_fit n r c ->
  good (combinations is64 fuel c n r keys axis depth)
       (if has_axis (axis - depth) (form_of c) then Some (map (lift (combinations_of keys n r) (axis - depth)) vs) else None).
Proof.
  induction fuel as [|fuel IH]; intros c n r keys axis depth vs Hf Hd Ha Hn Hk Hs.
  { pose proof (need_pos c). lia. }
  assert (Hw : axis_wrap_if_negative c axis = Ok axis) by (apply wrap_nonneg; lia).
  cbn [combinations]. destruct (Z.ltb_spec n 1); [lia|].
  destruct c; try (rewrite Hw; cbn [bind]; destruct (Z.eqb_spec axis depth); [lia|]); cbn [form_of has_axis].
  - cbn [den] in Hd. injection Hd as <-. exists Empty. split; reflexivity.
  - eexists. reflexivity.
  - (* ListA *) destruct (Z.eqb_spec axis (depth + 1)) as [->|Hne].
    + replace (depth + 1 - depth) with 1 by lia. rewrite Z.eqb_refl. destruct (list_inv _ _ _ _ Hd eq_refl) as (ws & Hws & Hl & ->).
      assert (Hss : zlen starts <= zlen stops). { cbn [den] in Hd. rewrite Hws in Hd. destruct (Z.leb_spec (zlen starts) (zlen stops)); [assumption|discriminate]. }
      pose proof (list_combinations_good n r ws starts stops (zlen starts) c keys Hn Hk Hws Hss eq_refl Hl) as G.
      rewrite map_map. cbn [length_]. rewrite (map_ext _ _ (fun l => eq_refl : lift (combinations_of keys n r) 1 (VList l) = combinations_of keys n r l)). exact G.
    + destruct (Z.eqb_spec (axis - depth) 1); [lia|].
      eapply (compact_deeper _ _ _ _ _ (lift (combinations_of keys n r) (axis - depth - 1)) _ (fun x => combinations is64 fuel x n r keys axis (depth + 1))); [exact Hd|reflexivity|intros; apply lift_list; lia|].
      intros o c'' ws E Hws. destruct (tolistoffset_same _ _ _ _ E) as (o2 & c2 & E2 & [S1 S2]). injection E2 as <- <-. cbn [form_of bound] in S1, S2. injection S1 as S1. injection S2 as S2.
      rewrite <- S1. replace (axis - depth - 1) with (axis - (depth + 1)) by lia. apply IH; try assumption; try lia.
      * pose proof (need_bound c''). cbn [need bound] in Hf. lia.
      * eapply sizes_fit_eq; [|exact Hs]. eapply tolistoffset_regs; [exact E|discriminate].
  - (* ListOffset *) destruct (Z.eqb_spec axis (depth + 1)) as [->|Hne].
    + replace (depth + 1 - depth) with 1 by lia. rewrite Z.eqb_refl. destruct (list_inv _ _ _ _ Hd eq_refl) as (ws & Hws & Hl & ->).
      assert (Ho : 1 <= zlen offsets). { cbn [den] in Hd. rewrite Hws in Hd. destruct (Z.leb_spec 1 (zlen offsets)); [assumption|discriminate]. }
      rewrite make_starts_spec, make_stops_spec by exact Ho. cbn [bind].
      pose proof (list_combinations_good n r ws (slice 0 (zlen offsets - 1) offsets) (slice 1 (zlen offsets) offsets) (zlen offsets - 1) c keys Hn Hk Hws) as G.
      rewrite combine_starts_stops in G by exact Ho. rewrite !zlen_slice in G by lia. specialize (G ltac:(lia) ltac:(lia) Hl).
      rewrite map_map. cbn [length_]. rewrite (map_ext _ _ (fun l => eq_refl : lift (combinations_of keys n r) 1 (VList l) = combinations_of keys n r l)). exact G.
    + destruct (Z.eqb_spec (axis - depth) 1); [lia|].
      eapply (compact_deeper _ _ _ _ _ (lift (combinations_of keys n r) (axis - depth - 1)) _ (fun x => combinations is64 fuel x n r keys axis (depth + 1))); [exact Hd|reflexivity|intros; apply lift_list; lia|].
      intros o c'' ws E Hws. destruct (tolistoffset_same _ _ _ _ E) as (o2 & c2 & E2 & [S1 S2]). injection E2 as <- <-. cbn [form_of bound] in S1, S2. injection S1 as S1. injection S2 as S2.
      rewrite <- S1. replace (axis - depth - 1) with (axis - (depth + 1)) by lia. apply IH; try assumption; try lia.
      * pose proof (need_bound c''). cbn [need bound] in Hf. lia.
      * eapply sizes_fit_eq; [|exact Hs]. eapply tolistoffset_regs; [exact E|discriminate].
  - (* Regular *) rewrite (den_length _ _ Hd). pose proof (list_inv _ _ _ _ Hd eq_refl) as HL. destruct (regular_inv _ _ _ _ Hd) as (ws & segs & Hws & Hsz & -> & Hl & Hi & Hz & Hnn). rewrite zlen_map in *. pose proof (zlen_nonneg segs).
    destruct (Z.eqb_spec axis (depth + 1)) as [->|Hne].
    + replace (depth + 1 - depth) with 1 by lia. rewrite Z.eqb_refl.
      destruct HL as (ws' & Hws' & Hsub & Hsegs). rewrite Hws in Hws'. injection Hws' as <-. apply map_VList_inj in Hsegs.
      change (length_ (Regular size zeros_length c)) with (length_ (Regular size zeros_length c)) in *. rewrite (den_length _ _ Hd), zlen_map in Hsub, Hsegs.
      set (l := map (fun i => (i * size, (i + 1) * size)) (zseq 0 (zlen segs))) in *. assert (HLl : zlen l = zlen segs) by (unfold l; rewrite zlen_map, zlen_zseq; lia).
      assert (Hcount : forall s, In s segs -> zlen (combos (Z.to_nat n) r s) = combinationslen n r size).
      { intros s Hin. rewrite <- combinationslen_spec by exact Hn. rewrite (Hl _ Hin). reflexivity. }
      assert (Hrows : combinationslen n r size * zlen segs = zlen (rows (Z.to_nat n) r l)).
      { rewrite (zlen_rows _ _ ws) by exact Hsub. rewrite <- Hsegs. rewrite map_map. clear - Hcount. induction segs as [|s segs IHs]; [rewrite Z.mul_0_r; reflexivity|].
        rewrite zlen_cons. cbn [map sumZ fold_right]. rewrite (Hcount s (or_introl eq_refl)). fold (sumZ (map (fun x => zlen (combos (Z.to_nat n) r x)) segs)). rewrite <- IHs by (intros; apply Hcount; right; assumption). lia. }
      assert (Hker : (if negb (size =? 0) then awkward_RegularArray_combinations (repeat (alloc (combinationslen n r size * zlen segs)) (Z.to_nat n)) (alloc (if r then size + (n - 1) else size)) (alloc (if r then size + (n - 1) else size)) n r size (zlen segs)
                     else Ok (repeat (alloc (combinationslen n r size * zlen segs)) (Z.to_nat n))) = Ok (map (fun q => col q (rows (Z.to_nat n) r l)) (zseq 0 n))).
      { destruct (Z.eqb_spec size 0) as [E0|E0]; cbn [negb].
        - assert (HR : rows (Z.to_nat n) r l = []).
          { apply zlen_0. rewrite <- Hrows. rewrite combinationslen_binom by lia. rewrite E0. rewrite binom_gt by (destruct r; lia). reflexivity. }
          rewrite HR. rewrite Hrows, HR. change (alloc (zlen (@nil (list Z)))) with (@nil Z). f_equal. apply list_eqZ; [rewrite zlen_repeat, zlen_map, zlen_zseq; lia|].
          rewrite zlen_repeat. intros i Hi0. rewrite nthZ_repeat by lia. rewrite nthZ_map, nthZ_zseq by lia. reflexivity.
        - assert (Hfit : n <= (if r then size + (n - 1) else size)).
          { destruct Hs as [->|Hs]; [lia|]. cbn [regular_sizes] in Hs. inversion Hs as [|? ? Hh _]. destruct r; lia. }
          unfold awkward_RegularArray_combinations. apply rows_kernel; try assumption; try (rewrite zlen_alloc; destruct r; lia); [lia|].
          intros i ab tc ti fi Hx. unfold l in Hx. rewrite nthZ_map in Hx. destruct (nthZ (zseq 0 (zlen segs)) i) eqn:Ei; [|discriminate]. pose proof (nthZ_Some _ _ _ Ei) as Hi2. rewrite zlen_zseq in Hi2 by lia. rewrite nthZ_zseq in Ei by lia. injection Ei as <-. injection Hx as <-. cbn [fst snd].
          replace ((0 + i) * size) with (size * i) by lia. replace ((0 + i + 1) * size) with (size * i + size) by lia. reflexivity. }
      rewrite Hker. clear Hker. cbn [bind]. destruct (carried_record n r ws l c keys Hn Hk Hws Hsub) as (cs & -> & _ & D). cbn [bind].
      rewrite <- Hsegs in D.
      assert (D2 : den (Regular (combinationslen n r size) (zlen segs) (Record keys (minlength cs) cs)) = Some (map VList (map (map (mkrow keys)) (map (combos (Z.to_nat n) r) segs)))).
      { apply regular_den.
        - rewrite combinationslen_binom by lia. apply binom_nonneg.
        - intros _. rewrite !zlen_map. reflexivity.
        - intros x Hx. apply in_map_iff in Hx as (y & <- & Hy). apply in_map_iff in Hy as (z & <- & Hz'). rewrite zlen_map. apply Hcount. exact Hz'.
        - rewrite D, concat_map. reflexivity. }
      rewrite (mkRegular_den _ _ _ _ D2). eexists. split; [reflexivity|]. rewrite D2. f_equal. rewrite !map_map. reflexivity.
    + destruct (Z.eqb_spec (axis - depth) 1); [lia|]. cbn [need bound] in Hf.
      assert (Hrange : 0 <= zlen segs * size <= zlen ws).
      { split; [nia|]. destruct (Z.eq_dec (zlen segs) 0) as [E0|E0]; [rewrite E0; apply zlen_nonneg|]. destruct (nthZ_lt segs (zlen segs - 1)) as [s Es]; [lia|]. destruct (Hi _ _ Es) as [_ HB]. replace (zlen segs - 1 + 1) with (zlen segs) in HB by lia. exact HB. }
      destruct (range_den c ws 0 (zlen segs * size) Hws ltac:(lia) ltac:(lia)) as (sub & Esub & Hsub). rewrite Esub. cbn [bind].
      destruct (range_same _ _ _ _ Esub) as [S1 S2]. pose proof (need_bound sub).
      pose proof (IH sub n r keys axis (depth + 1) _ ltac:(lia) Hsub ltac:(lia) Hn Hk) as G. rewrite S1 in G. replace (axis - (depth + 1)) with (axis - depth - 1) in G by lia.
      assert (HF : sizes_fit n r sub). { destruct Hs as [Hs|Hs]; [left; exact Hs|right]. rewrite (range_regs _ _ _ _ Esub). cbn [regular_sizes] in Hs. inversion Hs; assumption. }
      specialize (G HF). destruct (has_axis (axis - depth - 1) (form_of c)).
      * destruct G as (c' & -> & Hc'). cbn [bind].
        assert (Hd2 : den (Regular size (zlen segs) sub) = Some (map VList segs)).
        { apply regular_den; [exact Hsz|reflexivity|exact Hl|]. rewrite Hsub. f_equal.
          destruct (concat_segs_prefix segs size ws Hsz Hl Hi) as [tail Et]. rewrite Et at 1. rewrite <- (zlen_concat_const segs size Hl). apply slice_app. }
        pose proof (nat_regular (lift (combinations_of keys n r) (axis - depth - 1)) (lift (combinations_of keys n r) (axis - depth)) size (zlen segs) (zlen segs) _ _ _ _ (fun l => lift_list (combinations_of keys n r) (axis - depth) l ltac:(lia)) (fun E => eq_refl) Hsub Hc' Hd2) as D.
        rewrite (mkRegular_den _ _ _ _ D). eexists. split; [reflexivity|exact D].
      * destruct G as (m & ->). exists m. reflexivity.
  - (* Indexed *) destruct (project_indexed _ _ _ Hd) as (p & E & Hp & F & B). rewrite E. cbn [bind]. rewrite <- F. apply IH; try assumption.
    + pose proof (project_need _ _ _ E). lia.
    + eapply sizes_fit_eq; [|exact Hs]. simpl in E. binv E. cbn [regular_sizes]. eapply carry_regs; exact E.
  - apply option_path_of_good'; [exact Hd|reflexivity|reflexivity|]. cbn [below]. intros nc next ws E Hnx. destruct (carry_same _ _ _ _ E) as [F B]. rewrite <- F. apply IH; try assumption.
    + pose proof (need_bound next). cbn [need bound] in Hf. lia.
    + eapply sizes_fit_eq; [|exact Hs]. cbn [regular_sizes]. eapply carry_regs; exact E.
  - apply option_path_of_good'; [exact Hd|reflexivity|reflexivity|]. cbn [below]. intros nc next ws E Hnx. destruct (carry_same _ _ _ _ E) as [F B]. rewrite <- F. apply IH; try assumption.
    + pose proof (need_bound next). cbn [need bound] in Hf. lia.
    + eapply sizes_fit_eq; [|exact Hs]. cbn [regular_sizes]. eapply carry_regs; exact E.
  - apply option_path_of_good'; [exact Hd|reflexivity|reflexivity|]. cbn [below]. intros nc next ws E Hnx. destruct (carry_same _ _ _ _ E) as [F B]. rewrite <- F. apply IH; try assumption.
    + pose proof (need_bound next). cbn [need bound] in Hf. lia.
    + eapply sizes_fit_eq; [|exact Hs]. cbn [regular_sizes]. eapply carry_regs; exact E.
  - (* Unmasked *) cbn [den] in Hd. cbn [need bound] in Hf. pose proof (need_bound c). pose proof (IH c n r keys axis depth vs ltac:(lia) Hd Ha Hn Hk Hs) as G. destruct (has_axis (axis - depth) (form_of c)).
    + destruct G as (c' & -> & Hc'). cbn [bind]. eexists. split; [reflexivity|exact Hc'].
    + destruct G as (m & ->). exists m. reflexivity.
  - (* Record *) destruct (record_inv _ _ _ _ Hd) as [vss Hvss]. rewrite forallb_map. eapply record_good; [apply lift_row|exact Hvss|exact Hd|].
    pose proof (mapres_good (fun x => combinations is64 fuel x n r keys axis depth) (lift (combinations_of keys n r) (axis - depth)) (fun x => has_axis (axis - depth) (form_of x)) contents vss Hvss) as G.
    apply G. intros x us Hin Hx. apply IH; try assumption; [|eapply sizes_fit_in; [exact Hin|exact Hs]]. pose proof (need_bound x). pose proof (maxl_In _ _ (in_map bound _ _ Hin)). cbn [need bound] in Hf. lia.
  - (* Union *) destruct (union_inv _ _ _ _ Hd) as [vss Hvss]. rewrite forallb_map. eapply union_good; [exact Hvss|exact Hd|].
    pose proof (mapres_good (fun x => combinations is64 fuel x n r keys axis depth) (lift (combinations_of keys n r) (axis - depth)) (fun x => has_axis (axis - depth) (form_of x)) contents vss Hvss) as G.
    apply G. intros x us Hin Hx. apply IH; try assumption; [|eapply sizes_fit_in; [exact Hin|exact Hs]]. pose proof (need_bound x). pose proof (maxl_In _ _ (in_map bound _ _ Hin)). cbn [need bound] in Hf. lia.
Qed.
End Width.
