(** Concatenation class by class: numbers, indexed and option-type arrays, lists, unions. *)
From Coq Require Import Permutation.
From Verif Require Import Base BaseLemmas OmapLemmas LoopLemmas Content SpecArray SpecForm SpecOption SpecMerge KCore Core KConvert Convert KOption Option KMerge Merge
  PCore PCarry PList PConvert POption PForm PTidy PPromote PMergeable PMergeK PMerge.

Lemma foldm_app {S A} (f : S -> A -> res S) a b s : foldm f (a ++ b) s = let* s := foldm f a s in foldm f b s.
Proof. revert s; induction a as [|x a IH]; intros s; simpl; [reflexivity|]. destruct (f s x); simpl; auto. Qed.
Lemma flat_map_sumw (g : content -> list content) l : (forall a, In a l -> (sumw (g a) <= weight a)%nat) -> (sumw (flat_map g l) <= sumw l)%nat.
Proof. induction l as [|a l IH]; intros H; simpl; [rewrite sumw_nil; lia|]. sw. specialize (H a (or_introl eq_refl)) as H1. assert (sumw (flat_map g l) <= sumw l)%nat by (apply IH; intros; apply H; right; assumption). lia. Qed.
Lemma flat_map_len (g : content -> list content) l : (forall a, In a l -> (length (g a) <= 1)%nat) -> (length (flat_map g l) <= length l)%nat.
Proof. induction l as [|a l IH]; intros H; simpl; [lia|]. rewrite app_length. specialize (H a (or_introl eq_refl)) as H1. assert (length (flat_map g l) <= length l)%nat by (apply IH; intros; apply H; right; assumption). lia. Qed.
Lemma flat_map_Forall {A B} (P : A -> Prop) (Q : B -> Prop) (g : A -> list B) l : Forall P l -> (forall a x, P a -> In x (g a) -> Q x) -> Forall Q (flat_map g l).
Proof. intros H Hg. apply Forall_forall. intros x Hx. apply in_flat_map in Hx as (a & Ha & Hx). rewrite Forall_forall in H. eauto. Qed.
Lemma flat_map_FOP {A B} (R : A -> A -> Prop) (R' : B -> B -> Prop) (g : A -> list B) l : ForallOrdPairs R l ->
  (forall a, (length (g a) <= 1)%nat) -> (forall a b x y, R a b -> In x (g a) -> In y (g b) -> R' x y) -> ForallOrdPairs R' (flat_map g l).
Proof.
  intros H Hlen Hg. induction H as [|a l HF HP IH]; simpl; [constructor|]. specialize (Hlen a). destruct (g a) as [|x [|y t]] eqn:E; [exact IH| |simpl in Hlen; lia]. simpl. constructor; [|exact IH].
  eapply flat_map_Forall; [exact HF|]. intros b y Hab Hy. eapply Hg; [exact Hab|rewrite E; left; reflexivity|exact Hy].
Qed.

(** a regular array as offsets and content *)
Lemma regular_to_listoffset size zl c segs : den (Regular size zl c) = Some (map VList segs) ->
  exists c'' tail, toListOffsetArray64 true true (Regular size zl c) = Ok (ListOffset (offsets_of (map zlen segs)) c'') /\ den c'' = Some (concat segs ++ tail) /\ den c = Some (concat segs ++ tail)
    /\ (tidy c -> tidy c'') /\ (weight c'' <= S (weight c))%nat.
Proof.
  intros Hd. unfold toListOffsetArray64. rewrite (compact_den true (Regular size zl c) _ c segs Hd eq_refl). cbn [bind].
  destruct (Z.eq_dec size 1) as [->|Hs].
  - destruct (regular_inv _ _ _ _ Hd) as (ws & segs' & Hc & Hsz & E & Hlen & Hseg & _ & Hn). apply map_VList_inj in E as <-. specialize (Hn ltac:(lia)). rewrite Z.div_1_r in Hn.
    destruct (broadcast_reg1 zl c segs (map zlen segs) Hd (nonneg_zlens segs) ltac:(apply zlen_map)) as (c'' & E1 & D1). exists c'', []. split; [exact E1|].
    assert (EC : concat (map (fun sc => concat (repeat (fst sc) (Z.to_nat (snd sc)))) (combine segs (map zlen segs))) = concat segs).
    { clear - Hlen. induction segs as [|s segs IH]; [reflexivity|]. cbn [map combine concat fst snd]. rewrite IH by (intros; apply Hlen; right; assumption). rewrite (Hlen s) by (left; reflexivity). simpl. rewrite app_nil_r. reflexivity. }
    rewrite EC in D1. rewrite app_nil_r.
    assert (EW : ws = concat segs).
    { destruct (concat_segs_prefix segs 1 ws ltac:(lia) Hlen Hseg) as (tail & ->). rewrite zlen_app, (zlen_concat_const segs 1 Hlen) in Hn. assert (tail = []) by (apply zlen_0; lia). subst. rewrite app_nil_r. reflexivity. }
    split; [exact D1|]. split; [rewrite <- EW; exact Hc|].
    assert (CY : exists cry vs', omap (nthZ ws) cry = Some vs' /\ carry c cry true = Ok c'').
    { cbn [broadcast_tooffsets64] in E1. rewrite starts_at_0_ok in E1. destruct (negb _) in E1; [discriminate|]. change (1 =? 1) with true in E1. cbv iota in E1.
      rewrite zlen_offsets_of, Z.add_simpl_r, rd_offsets_last in E1. cbn [bind] in E1. rewrite broadcast_size1 in E1 by (try apply nonneg_zlens; apply zlen_alloc; apply sumZ_nonneg; apply nonneg_zlens). cbn [bind] in E1.
      match type of E1 with (let* _ := carry c ?y true in _) = _ => set (cry := y) in * end. destruct (carry c cry true) as [x| |] eqn:EX; cbn [bind] in E1; try discriminate. unfold mkListOffset in E1. destruct (_ =? 0) in E1; [discriminate|]. injection E1 as ->.
      destruct (omap_nthZ_total ws cry) as (vs' & Hv); [|exists cry, vs'; split; assumption]. intros i Hi. unfold cry in Hi. apply in_concat in Hi as (l & Hl & Hi). apply in_map_iff in Hl as ([j n] & <- & Hjn). apply in_map_iff in Hi as (k & Hk & _). simpl in Hk. subst i.
      apply in_combine_l in Hjn. apply In_zseq in Hjn. rewrite zlen_map in Hjn. lia. }
    destruct CY as (cry & vs' & HV & HC). split; [intros HT; exact (carry_tidy c ws cry vs' true c'' Hc HV HT HC)|exact (carry_weight_lazy c cry c'' HC)].
  - destruct (broadcast_reg size zl c segs (map zlen segs) Hd Hs (nonneg_zlens segs)) as [(_ & E1 & tail & D1)|[HX _]]; [|congruence]. exists c, tail. split; [exact E1|]. split; [exact D1|]. split; [exact D1|]. split; [auto|lia].
Qed.

Section PM.
Variable rc : Z -> Z.
Variable narrow : content -> bool.
Variable mb : bool.
Notation pr := (promotes rc).
Notation fm := (fmerge mb).
Notation fmc := (fmc mb).
Notation pre := (pre mb).
Notation post := (post rc mb).
Notation summ := (summ mb).
Notation excuse := (excuse narrow).
Notation outcome := (outcome rc narrow mb).

Lemma pre_split self hl tail vss : pre self (hl ++ tail) vss ->
  exists v1 v2, vss = v1 ++ v2 /\ pre self hl v1 /\ dens tail v2 /\ pretail mb (self :: hl) tail.
Proof.
  intros (HD & HT & HO & HP). change (self :: hl ++ tail) with ((self :: hl) ++ tail) in HD, HT, HP. apply dens_app_inv in HD as (v1 & v2 & -> & D1 & D2).
  apply Forall_app in HT as [T1 T2]. apply FOP_app_inv in HP as (P1 & P2 & P3). exists v1, v2. split; [reflexivity|]. split; [|split; [exact D2|]].
  - split; [exact D1|]. split; [exact T1|]. split; [|exact P1]. destruct HO as [HO|HO]; [left; apply Forall_app in HO; tauto|right].
    change (self :: hl ++ tail) with ((self :: hl) ++ tail) in HO. apply Forall_app in HO. tauto.
  - split; [exact T2|]. split; [|split; [exact P2|exact P3]]. destruct HO as [HO|HO]; [left; apply Forall_app in HO; tauto|right; exact HO].
Qed.
Lemma outcome_self self self' t vss r : form_of self' = form_of self -> (weight self' <= weight self)%nat -> outcome (self' :: t) vss r -> outcome (self :: t) vss r.
Proof.
  intros Hf Hw H. assert (FO : forall P : form -> Prop, Forall (fun c => P (form_of c)) (self :: t) -> Forall (fun c => P (form_of c)) (self' :: t)).
  { intros P HF. inversion HF; subst. constructor; [rewrite Hf; assumption|assumption]. }
  destruct r as [c'| |]; [| |exact H].
  - destruct H as (vs' & D & P & T & W & O & U & M). exists vs'. split; [exact D|]. split; [exact P|]. split; [exact T|]. split; [sw; lia|]. split; [|split].
    + intros HF. apply O. apply (FO (fun f => option_free f = true)). exact HF.
    + intros HF. apply U. apply (FO (fun f => union_free f = true)). exact HF.
    + intros g HF. apply M. apply (FO (fun f => fm f g = true)). exact HF.
  - revert H. apply excuse_mono; [|sw; lia]. intros HF. apply (FO (fun f => union_free f = true)). exact HF.
Qed.

Section Rec.
Variable rec : content -> list content -> res content.
Variable f : nat.
Hypothesis IHrec : forall self others vss, pre self others vss -> (sumw (self :: others) + length others <= f)%nat -> outcome (self :: others) vss (rec self others).

Lemma finish self hl tail vss nextres : pre self (hl ++ tail) vss ->
  match tail with [] => True | t0 :: _ => needs_simplify t0 || is_union t0 = true end ->
  (sumw (self :: hl ++ tail) + length (hl ++ tail) <= S f)%nat ->
  (forall v1, pre self hl v1 -> (sumw (self :: hl) + length hl <= S f)%nat -> outcome (self :: hl) v1 nextres) ->
  outcome (self :: hl ++ tail) vss (let* next := nextres in merge_tail narrow rec next tail).
Proof.
  intros HP Ht Hf H. destruct (pre_split _ _ _ _ HP) as (v1 & v2 & -> & P1 & D2 & PT). rewrite app_length in Hf. sw. eapply outcome_bind; [apply H; [exact P1|sw; lia]| |].
  - apply excuse_mono; [|sw; lia]. change (self :: hl ++ tail) with ((self :: hl) ++ tail). rewrite Forall_app. tauto.
  - intros c' Hc'. change (self :: hl ++ tail) with ((self :: hl) ++ tail). eapply merge_tail_ok; [exact IHrec|exact Hc'|exact D2|exact PT|exact Ht|]. sw. lia.
Qed.

(** ** numbers *)
Definition dle (a b : dtype) : Prop := promote b a = b.
Definition numpyish (o : content) : Prop := o = Empty \/ exists dt d, o = Numpy dt d.
Lemma numpy_dtype_spec l d0 : Forall numpyish l ->
  exists d, foldm (fun acc array => match array with
    | Numpy dt _ => Ok (Some (match acc with None => dt | Some d => promote d dt end))
    | Empty => Ok acc
    | _ => Err "cannot merge NumpyArray with this class"
    end) l (Some d0) = Ok (Some d) /\ dle d0 d /\ Forall (fun o => match o with Numpy dt _ => dle dt d | _ => True end) l /\ (d = d0 \/ exists data, In (Numpy d data) l).
Proof.
  intros H; revert d0; induction H as [|o l Ho H IH]; intros d0; simpl.
  - exists d0. split; [reflexivity|]. split; [destruct d0; reflexivity|]. split; [constructor|left; reflexivity].
  - destruct Ho as [->|(dt & data & ->)]; cbn [bind].
    + destruct (IH d0) as (d & E & A1 & A2 & A3). exists d. split; [exact E|]. split; [exact A1|]. split; [constructor; [exact I|exact A2]|]. destruct A3 as [A3|(x & A3)]; [left; exact A3|right; eauto].
    + destruct (IH (promote d0 dt)) as (d & E & A1 & A2 & A3). exists d. split; [exact E|]. split; [|split].
      * revert A1. unfold dle. destruct d0, dt, d; simpl; congruence.
      * constructor; [|exact A2]. revert A1. unfold dle. destruct d0, dt, d; simpl; congruence.
      * destruct A3 as [->|(x & A3)]; [|right; eauto]. destruct d0, dt; simpl; try (left; reflexivity); right; eauto.
Qed.
Lemma cast_promotes dt' dt z : dle dt' dt -> pr (scalar dt' z) (scalar dt (cast rc dt' dt z)).
Proof.
  unfold dle. destruct dt', dt; simpl; intros H; try discriminate; try constructor.
  destruct (z =? 0); simpl; constructor.
Qed.
Lemma numpy_fold dt l vss : dens l vss -> Forall numpyish l -> Forall (fun o => match o with Numpy dt' _ => dle dt' dt | _ => True end) l ->
  forall d rest, zlen (concat vss) <= zlen rest ->
  exists out rest', foldm (numpy_fill rc dt) l (d ++ rest, zlen d) = Ok ((d ++ out) ++ rest', zlen (d ++ out)) /\ zlen rest = zlen (concat vss) + zlen rest' /\ Forall2 pr (concat vss) (map (scalar dt) out).
Proof.
  intros HD. induction HD as [|c vs l vss Hc HD IH]; intros HN HL d rest Hr; cbn [foldm concat].
  - exists [], rest. rewrite !app_nil_r. split; [reflexivity|]. split; [change (zlen (@nil value)) with 0; lia|constructor].
  - inversion HN as [|? ? HN1 HN2]; subst. inversion HL as [|? ? HL1 HL2]; subst. cbn [concat] in Hr. rewrite zlen_app in *. destruct HN1 as [->|(dt' & data & ->)].
    + cbn [den] in Hc. injection Hc as <-. change (zlen (@nil value)) with 0 in *. cbn [numpy_fill bind]. destruct (IH HN2 HL2 d rest) as (out & rest' & E & A1 & A2); [lia|]. exists out, rest'. split; [exact E|]. split; [lia|exact A2].
    + cbn [den] in Hc. injection Hc as <-. rewrite zlen_map in *. cbn [numpy_fill]. pose proof (zlen_nonneg (concat vss)). destruct (numpy_fill_spec d rest data (cast rc dt' dt)) as (r1 & E1 & L1); [lia|]. rewrite E1. cbn [bind].
      replace (zlen d + zlen data) with (zlen (d ++ map (cast rc dt' dt) data)) by (rewrite zlen_app, zlen_map; lia).
      destruct (IH HN2 HL2 (d ++ map (cast rc dt' dt) data) r1) as (out & rest' & E & A1 & A2); [lia|]. exists (map (cast rc dt' dt) data ++ out), rest'. rewrite !app_assoc. split; [exact E|]. split; [lia|].
      rewrite map_app. apply prs_app; [|exact A2]. rewrite map_map. apply F2_map. intros z _. apply cast_promotes. exact HL1.
Qed.
Lemma numpy_outcome self others vss dt data : self = Numpy dt data -> pre self others vss -> (sumw (self :: others) + length others <= S f)%nat ->
  outcome (self :: others) vss (NumpyArray_mergemany rc narrow rec self others).
Proof.
  intros Hs HP Hf. unfold NumpyArray_mergemany. assert (EM : merging_strategy self others = split_until (fun o => needs_simplify o || is_union o) others) by (subst; reflexivity). rewrite EM. clear EM.
  pose proof (split_until_app (fun o => needs_simplify o || is_union o) others) as HS. destruct (split_until _ others) as [hl tail]. destruct HS as (-> & HN & Ht).
  assert (HH : Forall numpyish hl).
  { destruct HP as (_ & _ & _ & HP). inversion HP as [|? ? HF _]; subst. apply Forall_app in HF as [HF _]. rewrite Forall_forall in *. intros o Ho. specialize (HN o Ho). specialize (HF o Ho). unfold PMerge.fmc in HF.
    destruct o; simpl in HN, HF; try discriminate; [left; reflexivity|right; eauto]. }
  destruct (numpy_dtype_spec hl dt HH) as (d & Ed & L0 & LL & Hd). assert (EN : numpy_dtype (self :: hl) = Ok (Some d)) by (rewrite Hs; exact Ed). rewrite EN. cbn [bind].
  replace (let* st := foldm (numpy_fill rc d) (self :: hl) (alloc (total_length (self :: hl)), 0) in merge_tail narrow rec (Numpy d (fst st)) tail)
    with (let* next := (let* st := foldm (numpy_fill rc d) (self :: hl) (alloc (total_length (self :: hl)), 0) in Ok (Numpy d (fst st))) in merge_tail narrow rec next tail)
    by (destruct (foldm (numpy_fill rc d) (self :: hl) _); reflexivity).
  apply finish; [exact HP|exact Ht|exact Hf|]. clear HP Hf. intros v1 (HD & HT & _ & _) _.
  assert (HNS : Forall numpyish (self :: hl)) by (constructor; [right; eauto|exact HH]).
  assert (HLS : Forall (fun o => match o with Numpy dt' _ => dle dt' d | _ => True end) (self :: hl)) by (constructor; [subst; exact L0|exact LL]).
  rewrite (total_length_dens _ _ HD). pose proof (zlen_nonneg (concat v1)).
  destruct (numpy_fold d _ _ HD HNS HLS [] (alloc (zlen (concat v1)))) as (out & rest' & E & A1 & A2); [rewrite zlen_alloc by lia; lia|]. rewrite zlen_alloc in A1 by lia.
  simpl app in E. change (zlen (@nil Z)) with 0 in E. rewrite E. cbn [bind fst]. assert (rest' = []) by (apply zlen_0; lia). subst rest'. rewrite app_nil_r.
  exists (map (scalar d) out). split; [reflexivity|]. split; [exact A2|]. split; [exact I|]. split; [|split; [|split]].
  - rewrite sumw_cons. subst. simpl. lia.
  - intros _. reflexivity.
  - intros _. reflexivity.
  - intros g HF. inversion HF as [|? ? H1 H2]; subst. destruct Hd as [->|(x & Hin)]; [exact H1|]. rewrite Forall_forall in H2. exact (H2 _ Hin).
Qed.

(** ** indexed and option-type arrays *)
Definition stripi (a : content) : list content :=
  match a with Empty => [] | Indexed _ _ | IndexedOption _ _ | ByteMasked _ _ _ | BitMasked _ _ _ _ _ | Unmasked _ => [below a] | _ => [a] end.
Definition is_opt (a : content) : bool := match a with IndexedOption _ _ | ByteMasked _ _ _ | BitMasked _ _ _ _ _ | Unmasked _ => true | _ => false end.
Definition flag (o : bool) (a : content) : bool := if is_opt a then true else match a with Indexed _ _ => false | _ => o end.
Lemma stripi_weight a : (sumw (stripi a) <= weight a)%nat.
Proof. destruct a; simpl; rewrite ?sumw_cons, ?sumw_nil; simpl; lia. Qed.
Lemma stripi_weight_S a : needs_simplify a = true -> (S (sumw (stripi a)) <= weight a)%nat.
Proof. destruct a; simpl; intros; try discriminate; rewrite ?sumw_cons, ?sumw_nil; simpl; lia. Qed.
Lemma stripi_len a : (length (stripi a) <= 1)%nat. Proof. destruct a; simpl; lia. Qed.
Lemma stripi_tidy a x : tidy a -> In x (stripi a) -> tidy x.
Proof. destruct a; simpl; intros H Hx; destruct Hx as [<-|[]] || destruct Hx; exact H. Qed.
Lemma stripi_ofree a x : ofree a -> In x (stripi a) -> ofree x.
Proof. unfold ofree. destruct a; simpl; intros H Hx; try discriminate; destruct Hx as [<-|[]] || destruct Hx; exact H. Qed.
Lemma stripi_ufree a x : ufree a -> In x (stripi a) -> ufree x.
Proof. unfold ufree. destruct a; simpl; intros H Hx; try discriminate; destruct Hx as [<-|[]] || destruct Hx; exact H. Qed.
Lemma stripi_ifree a x : indexed_free a = true -> In x (stripi a) -> indexed_free x = true.
Proof. destruct a; simpl; intros H Hx; try discriminate; destruct Hx as [<-|[]] || destruct Hx; exact H. Qed.
Lemma stripi_fm_l a x g : fm (form_of a) g = true -> In x (stripi a) -> fm (form_of x) g = true.
Proof. destruct a; simpl; intros H Hx; destruct Hx as [<-|[]] || destruct Hx; exact H. Qed.
Lemma stripi_fm_r h b y : fm h (form_of b) = true -> In y (stripi b) -> fm h (form_of y) = true.
Proof. destruct b; simpl; intros H Hx; destruct Hx as [<-|[]] || destruct Hx; rewrite ?fm_option_r in H; exact H. Qed.

Lemma indexed_block a vs o cs pw d rest : den a = Some vs -> is_union a = false -> zlen vs <= zlen rest ->
  exists ws didx rest', indexed_fill (o, cs, zlen pw, zlen d, d ++ rest) a = Ok (flag o a, cs ++ stripi a, zlen (pw ++ concat ws), zlen (d ++ didx), (d ++ didx) ++ rest')
   /\ dens (stripi a) ws /\ zlen rest = zlen vs + zlen rest'
   /\ (forall fl tail, (is_opt a = true -> fl = true) -> omap (idx fl (pw ++ concat ws ++ tail)) didx = Some vs).
Proof.
  intros Hd Hu Hr. pose proof (den_length _ _ Hd) as HL.
  assert (HI : forall (op : bool) index c us, den c = Some us -> omap (idx op us) index = Some vs ->
     exists didx rest', awkward_IndexedArray_fill (d ++ rest) (zlen d) index (zlen index) (zlen pw) = Ok ((d ++ didx) ++ rest') /\ zlen rest = zlen vs + zlen rest' /\ zlen didx = zlen index
      /\ (forall fl tail, (op = true -> fl = true) -> omap (idx fl (pw ++ concat [us] ++ tail)) didx = Some vs)).
  { intros op index c us Dc Hv. assert (zlen index = zlen vs) by (apply omap_F in Hv; apply F2_zlen in Hv; exact Hv).
    destruct (indexed_fill_spec d rest index (zlen pw)) as (r & E & L); [lia|]. exists (map (shifti (zlen pw)) index), r. split; [exact E|]. split; [lia|]. split; [apply zlen_map|].
    intros fl tail Hfl. simpl concat. rewrite app_nil_r. apply (omap_idx_shift op fl); assumption. }
  assert (HO : forall a', den a' = Some vs -> (exists m v c', a' = ByteMasked m v c') \/ (exists m v l n c', a' = BitMasked m v l n c') \/ (exists c', a' = Unmasked c') ->
     exists ws didx rest', (let* array := toIndexedOptionArray64 a' in
        match array with IndexedOption index c =>
           let* nextindex := awkward_IndexedArray_fill (d ++ rest) (zlen d) index (zlen index) (zlen pw) in
           Ok (true, cs ++ [c], zlen pw + length_ c, zlen d + zlen index, nextindex) | _ => UB end) = Ok (true, cs ++ [below a'], zlen (pw ++ concat ws), zlen (d ++ didx), (d ++ didx) ++ rest')
     /\ dens [below a'] ws /\ zlen rest = zlen vs + zlen rest' /\ (forall fl tail, (true = true -> fl = true) -> omap (idx fl (pw ++ concat ws ++ tail)) didx = Some vs)).
  { intros a' Hd' Ha. destruct (to_indexed_option a' vs Hd' Ha) as (index & c' & E & Di & _). rewrite E. cbn [bind]. destruct (toindexedoption_shape _ _ E) as (i & Ei). injection Ei as <- Ec.
    cbn [den] in Di. destruct (den c') as [us|] eqn:Dc; [|discriminate]. destruct (HI true index c' us Dc Di) as (didx & rest' & E1 & L1 & L2 & H1). rewrite E1. cbn [bind].
    exists [us], didx, rest'. split; [|split; [|split; [exact L1|exact H1]]].
    - rewrite Ec, !zlen_app. rewrite <- Ec, (den_length _ _ Dc). simpl concat. rewrite app_nil_r. rewrite L2. reflexivity.
    - rewrite <- Ec. constructor; [exact Dc|constructor]. }
  assert (HC : stripi a = [a] -> exists ws didx rest', (let* nextindex := awkward_IndexedArray_fill_count (d ++ rest) (zlen d) (length_ a) (zlen pw) in
        Ok (o, cs ++ [a], zlen pw + length_ a, zlen d + length_ a, nextindex)) = Ok (o, cs ++ stripi a, zlen (pw ++ concat ws), zlen (d ++ didx), (d ++ didx) ++ rest')
       /\ dens (stripi a) ws /\ zlen rest = zlen vs + zlen rest' /\ (forall fl tail, (false = true -> fl = true) -> omap (idx fl (pw ++ concat ws ++ tail)) didx = Some vs)).
  { intros Hst. rewrite HL. pose proof (zlen_nonneg vs). destruct (fill_count_spec d rest (zlen vs) (zlen pw)) as (r & E & L); [lia|]. rewrite E. cbn [bind]. exists [vs], (zseq (zlen pw) (zlen pw + zlen vs)), r.
    simpl concat. rewrite app_nil_r, Hst. split; [|split; [|split]].
    - rewrite !zlen_app, zlen_zseq by lia. replace (zlen d + (zlen pw + zlen vs - zlen pw)) with (zlen d + zlen vs) by lia. reflexivity.
    - constructor; [exact Hd|constructor].
    - exact L.
    - intros fl tail _. apply omap_idx_count. }
  destruct a as [| | | | |index c|index c|m v c|m v l n c|c| |]; try discriminate; unfold indexed_fill; cbn [bind flag is_opt]; try (apply HC; reflexivity).
  - cbn [den] in Hd. injection Hd as <-. exists [], [], rest. simpl. rewrite !app_nil_r. split; [reflexivity|]. split; [constructor|]. split; [change (zlen (@nil value)) with 0; lia|]. intros; reflexivity.
  - cbn [den] in Hd. destruct (den c) as [us|] eqn:Dc; [|discriminate]. destruct (HI false index c us Dc Hd) as (didx & rest' & E1 & L1 & L2 & H1). rewrite E1. cbn [bind].
    exists [us], didx, rest'. split; [|split; [constructor; [exact Dc|constructor]|split; [exact L1|exact H1]]]. rewrite !zlen_app, (den_length _ _ Dc). simpl concat. rewrite app_nil_r, L2. reflexivity.
  - cbn [den] in Hd. destruct (den c) as [us|] eqn:Dc; [|discriminate]. destruct (HI true index c us Dc Hd) as (didx & rest' & E1 & L1 & L2 & H1). rewrite E1. cbn [bind].
    exists [us], didx, rest'. split; [|split; [constructor; [exact Dc|constructor]|split; [exact L1|exact H1]]]. rewrite !zlen_app, (den_length _ _ Dc). simpl concat. rewrite app_nil_r, L2. reflexivity.
  - assert (HM : toIndexedOptionArray64 (ByteMasked m v c) = toIndexedOptionArray64 (ByteMasked m v c)) by reflexivity.
    destruct (HO _ Hd) as (ws & didx & rest' & E & A); [eauto 6|]. exists ws, didx, rest'. split; [|exact A].
    destruct (to_indexed_option _ vs Hd) as (index & c' & E' & _); [eauto 6|]. rewrite E' in E |- *. cbn [bind] in E |- *. exact E.
  - destruct (HO _ Hd) as (ws & didx & rest' & E & A); [eauto 8|]. exists ws, didx, rest'. split; [|exact A].
    destruct (to_indexed_option _ vs Hd) as (index & c' & E' & _); [eauto 8|]. rewrite E' in E |- *. cbn [bind] in E |- *. exact E.
  - destruct (HO _ Hd) as (ws & didx & rest' & E & A); [eauto 6|]. exists ws, didx, rest'. split; [|exact A].
    destruct (to_indexed_option _ vs Hd) as (index & c' & E' & _); [eauto 6|]. rewrite E' in E |- *. cbn [bind] in E |- *. exact E.
Qed.
Lemma indexed_fold l vss : dens l vss -> Forall (fun a => is_union a = false) l ->
  forall o cs pw d rest, zlen (concat vss) <= zlen rest ->
  exists ws didx rest', foldm indexed_fill l (o, cs, zlen pw, zlen d, d ++ rest) = Ok (fold_left flag l o, cs ++ flat_map stripi l, zlen (pw ++ concat ws), zlen (d ++ didx), (d ++ didx) ++ rest')
   /\ dens (flat_map stripi l) ws /\ zlen rest = zlen (concat vss) + zlen rest'
   /\ (forall fl tail, (existsb is_opt l = true -> fl = true) -> omap (idx fl (pw ++ concat ws ++ tail)) didx = Some (concat vss)).
Proof.
  intros HD. induction HD as [|a vs l vss Ha HD IH]; intros HU o cs pw d rest Hr; cbn [foldm concat flat_map fold_left existsb].
  - exists [], [], rest. simpl. rewrite !app_nil_r. split; [reflexivity|]. split; [constructor|]. split; [change (zlen (@nil value)) with 0; lia|reflexivity].
  - inversion HU; subst. cbn [concat] in Hr. rewrite zlen_app in *. pose proof (zlen_nonneg (concat vss)).
    destruct (indexed_block a vs o cs pw d rest Ha) as (w1 & x1 & r1 & E1 & D1 & L1 & O1); [assumption|lia|]. rewrite E1. cbn [bind].
    destruct (IH ltac:(assumption) (flag o a) (cs ++ stripi a) (pw ++ concat w1) (d ++ x1) r1) as (w2 & x2 & r2 & E2 & D2 & L2 & O2); [lia|].
    exists (w1 ++ w2), (x1 ++ x2), r2. rewrite !concat_app. rewrite E2, !app_assoc. split; [reflexivity|]. split; [apply Forall2_app; assumption|]. split; [lia|].
    intros fl tail Hfl. apply omap_F. apply Forall2_app; apply omap_F.
    + rewrite <- !app_assoc. apply O1. intros E. apply Hfl. rewrite E. reflexivity.
    + specialize (O2 fl tail). rewrite <- !app_assoc in O2 |- *. apply O2. intros E. apply Hfl. rewrite E. apply orb_true_r.
Qed.
Lemma flag_true l o : Forall (fun a => indexed_free a = true) l -> o = true \/ existsb is_opt l = true -> fold_left flag l o = true.
Proof.
  intros H; revert o; induction H as [|a l Ha H IH]; intros o Ho; simpl in *; [destruct Ho; [assumption|discriminate]|]. apply IH. unfold flag.
  destruct Ho as [Ho|Ho]; [|destruct (is_opt a); [left; reflexivity|right; exact Ho]]. left. destruct (is_opt a); [reflexivity|]. destruct a; try exact Ho; discriminate.
Qed.
Lemma flag_false l : Forall ofree l -> forall o, o = false -> fold_left flag l o = false.
Proof. induction 1 as [|a l Ha H IH]; intros o Ho; simpl; [exact Ho|]. apply IH. unfold ofree in Ha. destruct a; simpl in *; try discriminate; auto. Qed.
Lemma no_opt l : Forall ofree l -> existsb is_opt l = false.
Proof. induction 1 as [|a l Ha H IH]; simpl; [reflexivity|]. rewrite IH. unfold ofree in Ha. destruct a; simpl in *; try discriminate; reflexivity. Qed.

Lemma indexed_outcome self others vss : (exists i c, self = Indexed i c \/ self = IndexedOption i c) -> pre self others vss -> (sumw (self :: others) + length others <= S f)%nat ->
  outcome (self :: others) vss (IndexedArray_mergemany narrow rec self others).
Proof.
  intros Hs HP Hf. unfold IndexedArray_mergemany. assert (EM : merging_strategy self others = split_until is_union others) by (destruct Hs as (? & ? & [->| ->]); reflexivity). rewrite EM. clear EM.
  pose proof (split_until_app is_union others) as HS. destruct (split_until _ others) as [hl tail]. destruct HS as (-> & HN & Ht).
  set (X := foldm indexed_fill (self :: hl) (false, [], 0, 0, alloc (total_length (self :: hl)))).
  match goal with |- outcome _ _ ?e => replace e with
    (let* next := (let* st := X in let '(is_option, contents, _, _, nextindex) := st in let* nextcontent := merge_contents rec contents in Ok (if is_option then IndexedOption nextindex nextcontent else Indexed nextindex nextcontent)) in merge_tail narrow rec next tail)
    by (destruct X as [((((b & l1) & z1) & z2) & l2)| |]; try reflexivity; cbn [bind]; destruct (merge_contents rec l1); reflexivity) end.
  assert (HSelf : needs_simplify self = true /\ is_union self = false) by (destruct Hs as (? & ? & [->| ->]); split; reflexivity). destruct HSelf as [HSn HSu].
  apply finish; [exact HP|destruct tail as [|t0 tl]; [exact I|rewrite Ht; apply orb_true_r]|exact Hf|]. clear HP Hf. intros v1 (HD & HT & HO & HPP) Hf.
  unfold X. clear X. rewrite (total_length_dens _ _ HD). pose proof (zlen_nonneg (concat v1)).
  destruct (indexed_fold _ _ HD (Forall_cons _ HSu HN) false [] [] [] (alloc (zlen (concat v1)))) as (ws & didx & rest' & E & Dw & L & Hidx); [rewrite zlen_alloc by lia; lia|]. rewrite zlen_alloc in L by lia.
  simpl app in E. change (zlen (@nil value)) with 0 in E. change (zlen (@nil Z)) with 0 in E. rewrite E. cbn [bind]. assert (rest' = []) by (apply zlen_0; lia). subst rest'. rewrite app_nil_r.
  assert (Hflag : existsb is_opt (self :: hl) = true -> fold_left flag (self :: hl) false = true).
  { intros Ho. destruct HO as [HO|HO]; [|rewrite (no_opt _ HO) in Ho; discriminate]. simpl in Ho |- *. apply flag_true; [exact HO|]. apply orb_true_iff in Ho as [Ho|Ho]; [left; unfold flag; rewrite Ho; reflexivity|right; exact Ho]. }
  set (fl := fold_left flag (self :: hl) false) in *. set (css := flat_map stripi (self :: hl)) in *.
  assert (Hlen : (length css <= length (self :: hl))%nat) by (apply flat_map_len; intros; apply stripi_len).
  assert (Hw : (S (sumw css) <= sumw (self :: hl))%nat).
  { unfold css. cbn [flat_map]. sw. pose proof (stripi_weight_S self HSn). pose proof (flat_map_sumw stripi hl (fun a _ => stripi_weight a)). lia. }
  assert (HU : Forall ufree (self :: hl) -> Forall ufree css) by (intros HF; eapply flat_map_Forall; [exact HF|]; intros a x Ha Hx; exact (stripi_ufree a x Ha Hx)).
  eapply outcome_bind; [apply (merge_contents_ok rc narrow mb rec f IHrec css ws)| |].
  - unfold css. simpl. destruct self; try discriminate; simpl; discriminate.
  - exact Dw.
  - eapply flat_map_Forall; [exact HT|]. intros a x Ha Hx; exact (stripi_tidy a x Ha Hx).
  - destruct HO as [HO|HO]; [left|right; eapply flat_map_Forall; [exact HO|]; intros a x Ha Hx; exact (stripi_ofree a x Ha Hx)].
    assert (HX : Forall (fun c => indexed_free c = true) (flat_map stripi hl)) by (eapply flat_map_Forall; [exact HO|]; intros a x Ha Hx; exact (stripi_ifree a x Ha Hx)).
    unfold css. destruct self; try discriminate; exact HX.
  - eapply flat_map_FOP; [exact HPP|intros; apply stripi_len|]. intros a b x y Hab Hx Hy. unfold PMerge.fmc in *. eapply stripi_fm_r; [|exact Hy]. eapply stripi_fm_l; [exact Hab|exact Hx].
  - simpl length in Hlen. lia.
  - apply excuse_mono; [exact HU|lia].
  - intros content (us' & D' & P' & T' & W' & O' & U' & M'). specialize (Hidx fl [] Hflag). rewrite app_nil_r in Hidx. simpl app in Hidx.
    destruct (idx_promote rc fl _ us' didx _ P' Hidx) as (vs' & Hv & Pv). exists vs'. split; [simpl app; rewrite (den_idx fl didx content us' D'); exact Hv|]. split; [exact Pv|]. split; [|split; [|split; [|split]]].
    + destruct fl; exact T'.
    + destruct fl; simpl; lia.
    + intros HF. unfold fl. rewrite (flag_false _ HF false eq_refl). apply O'. eapply flat_map_Forall; [exact HF|]. intros a x Ha Hx; exact (stripi_ofree a x Ha Hx).
    + intros HF. specialize (U' (HU HF)). destruct fl; exact U'.
    + intros g HF. assert (HG : fm (form_of content) g = true) by (apply M'; eapply flat_map_Forall; [exact HF|]; intros a x Ha Hx; exact (stripi_fm_l a x g Ha Hx)). destruct fl; exact HG.
Qed.
(** ** lists *)
Definition lcont (a : content) : list content := match a with ListA _ _ c | ListOffset _ c | Regular _ _ c => [c] | _ => [] end.
Definition listish (a : content) : Prop := a = Empty \/ lcont a <> [].
Lemma lcont_weight a : (sumw (lcont a) <= weight a)%nat.
Proof. destruct a; simpl; rewrite ?sumw_cons, ?sumw_nil; simpl; lia. Qed.
Lemma lcont_weight_S a : lcont a <> [] -> (S (sumw (lcont a)) <= weight a)%nat.
Proof. destruct a; simpl; intros; try congruence; rewrite ?sumw_cons, ?sumw_nil; simpl; lia. Qed.
Lemma lcont_len a : (length (lcont a) <= 1)%nat. Proof. destruct a; simpl; lia. Qed.
Lemma lcont_tidy a x : tidy a -> In x (lcont a) -> tidy x.
Proof. destruct a; simpl; intros H Hx; destruct Hx as [<-|[]] || destruct Hx; exact H. Qed.
Lemma lcont_ofree a x : ofree a -> In x (lcont a) -> ofree x.
Proof. unfold ofree. destruct a; simpl; intros H Hx; try discriminate; destruct Hx as [<-|[]] || destruct Hx; exact H. Qed.
Lemma lcont_ufree a x : ufree a -> In x (lcont a) -> ufree x.
Proof. unfold ufree. destruct a; simpl; intros H Hx; try discriminate; destruct Hx as [<-|[]] || destruct Hx; exact H. Qed.
Lemma lcont_ifree a x : indexed_free a = true -> In x (lcont a) -> indexed_free x = true.
Proof. destruct a; simpl; intros H Hx; try discriminate; destruct Hx as [<-|[]] || destruct Hx; exact H. Qed.
Lemma lcont_fm a b x y : fmc a b -> In x (lcont a) -> In y (lcont b) -> fmc x y.
Proof. unfold PMerge.fmc. destruct a; simpl; intros H Hx; destruct Hx as [<-|[]] || destruct Hx; destruct b; simpl in *; intros Hy; destruct Hy as [<-|[]] || destruct Hy; exact H. Qed.
Lemma list_contents_spec l : Forall listish l -> list_contents l = Ok (flat_map lcont l).
Proof.
  unfold list_contents. intros H. assert (G : forall acc, foldm (fun acc array => match array with
    | ListA _ _ c | ListOffset _ c | Regular _ _ c => Ok (acc ++ [c]) | Empty => Ok acc | _ => Err "cannot merge ListArray with this class" end) l acc = Ok (acc ++ flat_map lcont l)); [|apply (G [])].
  induction H as [|a l Ha H IH]; intros acc; simpl; [rewrite app_nil_r; reflexivity|].
  destruct a; simpl; try (destruct Ha as [Ha|Ha]; [discriminate|simpl in Ha; congruence]); rewrite IH, <- ?app_assoc; reflexivity.
Qed.
Lemma lo_bounds offsets c vs : den (ListOffset offsets c) = Some vs ->
  exists starts stops ws, (let* starts := make_starts offsets in let* stops := make_stops offsets in Ok (Some (starts, stops, length_ c))) = Ok (Some (starts, stops, zlen ws)) /\ den c = Some ws
    /\ zlen starts <= zlen stops /\ zlen starts = zlen vs /\ forallb (sub_ok (zlen ws)) (combine starts stops) = true /\ vs = map VList (map (seg ws) (combine starts stops)).
Proof.
  intros Hd. destruct (list_inv _ _ _ _ Hd eq_refl) as (ws & Dc & HO & HV). cbn [den] in Hd. rewrite Dc in Hd. destruct (Z.leb_spec 1 (zlen offsets)); [|discriminate].
  rewrite make_starts_spec, make_stops_spec by lia. cbn [bind]. do 2 eexists. exists ws. rewrite (den_length _ _ Dc). split; [reflexivity|]. split; [exact Dc|]. rewrite combine_starts_stops by lia.
  rewrite !zlen_slice by lia. split; [lia|]. split; [|split; [exact HO|exact HV]]. rewrite HV, !zlen_map, zlen_pairs by lia. lia.
Qed.
Lemma list_bounds_spec a vs c : den a = Some vs -> lcont a = [c] ->
  exists starts stops ws, list_bounds a = Ok (Some (starts, stops, zlen ws)) /\ den c = Some ws
    /\ zlen starts <= zlen stops /\ zlen starts = zlen vs /\ forallb (sub_ok (zlen ws)) (combine starts stops) = true /\ vs = map VList (map (seg ws) (combine starts stops)).
Proof.
  intros Hd Hc. destruct a as [| |starts stops c0|offsets c0|size zl c0| | | | | | |]; simpl in Hc; try discriminate; injection Hc as ->; cbn [list_bounds].
  - destruct (list_inv _ _ _ _ Hd eq_refl) as (ws & Dc & HO & HV). cbn [den] in Hd. rewrite Dc in Hd. destruct (Z.leb_spec (zlen starts) (zlen stops)); [|discriminate].
    exists starts, stops, ws. rewrite (den_length _ _ Dc). split; [reflexivity|]. split; [exact Dc|]. split; [lia|]. split; [|split; [exact HO|exact HV]]. rewrite HV, !zlen_map, zlen_combine_le by lia. reflexivity.
  - apply lo_bounds. exact Hd.
  - destruct (regular_inv _ _ _ _ Hd) as (ws & segs & _ & _ & -> & _). destruct (regular_to_listoffset _ _ _ _ Hd) as (c'' & tail & E & D1 & D2 & _ & _). rewrite E. cbn [bind].
    destruct (lo_bounds (offsets_of (map zlen segs)) c'' (map VList segs)) as (starts & stops & ws' & E1 & D1' & A); [apply (listoffset_den _ _ tail); exact D1|]. rewrite E1.
    exists starts, stops, ws'. split; [reflexivity|]. split; [|exact A]. rewrite D2, <- D1. exact D1'.
Qed.
Lemma combine_fst_snd {A B} (l : list (A * B)) : combine (map fst l) (map snd l) = l.
Proof. induction l as [|[a b] l IH]; simpl; [reflexivity|]. rewrite IH. reflexivity. Qed.
Lemma list_fold l vss : dens l vss -> Forall listish l ->
  forall pw d1 d2 r1 r2, zlen d1 = zlen d2 -> zlen (concat vss) <= zlen r1 -> zlen (concat vss) <= zlen r2 ->
  exists ws ps r1' r2', foldm list_fill l (d1 ++ r1, d2 ++ r2, zlen pw, zlen d1) = Ok ((d1 ++ map fst ps) ++ r1', (d2 ++ map snd ps) ++ r2', zlen (pw ++ concat ws), zlen (d1 ++ map fst ps))
   /\ dens (flat_map lcont l) ws /\ zlen r1 = zlen (concat vss) + zlen r1' /\ zlen r2 = zlen (concat vss) + zlen r2'
   /\ (forall tail, forallb (sub_ok (zlen (pw ++ concat ws ++ tail))) ps = true /\ concat vss = map VList (map (seg (pw ++ concat ws ++ tail)) ps)).
Proof.
  intros HD. induction HD as [|a vs l vss Ha HD IH]; intros HL pw d1 d2 r1 r2 Hd H1 H2; cbn [foldm concat flat_map].
  - exists [], [], r1, r2. simpl. rewrite !app_nil_r. split; [reflexivity|]. split; [constructor|]. change (zlen (@nil value)) with 0. split; [lia|]. split; [lia|]. intros; split; reflexivity.
  - inversion HL as [|? ? HL1 HL2]; subst. cbn [concat] in H1, H2. rewrite !zlen_app in *. pose proof (zlen_nonneg (concat vss)). pose proof (zlen_nonneg vs). destruct HL1 as [->|HL1].
    + cbn [den] in Ha. injection Ha as <-. change (zlen (@nil value)) with 0 in *. cbn [list_fill list_bounds bind lcont app]. destruct (IH HL2 pw d1 d2 r1 r2 Hd) as (ws & ps & r1' & r2' & A); [lia|lia|]. exists ws, ps, r1', r2'. exact A.
    + destruct (lcont a) as [|c [|x t]] eqn:Ec; [congruence| |pose proof (lcont_len a) as HX; rewrite Ec in HX; simpl in HX; lia].
      destruct (list_bounds_spec a vs c Ha Ec) as (starts & stops & ws & Eb & Dc & Hss & HLv & HO & HV). unfold list_fill at 1. rewrite Eb. cbn [bind].
      destruct (list_fill_spec d1 d2 r1 r2 starts stops (zlen pw) Hd Hss) as (q1 & q2 & Ef & L1 & L2); [lia|lia|]. rewrite <- Hd in Ef. rewrite Ef. cbn [bind].
      set (p0 := map (shiftp (zlen pw)) (combine starts stops)) in *.
      assert (Hp0 : zlen p0 = zlen starts) by (unfold p0; rewrite zlen_map, zlen_combine_le by lia; reflexivity).
      replace (zlen pw + zlen ws) with (zlen (pw ++ ws)) by (rewrite zlen_app; reflexivity). replace (zlen d1 + zlen starts) with (zlen (d1 ++ map fst p0)) by (rewrite zlen_app, zlen_map; lia).
      destruct (IH HL2 (pw ++ ws) (d1 ++ map fst p0) (d2 ++ map snd p0) q1 q2) as (ws' & ps & r1' & r2' & E & Dw & L1' & L2' & Hps); [rewrite !zlen_app, !zlen_map; lia|lia|lia|].
      exists (ws :: ws'), (p0 ++ ps), r1', r2'. rewrite E. cbn [concat]. rewrite !map_app, !app_assoc. split; [reflexivity|]. split; [constructor; [exact Dc|exact Dw]|]. split; [lia|]. split; [lia|].
      intros tail. destruct (Hps tail) as [A1 A2]. rewrite <- !app_assoc in A1, A2 |- *. split.
      * rewrite forallb_app, A1, andb_true_r. unfold p0. rewrite forallb_forall in HO |- *. intros ab Hab. apply in_map_iff in Hab as (ab0 & <- & Hab). apply (sub_ok_shift (zlen ws)); [apply zlen_nonneg| |apply HO; exact Hab].
        rewrite !zlen_app. pose proof (zlen_nonneg (concat ws')). pose proof (zlen_nonneg tail). lia.
      * rewrite !map_app, <- A2. f_equal. rewrite HV. unfold p0. rewrite !map_map. apply map_ext_in. intros ab Hab. f_equal. symmetry. apply seg_shift. rewrite forallb_forall in HO. apply HO. exact Hab.
Qed.
Lemma list_outcome self others vss : (exists s t c, self = ListA s t c) -> pre self others vss -> (sumw (self :: others) + length others <= S f)%nat ->
  outcome (self :: others) vss (ListArray_mergemany narrow rec self others).
Proof.
  intros Hs HP Hf. unfold ListArray_mergemany. assert (EM : merging_strategy self others = split_until (fun o => needs_simplify o || is_union o) others) by (destruct Hs as (? & ? & ? & ->); reflexivity). rewrite EM. clear EM.
  pose proof (split_until_app (fun o => needs_simplify o || is_union o) others) as HS. destruct (split_until _ others) as [hl tail]. destruct HS as (-> & HN & Ht).
  assert (HH : Forall listish (self :: hl)).
  { constructor; [right; destruct Hs as (? & ? & ? & ->); discriminate|]. destruct HP as (_ & _ & _ & HP). inversion HP as [|? ? HF _]; subst. apply Forall_app in HF as [HF _]. rewrite Forall_forall in *. intros o Ho. specialize (HN o Ho). specialize (HF o Ho). unfold PMerge.fmc in HF.
    destruct Hs as (? & ? & ? & ->). destruct o; simpl in HN, HF; try discriminate; (left; reflexivity) || (right; discriminate). }
  rewrite (list_contents_spec _ HH). cbn [bind]. set (css := flat_map lcont (self :: hl)) in *. set (n := total_length (self :: hl)).
  match goal with |- outcome _ _ ?e => replace e with
    (let* next := (let* nextcontent := merge_contents rec css in let* st := foldm list_fill (self :: hl) (alloc n, alloc n, 0, 0) in let '(nextstarts, nextstops, _, _) := st in mkListA nextstarts nextstops nextcontent) in merge_tail narrow rec next tail)
    by (destruct (merge_contents rec css); try reflexivity; cbn [bind]; destruct (foldm list_fill (self :: hl) (alloc n, alloc n, 0, 0)) as [(((b & l1) & z1) & z2)| |]; reflexivity) end.
  assert (HSl : lcont self <> []) by (destruct Hs as (? & ? & ? & ->); discriminate).
  apply finish; [exact HP|exact Ht|exact Hf|]. clear HP Hf. intros v1 (HD & HT & HO & HPP) Hf.
  assert (EN : n = zlen (concat v1)) by (apply total_length_dens; exact HD). pose proof (zlen_nonneg (concat v1)).
  destruct (list_fold _ _ HD HH [] [] [] (alloc n) (alloc n) eq_refl) as (ws & ps & r1 & r2 & E & Dw & L1 & L2 & Hps); [rewrite zlen_alloc by lia; lia|rewrite zlen_alloc by lia; lia|]. rewrite zlen_alloc in L1, L2 by lia.
  simpl app in E. change (zlen (@nil value)) with 0 in E. change (zlen (@nil Z)) with 0 in E. rewrite E. assert (r1 = []) by (apply zlen_0; lia). assert (r2 = []) by (apply zlen_0; lia). subst r1 r2. rewrite !app_nil_r.
  assert (Hlen : (length css <= length (self :: hl))%nat) by (apply flat_map_len; intros; apply lcont_len).
  assert (Hw : (S (sumw css) <= sumw (self :: hl))%nat).
  { unfold css. cbn [flat_map]. sw. pose proof (lcont_weight_S self HSl). pose proof (flat_map_sumw lcont hl (fun a _ => lcont_weight a)). lia. }
  assert (HU : Forall ufree (self :: hl) -> Forall ufree css) by (intros HF; eapply flat_map_Forall; [exact HF|]; intros a x Ha Hx; exact (lcont_ufree a x Ha Hx)).
  eapply outcome_bind; [apply (merge_contents_ok rc narrow mb rec f IHrec css ws)| |].
  - unfold css. simpl. destruct (lcont self); [congruence|discriminate].
  - exact Dw.
  - eapply flat_map_Forall; [exact HT|]. intros a x Ha Hx; exact (lcont_tidy a x Ha Hx).
  - destruct HO as [HO|HO]; [left|right; eapply flat_map_Forall; [exact HO|]; intros a x Ha Hx; exact (lcont_ofree a x Ha Hx)].
    assert (HX : Forall (fun c => indexed_free c = true) (flat_map lcont hl)) by (eapply flat_map_Forall; [exact HO|]; intros a x Ha Hx; exact (lcont_ifree a x Ha Hx)).
    unfold css. destruct Hs as (? & ? & ? & ->). exact HX.
  - eapply flat_map_FOP; [exact HPP|intros; apply lcont_len|]. intros a b x y Hab Hx Hy. exact (lcont_fm a b x y Hab Hx Hy).
  - simpl length in Hlen. lia.
  - apply excuse_mono; [exact HU|lia].
  - intros content (us' & D' & P' & T' & W' & O' & U' & M'). cbn [bind]. unfold mkListA. rewrite !zlen_map. destruct (Z.ltb_spec (zlen ps) (zlen ps)); [lia|].
    specialize (Hps []). rewrite app_nil_r in Hps. simpl app in Hps. destruct Hps as [Hps1 Hps2]. pose proof (F2_zlen _ _ _ P') as HZ.
    exists (map VList (map (seg us') ps)). split; [|split; [|split; [|split; [|split; [|split]]]]].
    + cbn [den]. rewrite D', !zlen_map, Z.leb_refl, combine_fst_snd, subs_den, <- HZ, Hps1. reflexivity.
    + rewrite Hps2. apply segs_promote. exact P'.
    + exact T'.
    + simpl. lia.
    + intros HF. apply O'. eapply flat_map_Forall; [exact HF|]; intros a x Ha Hx; exact (lcont_ofree a x Ha Hx).
    + intros HF. apply U'. apply HU. exact HF.
    + intros g HF. inversion HF as [|? ? HF1 _]; subst. destruct Hs as (s & t & c0 & ->). cbn [form_of fmerge] in HF1 |- *. destruct (no_option g) as [| |g'| | |] eqn:Eg; try reflexivity; try discriminate.
      apply M'. eapply flat_map_Forall; [exact HF|]. intros a x Ha Hx. simpl in Ha. destruct a; simpl in Hx; destruct Hx as [<-|[]] || destruct Hx; cbn [form_of fmerge] in Ha; rewrite Eg in Ha; exact Ha.
Qed.

(** ** unions *)
Definition ucont (a : content) : list content := match a with Empty => [] | Union _ _ cs => cs | _ => [a] end.
Definition upick (vss : list (list value)) (ti : Z * Z) : option value := match nthZ vss (fst ti) with Some vs => nthZ vs (snd ti) | None => None end.
Lemma ucont_weight a : (sumw (ucont a) <= weight a)%nat.
Proof. destruct a; cbn [ucont weight]; rewrite ?sumw_cons, ?sumw_nil; try (simpl; lia). unfold sumw. lia. Qed.
Lemma omap_F_app {A B} (g : A -> option B) a b x y : omap g a = Some x -> omap g b = Some y -> omap g (a ++ b) = Some (x ++ y).
Proof. intros Ha Hb. apply omap_F in Ha, Hb. apply omap_F. apply Forall2_app; assumption. Qed.
Lemma combine_app {A B} (a a' : list A) (b b' : list B) : zlen a = zlen b -> combine (a ++ a') (b ++ b') = combine a b ++ combine a' b'.
Proof.
  revert b. induction a as [|x a IH]; intros b HL; destruct b as [|y b]; rewrite ?zlen_cons in HL; try reflexivity; try (change (zlen (@nil A)) with 0 in HL; pose proof (zlen_nonneg b); lia);
    try (change (zlen (@nil B)) with 0 in HL; pose proof (zlen_nonneg a); lia). simpl. rewrite IH by lia. reflexivity.
Qed.
Lemma union_fold l vss : dens l vss ->
  forall pc pw d1 d2 r1 r2, zlen pc = zlen pw -> zlen d1 = zlen d2 -> zlen (concat vss) <= zlen r1 -> zlen (concat vss) <= zlen r2 ->
  exists ws ps r1' r2', foldm union_fill l (d1 ++ r1, d2 ++ r2, pc, zlen d1) = Ok ((d1 ++ map fst ps) ++ r1', (d2 ++ map snd ps) ++ r2', pc ++ flat_map ucont l, zlen (d1 ++ map fst ps))
   /\ dens (flat_map ucont l) ws /\ zlen r1 = zlen (concat vss) + zlen r1' /\ zlen r2 = zlen (concat vss) + zlen r2'
   /\ (forall tail, omap (upick (pw ++ ws ++ tail)) ps = Some (concat vss)).
Proof.
  intros HD. induction HD as [|a vs l vss Ha HD IH]; intros pc pw d1 d2 r1 r2 Hp Hd H1 H2; cbn [foldm concat flat_map].
  - exists [], [], r1, r2. simpl. rewrite !app_nil_r. split; [reflexivity|]. split; [constructor|]. change (zlen (@nil value)) with 0. split; [lia|]. split; [lia|]. intros; reflexivity.
  - cbn [concat] in H1, H2. rewrite !zlen_app in *. pose proof (zlen_nonneg (concat vss)). pose proof (zlen_nonneg vs).
    assert (ST : exists w0 p0 q1 q2, union_fill (d1 ++ r1, d2 ++ r2, pc, zlen d1) a = Ok ((d1 ++ map fst p0) ++ q1, (d2 ++ map snd p0) ++ q2, pc ++ ucont a, zlen (d1 ++ map fst p0))
        /\ dens (ucont a) w0 /\ zlen r1 = zlen vs + zlen q1 /\ zlen r2 = zlen vs + zlen q2 /\ (forall tail, omap (upick (pw ++ w0 ++ tail)) p0 = Some vs)).
    { assert (PL : ucont a = [a] -> exists w0 p0 q1 q2, (let* nexttags := awkward_UnionArray_filltags_const (d1 ++ r1) (zlen d1) (length_ a) (zlen pc) in
              let* nextindex := awkward_UnionArray_fillindex_count (d2 ++ r2) (zlen d1) (length_ a) in Ok (nexttags, nextindex, pc ++ [a], zlen d1 + length_ a))
              = Ok ((d1 ++ map fst p0) ++ q1, (d2 ++ map snd p0) ++ q2, pc ++ ucont a, zlen (d1 ++ map fst p0))
        /\ dens (ucont a) w0 /\ zlen r1 = zlen vs + zlen q1 /\ zlen r2 = zlen vs + zlen q2 /\ (forall tail, omap (upick (pw ++ w0 ++ tail)) p0 = Some vs)).
      { intros Eu. rewrite Eu, (den_length _ _ Ha). destruct (filltags_const_spec d1 r1 (zlen vs) (zlen pc)) as (q1 & E1 & L1); [lia|]. rewrite E1. cbn [bind].
        destruct (fillindex_count_spec d2 r2 (zlen vs)) as (q2 & E2 & L2); [lia|]. rewrite <- Hd in E2. rewrite E2. cbn [bind].
        set (p0 := map (fun i => (zlen pc, i)) (zseq 0 (zlen vs))). exists [vs], p0, q1, q2.
        assert (F1 : map fst p0 = map (fun _ => zlen pc) (zseq 0 (zlen vs))) by (unfold p0; rewrite map_map; reflexivity).
        assert (F2 : map snd p0 = zseq 0 (zlen vs)) by (unfold p0; rewrite map_map; apply map_id).
        rewrite F1, F2. rewrite zlen_app, zlen_map, zlen_zseq by lia. replace (zlen vs - 0) with (zlen vs) by lia. split; [reflexivity|]. split; [constructor; [exact Ha|constructor]|]. split; [exact L1|]. split; [exact L2|].
        intros tail. unfold p0. rewrite omap_map. rewrite (omap_ext _ (nthZ vs)).
        - rewrite omap_nthZ_zseq by lia. f_equal. apply slice_full.
        - intros i _. unfold upick. simpl fst. simpl snd. rewrite Hp, nthZ_app. destruct (Z.ltb_spec (zlen pw) (zlen pw)); [lia|]. rewrite Z.sub_diag. reflexivity. }
      destruct a as [| | | | | | | | | | |tags index cs]; unfold union_fill; try (apply PL; reflexivity).
      - cbn [den] in Ha. injection Ha as <-. exists [], [], r1, r2. simpl. rewrite !app_nil_r. split; [reflexivity|]. split; [constructor|]. change (zlen (@nil value)) with 0. split; [lia|]. split; [lia|reflexivity].
      - clear PL. cbn [den] in Ha. destruct (omap den cs) as [uss|] eqn:Dcs; [|discriminate]. destruct ((1 <=? zlen cs) && (zlen tags <=? zlen index)) eqn:Ei; [|discriminate].
        assert (HLv : zlen tags = zlen vs). { apply omap_F in Ha. apply F2_zlen in Ha. rewrite zlen_combine_le in Ha by lia. exact Ha. }
        destruct (filltags_spec d1 r1 tags (zlen pc)) as (q1 & E1 & L1); [lia|]. rewrite E1. cbn [bind]. pose proof (zlen_nonneg tags).
        destruct (fillindex_spec d2 r2 index (zlen tags)) as (q2 & E2 & L2); [lia|lia|]. rewrite <- Hd in E2. rewrite E2. cbn [bind].
        set (p0 := map (fun ti => (fst ti + zlen pc, snd ti)) (combine tags index)). exists uss, p0, q1, q2.
        assert (F1 : map fst p0 = map (fun t => t + zlen pc) tags).
        { unfold p0. rewrite map_map. cbn [fst]. rewrite <- (map_map fst (fun t => t + zlen pc)). f_equal. clear - Ei. assert (HX : (length tags <= length index)%nat) by (unfold zlen in Ei; lia).
          clear Ei. revert index HX. induction tags as [|t tags IH]; intros [|x index] HX; simpl in *; try reflexivity; try lia. f_equal. apply IH. lia. }
        assert (F2 : map snd p0 = slice 0 (zlen tags) index).
        { unfold p0. rewrite map_map. cbn [snd]. assert (HX : (length tags <= length index)%nat) by (unfold zlen in Ei; lia). clear - HX. unfold slice, zlen. replace (Z.to_nat (Z.of_nat (length tags) - 0)) with (length tags) by lia. simpl skipn.
          revert index HX. induction tags as [|t tags IH]; intros [|x index] HX; simpl in *; try reflexivity; try lia. f_equal. apply IH. lia. }
        rewrite F1, F2. rewrite zlen_app, zlen_map. split; [reflexivity|]. split; [apply dens_omap; exact Dcs|]. split; [lia|]. split; [lia|].
        intros tail. unfold p0. rewrite omap_map. rewrite <- Ha. apply omap_ext. intros [t i] Hin. unfold upick. simpl fst. simpl snd.
        destruct (omap_in _ _ _ _ Ha Hin) as (y & Hy & _). cbn [fst snd] in Hy. destruct (nthZ uss t) as [us|] eqn:Et; [|discriminate]. pose proof (nthZ_Some _ _ _ Et). pose proof (zlen_nonneg pw).
        rewrite Hp, nthZ_app. destruct (Z.ltb_spec (t + zlen pw) (zlen pw)); [lia|]. replace (t + zlen pw - zlen pw) with t by lia. rewrite nthZ_app. destruct (Z.ltb_spec t (zlen uss)); [|lia]. rewrite Et. reflexivity. }
    destruct ST as (w0 & p0 & q1 & q2 & E0 & D0 & L1 & L2 & O0). rewrite E0. cbn [bind].
    assert (ZP : zlen (map fst p0) = zlen (map snd p0)) by (rewrite !zlen_map; reflexivity). pose proof (F2_zlen _ _ _ D0) as HZ0.
    destruct (IH (pc ++ ucont a) (pw ++ w0) (d1 ++ map fst p0) (d2 ++ map snd p0) q1 q2) as (ws & ps & r1' & r2' & E & Dw & L1' & L2' & Hps); [rewrite !zlen_app; lia|rewrite !zlen_app; lia|lia|lia|].
    exists (w0 ++ ws), (p0 ++ ps), r1', r2'. rewrite E, !map_app, !app_assoc. split; [reflexivity|]. split; [apply Forall2_app; assumption|]. split; [lia|]. split; [lia|].
    intros tail. apply omap_F_app.
    + rewrite <- !app_assoc. apply O0.
    + specialize (Hps tail). rewrite <- !app_assoc in Hps |- *. exact Hps.
Qed.
Lemma union_outcome self others vss : (exists t i cs, self = Union t i cs) -> pre self others vss -> (sumw (self :: others) + length others <= S f)%nat ->
  outcome (self :: others) vss (UnionArray_mergemany narrow rec self others).
Proof.
  intros Hs HP Hf. unfold UnionArray_mergemany. assert (EM : merging_strategy self others = (others, [])) by (destruct Hs as (? & ? & ? & ->); reflexivity). rewrite EM. clear EM.
  destruct HP as (HD & HT & _ & _). set (n := total_length (self :: others)).
  assert (EN : n = zlen (concat vss)) by (apply total_length_dens; exact HD). pose proof (zlen_nonneg (concat vss)).
  destruct (union_fold _ _ HD [] [] [] [] (alloc n) (alloc n) eq_refl eq_refl) as (ws & ps & r1 & r2 & E & Dw & L1 & L2 & Hps); [rewrite zlen_alloc by lia; lia|rewrite zlen_alloc by lia; lia|]. rewrite zlen_alloc in L1, L2 by lia.
  simpl app in E. change (zlen (@nil Z)) with 0 in E. rewrite E. cbn [bind]. assert (r1 = []) by (apply zlen_0; lia). assert (r2 = []) by (apply zlen_0; lia). subst r1 r2. rewrite !app_nil_r.
  change (ucont self ++ flat_map ucont others) with (flat_map ucont (self :: others)). set (css := flat_map ucont (self :: others)) in *.
  assert (Hw : (S (sumw css) <= sumw (self :: others))%nat).
  { unfold css. cbn [flat_map]. sw. pose proof (flat_map_sumw ucont others (fun a _ => ucont_weight a)). destruct Hs as (? & ? & ? & ->). cbn [ucont weight]. unfold sumw in *. lia. }
  assert (HNU : ~ Forall ufree (self :: others)) by (intros HF; inversion HF as [|? ? HU _]; subst; destruct Hs as (? & ? & ? & ->); discriminate HU).
  unfold kMaxInt8. destruct (Z.ltb_spec 127 (zlen css)) as [Hbig|_].
  { right. split; [exact HNU|]. pose proof (zlen_sumw css). lia. }
  assert (HNE : exists x t, css = x :: t).
  { unfold css. inversion HD as [|? v0 ? vs0 D0 _]; subst. destruct Hs as (t0 & i0 & cs0 & ->). cbn [flat_map ucont]. cbn [den] in D0. destruct (omap den cs0); [|discriminate]. destruct cs0 as [|x t]; [simpl in D0; discriminate|]. simpl. eauto. }
  unfold mkUnion. destruct HNE as (x & t & HNE). rewrite HNE at 1. rewrite !zlen_map. destruct (Z.ltb_spec (zlen ps) (zlen ps)); [lia|]. cbn [bind merge_tail].
  exists (concat vss). split; [|split; [apply prs_refl|]].
  - cbn [den]. apply dens_omap in Dw. rewrite Dw, !zlen_map, Z.leb_refl, combine_fst_snd. assert (1 <= zlen css) by (rewrite HNE, zlen_cons; pose proof (zlen_nonneg t); lia). destruct (Z.leb_spec 1 (zlen css)); [|lia]. cbn [andb].
    specialize (Hps []). rewrite app_nil_r in Hps. simpl app in Hps. exact Hps.
  - split; [|split; [|split; [|split]]].
    + apply tidy_union. eapply flat_map_Forall; [exact HT|]. intros a y Ha Hy. destruct a; simpl in Hy; try (destruct Hy as [<-|[]] || destruct Hy; exact Ha). apply tidy_union in Ha. rewrite Forall_forall in Ha. apply Ha. exact Hy.
    + cbn [weight]. unfold sumw in Hw at 1. exact Hw.
    + intros HF. unfold ofree. cbn [form_of option_free]. apply forallb_forall. intros g Hg. apply in_map_iff in Hg as (y & <- & Hy). unfold css in Hy. apply in_flat_map in Hy as (a & Ha & Hy).
      rewrite Forall_forall in HF. specialize (HF a Ha). unfold ofree in HF. destruct a; simpl in Hy; try (destruct Hy as [<-|[]] || destruct Hy; exact HF). cbn [form_of option_free] in HF. rewrite forallb_forall in HF. apply HF. apply in_map. exact Hy.
    + intros HF. contradiction.
    + intros g HF. reflexivity.
Qed.
End Rec.
End PM.
