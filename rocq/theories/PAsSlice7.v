(** Slicing by an array: the whole call. *)
From Verif Require Import Base BaseLemmas LoopLemmas OmapLemmas Content KCore Core KRange KConvert Convert KOption Option KAxis Axis KCombinations Combinations KGetitem
  SpecArray SpecForm SpecSlice SpecOption PAt PCore PRange PCarry PList PConvert POption PForm PAxis PNat PNum PCombinations PMergeC Getitem SpecGetitem PGetitemK PGetitem1 PField PGetitem PGetitem2 SpecJagged PJagged PJagged2 PJagged3 PJagged4
  Types SpecTypes PTypes PPartition KAsSlice AsSlice SpecAsSlice PAsSlice1 PAsSlice2 PAsSlice3 PAsSlice4 PAsSlice5 PAsSlice6.
Local Open Scope list_scope.
Local Open Scope Z_scope.

(** the empty slice of a list *)
Definition empties (v : value) : Prop := exists w, choose 0 (VList []) v = Some w.
Lemma choose_empty c : forall o vs, den c = Some vs -> slice_fits o 0 (form_of c) -> Forall empties vs.
Proof.
  assert (L : forall c vs t, den c = Some vs -> type_of c = YList t -> Forall empties vs). { intros c0 vs t Hd Ht. pose proof (den_typed _ _ Hd) as T. rewrite Ht in T. eapply Forall_impl; [|exact T]. intros v (l & -> & _). eexists. reflexivity. }
  assert (P : forall (index : list Z) ws vs, Forall empties ws -> omap (fun i => if i <? 0 then Some VNone else nthZ ws i) index = Some vs -> Forall empties vs).
  { intros index ws vs H E. eapply omap_Forall; [exact E|]. intros x y _ Ey. cbn beta in Ey. destruct (x <? 0); [injection Ey as <-; eexists; reflexivity|]. rewrite Forall_forall in H. apply H. eapply nthZ_In; exact Ey. }
  induction c using content_ind'; intros o vs Hd HF; pose proof (slice_fits_inv _ _ _ HF) as HI; cbn [form_of] in HI; try contradiction HI.
  - eapply L; [exact Hd|reflexivity].
  - eapply L; [exact Hd|reflexivity].
  - pose proof (den_typed _ _ Hd) as T. eapply Forall_impl; [|exact T]. intros v (l & -> & _). eexists. reflexivity.
  - destruct (content_inv1 _ _ Hd) as [ws Hws]. cbn [den] in Hd. rewrite Hws in Hd. specialize (IHc _ _ Hws HF). eapply omap_Forall; [exact Hd|]. intros x y _ Ey. rewrite Forall_forall in IHc. apply IHc. eapply nthZ_In; exact Ey.
  - destruct HI as (-> & _ & HI). destruct (content_inv1 _ _ Hd) as [ws Hws]. destruct (indexedoption_nextcarry' _ _ _ _ Hws Hd) as (nc & oi & ws' & _ & E2 & E3 & _). eapply P; [|exact E3]. eapply omap_Forall; [exact E2|]. intros x y _ Ey. specialize (IHc _ _ Hws HI). rewrite Forall_forall in IHc. apply IHc. eapply nthZ_In; exact Ey.
  - destruct HI as (-> & _ & HI). destruct (content_inv1 _ _ Hd) as [ws Hws]. destruct (bytemasked_nextcarry' _ _ _ _ _ Hws Hd) as (nc & oi & ws' & _ & E2 & E3 & _). eapply P; [|exact E3]. eapply omap_Forall; [exact E2|]. intros x y _ Ey. specialize (IHc _ _ Hws HI). rewrite Forall_forall in IHc. apply IHc. eapply nthZ_In; exact Ey.
  - destruct HI as (-> & _ & HI). destruct (content_inv1 _ _ Hd) as [ws Hws]. cbn [den] in Hd. rewrite Hws in Hd. destruct (_ && _ && _) in Hd; [|discriminate]. specialize (IHc _ _ Hws HI). rewrite Forall_forall in IHc. eapply omap_Forall; [exact Hd|].
    intros x y _ Ey. cbn beta in Ey. destruct (mask_bit _ _ _) as [bb|]; [|discriminate]. destruct (nthZ ws x) as [v|] eqn:Ev; [|discriminate]. injection Ey as <-. destruct (Bool.eqb bb _); [apply IHc; eapply nthZ_In; exact Ev|eexists; reflexivity].
  - destruct HI as (-> & _ & HI). exact (IHc _ _ Hd HI).
  - destruct (record_cols _ _ _ _ Hd) as (vss & Hvss & Hlen & Hkeys & Hzl & Hrows). eapply omap_Forall; [exact Hrows|]. intros k v _ Ek. cbn beta in Ek. destruct (omap (fun xs => nthZ xs k) vss) as [row|] eqn:Er; [|discriminate]. injection Ek as <-.
    assert (FR : Forall empties row).
    { assert (FV : Forall (Forall empties) vss). { clear -Hvss H HI. revert vss Hvss. induction cs as [|x cs IHcs]; intros vss E; cbn [omap] in E; [injection E as <-; constructor|]. destruct (den x) as [xs|] eqn:Ex; [|discriminate]. destruct (omap den cs) as [yss|]; [|discriminate]. injection E as <-. inversion H; subst. inversion HI; subst. constructor; [eauto|]. apply IHcs; auto. }
      eapply omap_Forall; [exact Er|]. intros xs y Hxs Ey. rewrite Forall_forall in FV. specialize (FV _ Hxs). rewrite Forall_forall in FV. apply FV. eapply nthZ_In; exact Ey. }
    unfold empties. rewrite choose_row; [|replace (zlen row) with (zlen cs); [exact Hkeys|]].
    + assert (R : exists ws, omap (choose 0 (VList [])) row = Some ws). { clear -FR. induction FR as [|x row [w Hw] _ [ws IH]]; [exists []; reflexivity|]. cbn [omap]. rewrite Hw, IH. eauto. }
      destruct R as [ws ->]. eexists. reflexivity.
    + rewrite (omap_zlen _ _ _ Er), (omap_zlen _ _ _ Hvss). reflexivity.
Qed.

Section Main.
Variable is64 : content -> bool.
Definition finish (out : content) : res item := if length_ out =? 0 then let* r := getitem_nothing out in Ok (IArray r) else getitem_at_nowrap out 0.
Lemma finish_row ws picked zl n : den picked = Some ws -> n = zlen ws -> 0 <= zl <= 1 -> exists it, (let* out := mkRegular n zl picked in finish out) = Ok it /\ item_den it = Some (VList ws).
Proof.
  intros Hd -> Hz. pose proof (zlen_nonneg ws) as H0. unfold finish. destruct (Z.eqb_spec (zlen ws) 0) as [E0|E0].
  - assert (zl = 0 \/ zl = 1) as [->| ->] by lia.
    + assert (Hr : den (Regular (zlen ws) 0 picked) = Some []) by (rewrite E0; cbn [den]; rewrite Hd; reflexivity). rewrite (mkRegular_den _ _ _ _ Hr). cbn [bind]. rewrite (den_length _ _ Hr). change (zlen (@nil value) =? 0) with true. cbv iota.
      cbn [getitem_nothing]. destruct (range_den picked ws 0 0 Hd) as (c' & E & D); [lia|lia|]. rewrite E. cbn [bind]. eexists. split; [reflexivity|]. cbn [item_den]. rewrite D, slice_nil. apply zlen_0 in E0. subst ws. reflexivity.
    + assert (Hr : den (Regular (zlen ws) 1 picked) = Some [VList ws]) by (rewrite <- (den_length _ _ Hd); apply (one_row is64 _ _ Hd)). rewrite (mkRegular_den _ _ _ _ Hr). cbn [bind]. rewrite (den_length _ _ Hr). change (zlen [VList ws] =? 0) with false. cbv iota. destruct (at_den _ _ 0 _ Hr eq_refl) as (it & -> & Hit). eauto.
  - assert (Hr : den (Regular (zlen ws) zl picked) = Some [VList ws]).
    { apply (regular_den (zlen ws) zl picked [ws]); [lia|lia|intros l [<-|[]]; reflexivity|cbn [concat]; rewrite app_nil_r; exact Hd]. }
    rewrite (mkRegular_den _ _ _ _ Hr). cbn [bind]. rewrite (den_length _ _ Hr). change (zlen [VList ws] =? 0) with false. cbv iota. destruct (at_den _ _ 0 _ Hr eq_refl) as (it & -> & Hit). eauto.
Qed.
Lemma mkRegular_any size zl c ws : den c = Some ws -> 0 <= size -> 0 <= zl -> mkRegular size zl c = Ok (Regular size zl c).
Proof.
  intros Hd H Hz. unfold mkRegular. destruct (Z.ltb_spec size 0); [lia|]. cbn [length_]. rewrite (den_length _ _ Hd). pose proof (zlen_nonneg ws).
  match goal with |- (if ?x <? 0 then _ else _) = _ => assert (0 <= x); [|destruct (Z.ltb_spec x 0); [lia|reflexivity]] end.
  destruct (Z.eqb_spec size 0); cbn [negb]; [lia|]. apply Z.quot_pos; lia.
Qed.

Lemma regular_array_eq fuel size zl c shape index : getitem_next is64 (S fuel) (Regular size zl c) [SArray shape index] None =
  let len := length_ (Regular size zl c) in
  let* r := awkward_RegularArray_getitem_next_array_regularize (alloc (zlen index)) index (zlen index) size in
  let* out := (let* ca := awkward_RegularArray_getitem_next_array (alloc (len * zlen index)) (alloc (len * zlen index)) r len (zlen r) size in
     let '(nextcarry, nextadvanced) := ca in
     let* nextcontent := carry c nextcarry true in
     getitem_next is64 fuel nextcontent [] (Some nextadvanced)) in
  getitem_next_array_wrap out shape.
Proof. reflexivity. Qed.
(** integers *)
Lemma picked_spec c vs index fuel : den c = Some vs -> (2 <= fuel)%nat ->
  match omap (elem vs) index with
  | Some ws => exists p, slice_next is64 fuel c (AArray index true) = Ok (Regular (zlen index) 0 p) /\ den p = Some ws
  | None => exists m, slice_next is64 fuel c (AArray index true) = Err m
  end.
Proof.
  intros Hd Hf. cbn [slice_next]. destruct (one_row is64 c vs Hd) as [Hd1 HL1]. rewrite (mkRegular_den _ _ _ _ Hd1). cbn [bind]. destruct fuel as [|[|fuel]]; try lia. rewrite regular_array_eq. cbv zeta. rewrite HL1, (den_length _ _ Hd).
  pose proof (regularize_spec index (zlen vs) (alloc (zlen index)) (zlen_alloc _ (zlen_nonneg index))) as HR. pose proof (zlen_nonneg index) as Hi0.
  assert (GP : match omap (fun x => wrap x (zlen vs)) index with Some r => exists ws, omap (nthZ vs) r = Some ws /\ omap (elem vs) index = Some ws | None => omap (elem vs) index = None end).
  { apply (omap_pos (fun x => wrap x (zlen vs)) (nthZ vs) (elem vs)). intros x _. unfold elem. destruct (wrap x (zlen vs)) as [k|] eqn:Ew; [|reflexivity]. apply wrap_range in Ew. destruct (nthZ_lt vs k Ew) as (y & Hy). eauto. }
  destruct (omap (fun x => wrap x (zlen vs)) index) as [r|] eqn:Er.
  - rewrite HR. cbn [bind]. destruct GP as (ws & Hws & ->).
    destruct (regular_array_spec index r (zlen vs) 1 (alloc (1 * zlen index)) (alloc (1 * zlen index)) ltac:(lia) Er) as (pss & E1 & ->); [rewrite zlen_alloc; lia|rewrite zlen_alloc; lia|]. cbn [bind].
    assert (Ep : concat pss = r). { change (regs (zlen vs) 1) with [(0 * zlen vs, (0 + 1) * zlen vs)] in E1. cbn [omap] in E1. rewrite (regs_arr_pos index r (zlen vs) 1 Er (0 * zlen vs, (0 + 1) * zlen vs)) in E1 by (left; reflexivity). injection E1 as <-. cbn [concat fst]. rewrite app_nil_r. rewrite (map_ext _ (fun x => x)) by (intros; lia). apply map_id. }
    rewrite Ep. destruct (carry_den _ _ _ _ true Hd Hws) as (p & -> & Hp). cbn [bind getitem_next]. cbn [getitem_next_array_wrap rev app]. rewrite (mkRegular_any _ _ _ _ Hp) by lia. cbn [bind]. eauto.
  - destruct HR as (m & ->). cbn [bind]. rewrite GP. eauto.
Qed.
Lemma slice_next_array fuel c index b : slice_next is64 fuel c (AArray index b) = slice_next is64 fuel c (AArray index true).
Proof. reflexivity. Qed.

Definition answers (r : res item) (o : option value) : Prop := match r with Ok it => exists v, item_den it = Some v /\ o = Some v | Err _ => o = None | UB => False end.
Lemma answers_bind r o : forall k : content -> res item, (match r with Ok c => answers (k c) o | Err _ => o = None | UB => False end) -> answers (let* c := r in k c) o.
Proof. destruct r; cbn; auto. Qed.

Lemma flat_answers c vs a jv fuel : den c = Some vs -> means 0 a jv -> (2 <= fuel)%nat -> answers (let* out := slice_next is64 fuel c a in finish out) (choose 0 (VList jv) (VList vs)).
Proof.
  intros Hd M Hf. inversion M as [index b|os m b|]; subst; clear M.
  - pose proof (picked_spec c vs index fuel Hd Hf) as G. rewrite slice_next_array. cbn [choose thru]. rewrite omap_map. change (omap (fun x => elem vs x) index) with (omap (elem vs) index). destruct (omap (elem vs) index) as [ws|] eqn:Ew; cbn [option_map].
    + destruct G as (p & E & Hp). pose proof (omap_zlen _ _ _ Ew) as Hz. destruct (finish_row ws p 0 (zlen index) Hp ltac:(lia) ltac:(lia)) as (it & Hit & Hv). rewrite (mkRegular_any _ _ _ _ Hp) in Hit by (try apply zlen_nonneg; lia). rewrite E. cbn [bind] in Hit |- *. rewrite Hit. cbn [answers]. eauto.
    + destruct G as (e & ->). reflexivity.
  - rewrite choose_fill. pose proof (picked_spec c vs (keep os) fuel Hd Hf) as G. cbn [slice_next]. destruct (one_row is64 c vs Hd) as [Hd1 HL1]. rewrite (mkRegular_den _ _ _ _ Hd1). cbn [bind].
    assert (Es : getitem_next is64 fuel (Regular (length_ c) 1 c) [SArray [zlen (keep os)] (keep os)] None = slice_next is64 fuel c (AArray (keep os) true)) by (cbn [slice_next]; rewrite (mkRegular_den _ _ _ _ Hd1); reflexivity).
    rewrite Es. destruct (omap (elem vs) (keep os)) as [ws|] eqn:Ew; cbn [option_map].
    + destruct G as (p & -> & Hp). cbn [bind]. rewrite missing_repeat_spec by reflexivity. cbn [bind]. pose proof (omap_zlen _ _ _ Ew) as Hz.
      assert (Hio : den (IndexedOption (oranks 0 os) p) = Some (ofill os ws)) by (cbn [den]; rewrite Hp; exact (ofill_optget os [] ws Hz)). destruct (simplify_io _ _ _ Hio) as (out & -> & Ho). cbn [bind].
      destruct (finish_row (ofill os ws) out 1 (zlen (oranks 0 os)) Ho) as (it & Hit & Hv); [rewrite zlen_oranks, zlen_ofill by exact Hz; reflexivity|lia|]. rewrite Hit. cbn [answers]. eauto.
    + destruct G as (e & ->). reflexivity.
Qed.

Lemma jagged_answers o d c vs a jv fuel : den c = Some vs -> means (S d) a jv -> (o = false -> plain a = true) -> slice_fits o d (form_of c) -> (2 * bound c <= fuel)%nat ->
  answers (let* out := slice_next is64 fuel c a in finish out) (choose (S d) (VList jv) (VList vs)).
Proof.
  intros Hd M Hpl Hfit Hf. inversion M as [| |d' sc pss M' E1 E2 E3]; subst; clear M. cbn [plain] in Hpl.
  set (offsets := offsets_of (map zlen pss)). assert (Zo : zlen offsets = zlen pss + 1) by (unfold offsets; rewrite zlen_offsets_of, zlen_map; reflexivity). pose proof (zlen_nonneg pss) as Hp0. assert (Hzo : 1 <= zlen offsets) by lia.
  destruct (segs_cut pss) as [C1 C2]. fold offsets in C1, C2. cbn [slice_next]. destruct (one_row is64 c vs Hd) as [Hd1 HL1]. rewrite (mkRegular_den _ _ _ _ Hd1). cbn [bind]. rewrite (den_length _ _ Hd).
  assert (Es : choose (S d) (VList (map VList pss)) (VList vs) = if zlen pss =? zlen vs then option_map VList (prows (choose d) (map VList pss) vs) else None).
  { cbn [choose thru]. rewrite zlen_map. destruct (zlen pss =? zlen vs); [|reflexivity]. f_equal. unfold prows. apply omap_ext. intros [x y] Hxy. cbn [fst snd]. apply in_combine_l in Hxy. apply in_map_iff in Hxy. destruct Hxy as (x' & <- & _). reflexivity. }
  rewrite Es. clear Es. replace (zlen offsets - 1) with (zlen pss) by lia. destruct (Z.eqb_spec (zlen pss) (zlen vs)) as [Hz|Hz]; cbn [negb]; [|reflexivity].
  rewrite (expand_one offsets) by lia. cbn [bind].
  pose proof (slice_correct is64 fuel o d c sc (slice 0 (zlen offsets - 1) offsets) (slice 1 (zlen offsets) offsets) (concat pss) vs) as HI. rewrite (combine_starts_stops _ Hzo), C1 in HI.
  concl HI HI'.
  { apply HI; auto.
    - pose proof (cost_le c). lia.
    - rewrite zlen_slice by lia. lia.
    - rewrite !zlen_slice by lia. lia.
    - intros _. exists (map zlen pss). split; [|split; [apply sumZ_zlen_concat|apply nonneg_zlens]]. rewrite (combine_starts_stops _ Hzo). reflexivity. }
  clear HI. destruct (slice_jagged is64 fuel c _ _ sc) as [down|e|]; cbn [bind outcome answers] in *.
  - destruct HI' as (ws & Hws & Hw). rewrite Hws. cbn [option_map]. apply prows_zlen in Hws; [|rewrite zlen_map; lia].
    destruct (finish_row ws down 1 (zlen pss) Hw ltac:(lia) ltac:(lia)) as (it & Hit & Hv). rewrite Hit. cbn [answers]. eauto.
  - destruct HI' as [->|?]; [reflexivity|discriminate].
  - exact HI'.
Qed.

(** lists missing in the slice *)
Lemma olists (os : list (option value)) : forall pss, Forall nonbool (keep os) -> map place (keep os) = map VList pss ->
  exists ps : list (option (list value)), keep ps = pss /\ map place (map (ogetv (fun v => v)) os) = map (ogetv VList) ps /\ (forall k, oranks k os = oranks k ps) /\ zlen ps = zlen os /\ as_positions (map (ogetv (fun v => v)) os) = map (ogetv VList) ps.
Proof.
  assert (G : forall pss, map place (keep os) = map VList pss -> exists ps : list (option (list value)), keep ps = pss /\ map place (map (ogetv (fun v => v)) os) = map (ogetv VList) ps /\ (forall k, oranks k os = oranks k ps) /\ zlen ps = zlen os).
  { induction os as [|[v|] os IH]; intros pss E; cbn [keep map] in E.
    - destruct pss; [|discriminate]. exists []. repeat split.
    - destruct pss as [|p pss]; [discriminate|]. cbn [map] in E. injection E as E1 E2. destruct (IH _ E2) as (ps & A & B & C & D). exists (Some p :: ps). cbn [keep map ogetv oranks]. rewrite !zlen_cons, A, B, E1, D. repeat split. intros k. rewrite C. reflexivity.
    - destruct (IH _ E) as (ps & A & B & C & D). exists (None :: ps). cbn [keep map ogetv oranks]. rewrite !zlen_cons, A, B, D. repeat split. intros k. rewrite C. reflexivity. }
  intros pss N E. destruct (G pss E) as (ps & A & B & C & D). exists ps. repeat (split; [assumption|]). rewrite as_positions_nonbool; [exact B|]. clear -N. induction os as [|[v|] os IH]; cbn [map keep ogetv] in *; [constructor| |].
  - inversion N; subst. constructor; auto.
  - constructor; [exact I|auto].
Qed.
Lemma omaskidx_nth {A} (ps : list (option A)) : forall k i p, nthZ ps i = Some p -> nthZ (omaskidx k ps) i = Some (match p with Some _ => k + i | None => -1 end).
Proof.
  induction ps as [|q ps IH]; intros k i p H; [pose proof (nthZ_Some _ _ _ H) as R; change (zlen (@nil (option A))) with 0 in R; lia|]. rewrite nthZ_cons in H. destruct q; cbn [omaskidx]; rewrite nthZ_cons; destruct (Z.eqb_spec i 0) as [->|].
  - injection H as <-. rewrite Z.add_0_r. reflexivity.
  - pose proof (IH (k + 1) (i - 1) p H) as E. rewrite E. destruct p; [f_equal; lia|reflexivity].
  - injection H as <-. reflexivity.
  - pose proof (IH (k + 1) (i - 1) p H) as E. rewrite E. destruct p; [f_equal; lia|reflexivity].
Qed.
Lemma missing_lists_answers o c vs os m offs sc fuel : den c = Some vs -> says 1 (AJagged offs sc) (keep os) -> (o = false -> plain sc = true) -> slice_fits o 0 (form_of c) -> (2 * bound c <= fuel)%nat -> zlen vs <= zlen os ->
  answers (let* out := slice_next is64 fuel c (AMissing (oranks 0 os) m (AJagged offs sc)) in finish out) (choose 1 (VList (as_positions (map (ogetv (fun v => v)) os))) (VList vs)).
Proof.
  intros Hd Sy Hpl Hfit Hf Hlen. assert (NM : Forall nonbool (keep os) /\ means 1 (AJagged offs sc) (map place (keep os))) by (destruct Sy as [(D & _)|[(D & _)|(_ & N & M)]]; [discriminate D|discriminate D|auto]). destruct NM as [N M]. clear Sy.
  inversion M as [| |d' sc' pss M' E1 E2 E3]; subst; clear M. symmetry in E3. destruct (olists os pss N E3) as (ps & K & _ & R & Zp & ->). rewrite R. subst pss. clear R N E3.
  cbn [slice_next]. destruct (one_row is64 c vs Hd) as [Hd1 HL1]. rewrite (mkRegular_den _ _ _ _ Hd1). cbn [bind getitem_at_nowrap]. pose proof (zlen_nonneg vs) as Hv0. rewrite (den_length _ _ Hd).
  destruct (range_den c vs (0 * zlen vs) ((0 + 1) * zlen vs) Hd) as (x & Ex & Hx); [lia|lia|]. rewrite Ex. cbn [bind]. rewrite slice_full' in Hx by lia. destruct (range_same _ _ _ _ Ex) as [Fx Bx]. rewrite (den_length _ _ Hx), zlen_oranks.
  assert (Es : choose 1 (VList (map (ogetv VList) ps)) (VList vs) = if zlen ps =? zlen vs then option_map VList (omap (fun q => match fst q with None => Some VNone | Some l => choose 0 (VList l) (snd q) end) (combine ps vs)) else None).
  { cbn [choose thru]. rewrite zlen_map. destruct (zlen ps =? zlen vs); [|reflexivity]. f_equal. rewrite combine_map_l, omap_map. apply omap_ext. intros [p v] _. cbn [fst snd]. destruct p; reflexivity. }
  rewrite Es. clear Es. destruct (Z.ltb_spec (zlen vs) (zlen ps)); [destruct (Z.eqb_spec (zlen ps) (zlen vs)); [lia|reflexivity]|]. assert (Hz : zlen ps = zlen vs) by lia. rewrite Hz, Z.eqb_refl.
  destruct (getmask_spec ps (zlen vs) ltac:(lia)) as (ss & se & -> & Zs & Ze & Hc). cbn [bind].
  destruct (segs_cut (map orempty ps)) as [C1 C2]. rewrite concat_orempty in C1, C2.
  pose proof (slice_correct is64 fuel o O x sc ss se (concat (keep ps)) vs) as HI. rewrite Hc, C1 in HI.
  concl HI HI'.
  { apply HI; auto.
    - pose proof (cost_le x). lia.
    - rewrite Fx. exact Hfit.
    - lia.
    - intros _. exists (map zlen (map orempty ps)). split; [exact Hc|]. split; [rewrite sumZ_zlen_concat, concat_orempty; reflexivity|apply nonneg_zlens]. }
  clear HI. destruct (slice_jagged is64 fuel x ss se sc) as [tmp|e|]; cbn [bind outcome answers] in *.
  - destruct HI' as (ws & Hws & Hw). pose proof Hws as Hzw. apply prows_zlen in Hzw; [|rewrite !zlen_map; exact Hz].
    assert (Hrow : exists us, omap (fun q => match fst q with None => Some VNone | Some l => choose 0 (VList l) (snd q) end) (combine ps vs) = Some us /\ den (IndexedOption (omaskidx 0 ps) tmp) = Some us).
    { cbn [den]. rewrite Hw. set (us := map (fun q => match fst q with None => VNone | Some _ => snd q end) (combine ps ws)). exists us. assert (Zu : zlen us = zlen ps) by (unfold us; rewrite zlen_map, zlen_combine_le; lia).
      assert (Hu : forall i p v, nthZ ps i = Some p -> nthZ vs i = Some v -> exists w, nthZ ws i = Some w /\ choose 0 (VList (orempty p)) v = Some w /\ nthZ us i = Some (match p with None => VNone | Some _ => w end)).
      { intros i p v Hp Hv. unfold prows in Hws. assert (Hq : nthZ (combine (map VList (map orempty ps)) vs) i = Some (VList (orempty p), v)) by (rewrite nthZ_combine, !nthZ_map, Hp, Hv; reflexivity). destruct (omap_nth _ _ _ _ _ Hws Hq) as (Ew & w & Hy). cbn [fst snd] in Hy, Ew. rewrite Hy in Ew. symmetry in Ew. exists w. split; [exact Ew|]. split; [exact Hy|].
        unfold us. rewrite nthZ_map, nthZ_combine, Hp, Ew. reflexivity. }
      split; apply omap_intro.
      - rewrite zlen_combine_le by lia. exact Zu.
      - intros i [p v] Hq. rewrite nthZ_combine in Hq. destruct (nthZ ps i) as [p'|] eqn:Ep; [|discriminate]. destruct (nthZ vs i) as [v'|] eqn:Ev; [|discriminate]. injection Hq as -> ->. destruct (Hu _ _ _ Ep Ev) as (w & _ & Hy & ->). cbn [fst snd]. destruct p; [exact Hy|reflexivity].
      - rewrite zlen_omaskidx. exact Zu.
      - intros i k Hk. assert (Hi : 0 <= i < zlen ps) by (pose proof (nthZ_Some _ _ _ Hk) as Rk; rewrite zlen_omaskidx in Rk; exact Rk). destruct (nthZ_lt ps i Hi) as (p & Hp). destruct (nthZ_lt vs i ltac:(lia)) as (v & Hv). destruct (Hu _ _ _ Hp Hv) as (w & Hwi & _ & ->). rewrite (omaskidx_nth ps 0 i p Hp) in Hk. injection Hk as <-.
        destruct p; [|reflexivity]. destruct (Z.ltb_spec (0 + i) 0); [lia|]. rewrite Z.add_0_l. exact Hwi. }
    destruct Hrow as (us & -> & Hio). cbn [option_map]. destruct (simplify_io _ _ _ Hio) as (out & -> & Ho). cbn [bind].
    destruct (finish_row us out 1 (zlen vs) Ho) as (it & Hit & Hv); [|lia|].
    + rewrite <- (den_length _ _ Hio). cbn [length_]. rewrite zlen_omaskidx. lia.
    + rewrite Hit. cbn [answers]. eauto.
  - destruct HI' as [HI'|?]; [|discriminate]. unfold prows in HI'. apply omap_None in HI'. destruct HI' as (i & [j v] & Hi & Hn). cbn [fst snd] in Hn. rewrite nthZ_combine, !nthZ_map in Hi. destruct (nthZ ps i) as [p|] eqn:Ep; [|discriminate]. destruct (nthZ vs i) as [v'|] eqn:Ev; [|discriminate]. cbn [option_map] in Hi. injection Hi as <- <-.
    rewrite (omap_None_In _ _ (p, v')); [reflexivity|apply (nthZ_In _ i); rewrite nthZ_combine, Ep, Ev; reflexivity|]. cbn [fst snd]. destruct p as [l|]; [exact Hn|]. exfalso.
    pose proof (choose_empty c o vs Hd Hfit) as HE. rewrite Forall_forall in HE. destruct (HE v' (nthZ_In _ _ _ Ev)) as [w Hw]. cbn [orempty] in Hn. congruence.
  - exact HI'.
Qed.

(** ** the whole call *)
Lemma getitem_flat c vs mc ms o fuel : den c = Some vs -> den mc = Some ms -> tidy mc -> jagged_slice o (form_of mc) -> levels (form_of mc) = O -> (2 <= fuel)%nat -> (bound mc <= fuel)%nat ->
  answers (getitem_array is64 fuel c mc) (sliced (form_of mc) ms vs).
Proof.
  intros Hd Hm HT HJ HL Hf Hb. destruct (asslice_says is64 fuel mc o ms Hb Hm HT HJ) as (a & Ea & Sa). unfold getitem_array, sliced. rewrite Ea. cbn [bind]. rewrite HL in *. apply says_means in Sa. exact (flat_answers c vs a _ fuel Hd Sa Hf).
Qed.
Lemma getitem_lists c vs mc ms o g fuel : den c = Some vs -> den mc = Some ms -> tidy mc -> form_of mc = FList g -> jagged_slice o g -> slice_fits o (levels g) (form_of c) -> (2 * bound c <= fuel)%nat -> (bound mc <= fuel)%nat ->
  answers (getitem_array is64 fuel c mc) (sliced (form_of mc) ms vs).
Proof.
  intros Hd Hm HT HF HJ Hfit Hf Hb. assert (HJ' : jagged_slice o (form_of mc)) by (rewrite HF; constructor; exact HJ). destruct (asslice_says is64 fuel mc o ms Hb Hm HT HJ') as (a & Ea & Sa). unfold getitem_array, sliced. rewrite Ea. cbn [bind]. rewrite HF in *. cbn [levels] in *. apply says_means in Sa.
  refine (jagged_answers o (levels g) c vs a _ fuel Hd Sa _ Hfit Hf). intros ->. eapply asslice_plain; [exact HT|rewrite HF; exact HJ'|exact Ea].
Qed.
Lemma getitem_missing_lists c vs mc ms o g fuel : den c = Some vs -> den mc = Some ms -> tidy mc -> form_of mc = FOption (FList g) -> jagged_slice o g -> levels g = O -> slice_fits o 0 (form_of c) -> (2 * bound c <= fuel)%nat -> (bound mc <= fuel)%nat ->
  zlen vs <= zlen ms -> answers (getitem_array is64 fuel c mc) (sliced (form_of mc) ms vs).
Proof.
  intros Hd Hm HT HF HJ HL Hfit Hf Hb Hz. destruct (asslice_top is64 fuel mc g o ms Hb Hm HT HF) as (a & Ea & Sa); [constructor; exact HJ|]. assert (Hpl : o = false -> plaini a = true) by (intros ->; eapply asslice_plaini; eassumption).
  unfold getitem_array, sliced. rewrite Ea. cbn [bind]. rewrite HF. cbn [levels]. rewrite HL in *. destruct Sa as [Sa|(os & offs & sc & -> & -> & Sa)].
  - apply says_means in Sa. refine (jagged_answers o 0 c vs a _ fuel Hd Sa _ Hfit Hf). intros Ho. specialize (Hpl Ho). inversion Sa; subst. exact Hpl.
  - rewrite zlen_map in Hz. refine (missing_lists_answers o c vs os [] offs sc fuel Hd Sa _ Hfit Hf Hz). exact Hpl.
Qed.
End Main.
