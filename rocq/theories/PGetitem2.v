(** Slices with several items, node by node. *)
From Verif Require Import Base BaseLemmas LoopLemmas OmapLemmas Content KCore Core KRange KConvert Convert KOption Option KAxis Axis KCombinations Combinations KGetitem
  SpecArray SpecForm SpecSlice SpecOption PCore PRange PCarry PList POption PForm PAxis PNat PNum PCombinations Getitem SpecGetitem PGetitemK PGetitem1 PField PGetitem PReduceF PAt.

Lemma fits_array_inv n m adv shape index t f : fits n m adv (SArray shape index :: t) (FList f) -> shape = [n] /\ n = zlen index /\ 0 < n /\ fits n m true t f.
Proof. inversion 1; subst; repeat split; auto. Qed.
Lemma omap_None {A B} (f : A -> option B) l : omap f l = None -> exists i x, nthZ l i = Some x /\ f x = None.
Proof.
  induction l as [|x l IHl]; cbn [omap]; [discriminate|]. destruct (f x) as [y|] eqn:E; [|intros _; exists 0, x; split; [reflexivity|exact E]]. destruct (omap f l); [discriminate|]. intros _. destruct (IHl eq_refl) as (i & z & Hi & Hz).
  exists (i + 1), z. split; [|exact Hz]. rewrite nthZ_cons. apply nthZ_Some in Hi as Hr. destruct (Z.eqb_spec (i + 1) 0); [lia|]. now replace (i + 1 - 1) with i by lia.
Qed.
Lemma omap_None_In {A B} (f : A -> option B) l x : In x l -> f x = None -> omap f l = None.
Proof.
  induction l as [|y l IHl]; intros []; cbn [omap]; intros H1.
  - subst. now rewrite H1.
  - rewrite (IHl H H1). destruct (f y); reflexivity.
Qed.
Section Main.
Variable is64 : content -> bool.
Variables n m : Z.
Hypothesis Hm : 0 <= m.
Notation correct := (correct is64 n m).
Notation getitem_next := (getitem_next is64).

(** ** the branches of the code for lists *)
Definition g_list_at fuel advanced starts stops c' (at_ : Z) tail :=
    if zlen stops <? zlen starts then Err "len(stops) < len(starts)" else
    match advanced with
    | Some _ => Err "getitem_next(SliceAt): !advanced.is_empty_advanced()"
    | None =>
        let* nextcarry := awkward_ListArray_getitem_next_at (alloc (zlen starts)) starts stops (zlen starts) at_ in
        let* nextcontent := carry c' nextcarry true in
        getitem_next fuel nextcontent tail advanced
    end.
Definition g_list_range fuel advanced starts stops c' (start stop step : Z) tail :=
    if zlen stops <? zlen starts then Err "len(stops) < len(starts)" else
    let step := if step =? kSliceNone then 1 else step in
    let* carrylength := awkward_ListArray_getitem_next_range_carrylength starts stops (zlen starts) start stop step in
    let* oc := awkward_ListArray_getitem_next_range (alloc (zlen starts + 1)) (alloc carrylength) starts stops (zlen starts) start stop step in
    let '(nextoffsets, nextcarry) := oc in
    let* nextcontent := carry c' nextcarry true in
    match advanced with
    | Some a =>
        if zlen a =? 0 then let* out := getitem_next fuel nextcontent tail advanced in mkListOffset nextoffsets out
        else
          let* total := awkward_ListArray_getitem_next_range_counts nextoffsets (zlen starts) in
          let* nextadvanced := awkward_ListArray_getitem_next_range_spreadadvanced (alloc total) a nextoffsets (zlen starts) in
          let* out := getitem_next fuel nextcontent tail (Some nextadvanced) in
          mkListOffset nextoffsets out
    | None => let* out := getitem_next fuel nextcontent tail advanced in mkListOffset nextoffsets out
    end.
Definition g_list_array fuel advanced starts stops c' shape (flathead : list Z) tail :=
    if zlen stops <? zlen starts then Err "len(stops) < len(starts)" else
    let first :=
      let* ca := awkward_ListArray_getitem_next_array (alloc (zlen starts * zlen flathead)) (alloc (zlen starts * zlen flathead))
                   starts stops flathead (zlen starts) (zlen flathead) (length_ c') in
      let '(nextcarry, nextadvanced) := ca in
      let* nextcontent := carry c' nextcarry true in
      getitem_next fuel nextcontent tail (Some nextadvanced) in
    match advanced with
    | None => let* out := first in getitem_next_array_wrap out shape
    | Some a =>
        if zlen a =? 0 then first
        else
          let* ca := awkward_ListArray_getitem_next_array_advanced (alloc (zlen starts)) (alloc (zlen starts))
                       starts stops flathead a (zlen starts) (length_ c') in
          let '(nextcarry, nextadvanced) := ca in
          let* nextcontent := carry c' nextcarry true in
          getitem_next fuel nextcontent tail (Some nextadvanced)
    end.
Definition g_reg_range fuel (advanced : option (list Z)) len size c' (start stop step : Z) tail :=
                if step =? 0 then Err "getitem_next(SliceRange): range.step() == 0" else
                let '(regular_start, nextsize) := RegularArray_range_nextsize start stop step size in
                let* nextcarry := awkward_RegularArray_getitem_next_range (alloc (len * nextsize)) regular_start step len size nextsize in
                let* nextcontent := carry c' nextcarry true in
                match advanced with
                | Some a =>
                    if zlen a =? 0 then let* out := getitem_next fuel nextcontent tail advanced in mkRegular nextsize len out
                    else
                      let* nextadvanced := awkward_RegularArray_getitem_next_range_spreadadvanced (alloc (len * nextsize)) a len nextsize in
                      let* out := getitem_next fuel nextcontent tail (Some nextadvanced) in
                      mkRegular nextsize len out
                | None => let* out := getitem_next fuel nextcontent tail advanced in mkRegular nextsize len out
                end.
Definition g_reg_array fuel (advanced : option (list Z)) len size c' shape (flathead : list Z) tail :=
                let* regular_flathead := awkward_RegularArray_getitem_next_array_regularize (alloc (zlen flathead)) flathead (zlen flathead) size in
                let first :=
                  let* ca := awkward_RegularArray_getitem_next_array (alloc (len * zlen flathead)) (alloc (len * zlen flathead))
                               regular_flathead len (zlen regular_flathead) size in
                  let '(nextcarry, nextadvanced) := ca in
                  let* nextcontent := carry c' nextcarry true in
                  getitem_next fuel nextcontent tail (Some nextadvanced) in
                match advanced with
                | None => let* out := first in getitem_next_array_wrap out shape
                | Some a =>
                    if zlen a =? 0 then first
                    else if size =? 0 then
                      let* nextcontent := carry c' [] true in
                      getitem_next fuel nextcontent tail (Some [])
                    else
                      let* ca := awkward_RegularArray_getitem_next_array_advanced (alloc len) (alloc len) a regular_flathead len size in
                      let '(nextcarry, nextadvanced) := ca in
                      let* nextcontent := carry c' nextcarry true in
                      getitem_next fuel nextcontent tail (Some nextadvanced)
                end.

(** ** the state after an item *)
Lemma adv_at i t adv ks : adv_ok n (SAt i :: t) adv ks -> adv_ok n t adv ks.
Proof. unfold adv_ok. rewrite arrays_cons, Z.add_0_r. auto. Qed.
Lemma spread_None ks lens : Forall (eq None) ks -> Forall (eq (@None Z)) (spread ks lens).
Proof.
  intros H. apply Forall_concat. rewrite Forall_map. apply Forall_forall. intros [k x] Hin. cbn [fst snd]. rewrite Forall_forall in H. rewrite <- (H k (in_combine_l _ _ _ _ Hin)). apply Forall_forall. intros y Hy. apply repeat_spec in Hy. congruence.
Qed.
Lemma adv_range_none a b s t ks lens : arrays t <= 2 -> adv_ok n (SRange a b s :: t) None ks -> adv_ok n t None (spread ks lens).
Proof. unfold adv_ok. rewrite arrays_cons, Z.add_0_r. intros H2 [H _]. split; [|left; exact H2]. intros H1. apply spread_None. auto. Qed.
Lemma adv_first sh index t (l : list (Z * Z)) ks : zlen ks = zlen l -> 0 < n -> adv_ok n (SArray sh index :: t) None ks ->
  adv_ok n t (Some (concat (map (fun _ => zseq 0 n) l))) (map Some (concat (map (fun _ => zseq 0 n) l))).
Proof.
  unfold adv_ok. rewrite arrays_cons. intros Hk Hn [H H2]. split; [rewrite zlen_map; lia|]. intros H1. split; [reflexivity|]. split.
  - apply Forall_concat. rewrite Forall_map. apply Forall_forall. intros ab _. apply Forall_forall. intros x Hx. apply In_zseq in Hx. exact Hx.
  - intros H3. assert (zlen l <= 1) by lia. destruct l as [|ab [|ab' l]]; [reflexivity| |rewrite !zlen_cons in *; pose proof (zlen_nonneg l); lia].
    cbn [map concat]. rewrite app_nil_r. rewrite zlen_zseq by lia. now rewrite Z.sub_0_r.
Qed.
Lemma adv_next sh index t a ks k : zlen ks = k -> adv_ok n (SArray sh index :: t) (Some a) ks -> zlen a = k /\ ks = map Some a /\ Forall (fun k => 0 <= k < n) a /\ adv_ok n t (Some (zseq 0 k)) (map Some a).
Proof.
  unfold adv_ok. rewrite arrays_cons. intros Hk [Hz H]. pose proof (arrays_nonneg t). destruct H as (E & F & G); [lia|].
  assert (Ha : zlen a = k). { rewrite <- Hk, E. now rewrite zlen_map. } pose proof (zlen_nonneg a).
  split; [exact Ha|]. split; [exact E|]. split; [exact F|]. split; [rewrite zlen_map, zlen_zseq; lia|]. intros H1. assert (Ea : a = zseq 0 k) by (rewrite <- Ha; apply G; lia).
  rewrite <- Ea. split; [reflexivity|]. split; [exact F|]. intros _. rewrite Ha. exact Ea.
Qed.

Lemma zlen_combine_min {A B} (a : list A) (b : list B) : zlen a <= zlen b -> zlen (combine a b) = zlen a.
Proof. apply zlen_combine_le. Qed.
Lemma sumZ_zlen_concat {A} (l : list (list A)) : sumZ (map zlen l) = zlen (concat l).
Proof. apply sum_zlen_concat. Qed.
Lemma kout_of {A} reg (K : res A) o : (match o with Some x => K = Ok x | None => exists e, K = Err e end) -> kout reg K o.
Proof. destruct o as [x|]; [intros ->; reflexivity|]. intros (e & ->). left; reflexivity. Qed.

Section Node.
Variables (fuel : nat) (c' : content) (ws : list value) (t : list sliceitem).
Hypothesis IH : correct fuel.
Hypothesis Hf : (bound c' + length t <= fuel)%nat.
Hypothesis Hd : den c' = Some ws.
Hypothesis HE : exact c'.

Lemma list_at_case starts stops adv ks i (l := combine starts stops) : zlen starts <= zlen stops -> forallb (sub_ok (zlen ws)) l = true -> zlen ks = zlen l ->
  fits n m (is_adv adv) (SAt i :: t) (FList (form_of c')) -> adv_ok n (SAt i :: t) adv ks -> Forall (short m) (map VList (map (seg ws) l)) ->
  outcome (has_regular c') (g_list_at fuel adv starts stops c' i t) (rows (SAt i :: t) ks (map VList (map (seg ws) l))).
Proof.
  intros Hz Hs Hk Hfit Ha Hsh. unfold g_list_at. destruct (Z.ltb_spec (zlen stops) (zlen starts)); [lia|]. inversion Hfit; subst. destruct adv as [a|]; [discriminate|].
  apply step_at; auto.
  - apply kout_of. apply list_at_spec; auto. rewrite zlen_alloc; [reflexivity|apply zlen_nonneg].
  - intros nc next xs Hc Hx Hkx Hin. eapply (next_ok is64 n m fuel c' ws nc next xs); eauto.
Qed.
Lemma reg_at_case reg size len adv ks i (l := regs size len) : (has_regular c' = true -> reg = true) -> (reg = true \/ 0 < len) -> 0 <= len -> forallb (sub_ok (zlen ws)) l = true -> zlen ks = zlen l ->
  fits n m (is_adv adv) (SAt i :: t) (FList (form_of c')) -> adv_ok n (SAt i :: t) adv ks -> Forall (short m) (map VList (map (seg ws) l)) ->
  outcome reg (match adv with Some _ => Err "getitem_next(SliceAt): !advanced.is_empty_advanced()" | None =>
     let* nextcarry := awkward_RegularArray_getitem_next_at (alloc len) i len size in let* nextcontent := carry c' nextcarry true in getitem_next fuel nextcontent t adv end)
    (rows (SAt i :: t) ks (map VList (map (seg ws) l))).
Proof.
  intros Hreg Hpos Hl Hs Hk Hfit Ha Hsh. inversion Hfit; subst. destruct adv as [a|]; [discriminate|].
  apply step_at; auto.
  - pose proof (regular_at_spec i len size (alloc len) Hl (zlen_alloc _ Hl)) as G. destruct (wrap i size) eqn:Ew; [destruct G as (nc & -> & E); exact E|]. destruct G as (e & ->). destruct Hpos as [Hpos|Hpos]; [right; exact Hpos|left].
    unfold l, regs. rewrite omap_map, zseq_cons by exact Hpos. cbn [omap]. unfold at_pos, diff. cbn [fst snd]. replace ((0 + 1) * size - 0 * size) with size by lia. now rewrite Ew.
  - intros nc next xs Hc Hx Hkx Hin. apply (outcome_mono (has_regular c')); [auto|]. eapply (next_ok is64 n m fuel c' ws nc next xs); eauto.
Qed.
(** a range, given its positions *)
Lemma range_common reg (start stop step : Z) l adv' ks nc mk :
  step <> 0 -> forallb (sub_ok (zlen ws)) l = true -> zlen ks = zlen l -> Forall (short m) (map VList (map (seg ws) l)) ->
  (has_regular c' = true -> reg = true) ->
  fits n m (is_adv adv') t (form_of c') ->
  adv_ok n t adv' (spread ks (map (fun ab => zlen (sel start stop step (diff ab))) l)) ->
  nc = concat (map (rpos start stop step) l) ->
  (forall out yss, den out = Some (concat yss) -> map zlen yss = map (fun ab => zlen (sel start stop step (diff ab))) l -> exists c, mk out = Ok c /\ den c = Some (map VList yss)) ->
  exists next, carry c' nc true = Ok next /\ outcome reg (let* out := getitem_next fuel next t adv' in mk out) (rows (SRange start stop step :: t) ks (map VList (map (seg ws) l))).
Proof.
  intros Hst Hs Hk Hsh Hreg Hfit Ha -> Hmk.
  assert (Hx : omap (nthZ ws) (concat (map (rpos start stop step) l)) = Some (concat (map (cut start stop step) (map (seg ws) l)))).
  { rewrite omap_concat, omap_map. rewrite (omap_ext _ (fun ab => Some (cut start stop step (seg ws ab)))).
    - rewrite omap_Some_map. cbn [option_map]. now rewrite map_map.
    - intros ab Hab. rewrite forallb_forall in Hs. apply rpos_spec; auto. }
  destruct (carry_den _ _ _ _ true Hd Hx) as (next & En & _). exists next. split; [exact En|].
  eapply step_range; eauto. apply (outcome_mono (has_regular c')); [exact Hreg|].
  eapply (next_ok is64 n m fuel c' ws _ next _ t adv' _ (map (seg ws) l)); eauto.
  - rewrite zlen_spread.
    + rewrite zlen_cuts. f_equal. rewrite !map_map. apply map_ext_in. intros ab Hab. rewrite zlen_cut, zlen_seg; [reflexivity|]. rewrite forallb_forall in Hs. auto.
    + rewrite zlen_map. lia.
    + rewrite Forall_map. apply Forall_forall. intros; apply zlen_nonneg.
  - intros x Hxx. apply in_concat in Hxx. destruct Hxx as (s & H1 & H2). rewrite map_map in H1. apply in_map_iff in H1. destruct H1 as (ab & <- & H1). exists (seg ws ab). split; [now apply in_map|]. eapply cut_In; eauto.
Qed.
Lemma list_range_case starts stops adv ks start stop step (l := combine starts stops) : zlen starts <= zlen stops -> forallb (sub_ok (zlen ws)) l = true -> zlen ks = zlen l ->
  fits n m (is_adv adv) (SRange start stop step :: t) (FList (form_of c')) -> adv_ok n (SRange start stop step :: t) adv ks -> Forall (short m) (map VList (map (seg ws) l)) ->
  outcome (has_regular c') (g_list_range fuel adv starts stops c' start stop step t) (rows (SRange start stop step :: t) ks (map VList (map (seg ws) l))).
Proof.
  intros Hz Hs Hk Hfit Ha Hsh. unfold g_list_range. destruct (Z.ltb_spec (zlen stops) (zlen starts)); [lia|]. inversion Hfit as [| |adv0 a0 b0 s0 t0 f0 Hs0 Hlo Hhi Harr Hft| | | | |]; subst.
  assert ((if step =? kSliceNone then 1 else step) = step) as ->. { destruct (Z.eqb_spec step kSliceNone); [unfold kSliceNone, int64_max in *; lia|reflexivity]. }
  assert (HR : range_ok step m) by (repeat split; auto).
  assert (HB : forall a b, In (a, b) (combine starts stops) -> 0 <= b - a <= m).
  { intros a b Hab. rewrite forallb_forall in Hs. pose proof (Hs _ Hab) as H1. split; [exact (sub_ok_diff _ _ H1)|]. rewrite Forall_forall in Hsh. specialize (Hsh (VList (seg ws (a, b))) (in_map _ _ _ (in_map _ _ _ Hab))).
    apply short_list in Hsh. rewrite (zlen_seg _ _ H1) in Hsh. apply Hsh. }
  rewrite (carrylength_spec start stop step m) by auto. cbn [bind]. cbv zeta.
  rewrite (list_range_spec start stop step m); auto.
  2: { rewrite zlen_alloc; [reflexivity|]. pose proof (zlen_nonneg starts); lia. }
  2: { rewrite zlen_alloc; [reflexivity|]. apply zlen_nonneg. }
  cbn [bind]. match goal with |- context [carry c' ?nc true] => change nc with (concat (map (rpos start stop step) l)) end.
  assert (Hmk : forall out yss, den out = Some (concat yss) -> map zlen yss = map (fun ab => zlen (sel start stop step (diff ab))) l ->
     exists c, mkListOffset (offsets_of (map (fun ab => zlen (py_slice (opt64 start) (opt64 stop) step (snd ab - fst ab))) (combine starts stops))) out = Ok c /\ den c = Some (map VList yss)).
  { intros out yss H1 H2. change (map (fun ab => zlen (py_slice (opt64 start) (opt64 stop) step (snd ab - fst ab))) (combine starts stops)) with (map (fun ab => zlen (sel start stop step (diff ab))) l). rewrite <- H2.
    pose proof (listoffset_den0 _ _ H1) as H3. rewrite (mkListOffset_den _ _ _ H3). eauto. }
  assert (Hlz : zlen l = zlen starts) by (apply zlen_combine_min; exact Hz).
  destruct adv as [a|].
  - destruct Ha as [Ha1 Ha2]. pose proof (zlen_nonneg ks). pose proof (arrays_nonneg t). cbn [is_adv] in Harr. destruct (Z.eqb_spec (zlen a) 0) as [E0|E0].
    + edestruct (range_common (has_regular c') start stop step l (Some a) ks) as (next & En & Ho); [exact Hs0|exact Hs|exact Hk|exact Hsh|auto|exact Hft| |reflexivity|exact Hmk|rewrite En; exact Ho].
      split; [|intros; lia]. assert (El : l = []) by (apply zlen_0; lia). rewrite El. cbn [map]. unfold spread. rewrite combine_nil. cbn [map concat]. change (zlen (@nil (option Z))) with 0. lia.
    + set (lens := map (fun ab => zlen (sel start stop step (diff ab))) l).
      assert (Hln : Forall (fun k => 0 <= k) lens) by (unfold lens; rewrite Forall_map; apply Forall_forall; intros; apply zlen_nonneg).
      assert (Hll : zlen lens = zlen l) by (unfold lens; apply zlen_map).
      edestruct (range_common (has_regular c') start stop step l (Some (spread a lens)) ks) as (next & En & Ho); [exact Hs0|exact Hs|exact Hk|exact Hsh|auto|exact Hft| |reflexivity|exact Hmk|].
      { split; [|intros; lia]. fold lens. rewrite !zlen_spread; auto; lia. }
      rewrite En. cbn [bind].
      match goal with |- outcome _ (let* total := ?X in _) _ => assert (X = Ok (sumZ lens)) as -> end.
      { rewrite <- Hlz, <- Hll. apply counts_spec. }
      cbn [bind]. match goal with |- outcome _ (let* nextadvanced := ?X in _) _ => assert (X = Ok (spread a lens)) as -> end; [|exact Ho].
      rewrite <- Hlz, <- Hll. apply list_spread_spec; auto; [lia|]. rewrite zlen_alloc; [reflexivity|]. unfold lens. rewrite <- (map_map (fun ab => sel start stop step (diff ab)) zlen), sumZ_zlen_concat. apply zlen_nonneg.
  - edestruct (range_common (has_regular c') start stop step l None ks) as (next & En & Ho); [exact Hs0|exact Hs|exact Hk|exact Hsh|auto|exact Hft| |reflexivity|exact Hmk|rewrite En; exact Ho].
    eapply adv_range_none; eauto.
Qed.
Lemma regs_diff size len ab : In ab (regs size len) -> diff ab = size.
Proof. unfold regs. intros H. apply in_map_iff in H. destruct H as (i & <- & _). unfold diff. cbn [fst snd]. lia. Qed.
Lemma reg_range_case reg size len adv ks start stop step (l := regs size len) : (has_regular c' = true -> reg = true) -> 0 <= len -> 0 <= size -> forallb (sub_ok (zlen ws)) l = true -> zlen ks = zlen l ->
  fits n m (is_adv adv) (SRange start stop step :: t) (FList (form_of c')) -> adv_ok n (SRange start stop step :: t) adv ks -> Forall (short m) (map VList (map (seg ws) l)) ->
  outcome reg (g_reg_range fuel adv len size c' start stop step t) (rows (SRange start stop step :: t) ks (map VList (map (seg ws) l))).
Proof.
  intros Hreg Hl Hsz Hs Hk Hfit Ha Hsh. unfold g_reg_range. inversion Hfit as [| |adv0 a0 b0 s0 t0 f0 Hs0 Hlo Hhi Harr Hft| | | | |]; subst.
  destruct (Z.eqb_spec step 0) as [|_]; [contradiction|].
  pose proof (nextsize_spec start stop step size Hsz Hs0) as HN. pose proof (regular_range_spec start stop step size len) as HC.
  destruct (RegularArray_range_nextsize start stop step size) as [a0 ns]. destruct HN as [Hns HN].
  assert (Hsel : zlen (sel start stop step size) = ns). { unfold sel. rewrite <- HN, zlen_map, zlen_zseq; lia. }
  rewrite HC; auto.
  2: { rewrite zlen_alloc; nia. }
  cbn [bind].
  match goal with |- context [carry c' ?nc true] => assert (Enc : nc = concat (map (rpos start stop step) l)) end.
  { f_equal. unfold l, regs. rewrite map_map. apply map_ext. intros i. unfold rpos, diff. cbn [fst snd]. replace ((i + 1) * size - i * size) with size by lia. reflexivity. }
  rewrite Enc. clear Enc.
  assert (Hlz : zlen l = len) by (apply zlen_regs; exact Hl).
  assert (Hlens : map (fun ab => zlen (sel start stop step (diff ab))) l = map (fun _ => ns) (zseq 0 len)).
  { unfold l, regs. rewrite map_map. apply map_ext. intros i. unfold diff. cbn [fst snd]. replace ((i + 1) * size - i * size) with size by lia. exact Hsel. }
  assert (Hmk : forall out yss, den out = Some (concat yss) -> map zlen yss = map (fun ab => zlen (sel start stop step (diff ab))) l ->
     exists c, mkRegular ns len out = Ok c /\ den c = Some (map VList yss)).
  { intros out yss H1 H2. assert (H3 : den (Regular ns len out) = Some (map VList yss)).
    - apply regular_den; auto.
      + intros _. apply (f_equal zlen) in H2. rewrite !zlen_map in H2. lia.
      + intros y Hy. assert (In (zlen y) (map zlen yss)) as Hy' by (apply in_map; exact Hy). rewrite H2, Hlens in Hy'. apply in_map_iff in Hy'. destruct Hy' as (? & E & _). congruence.
    - rewrite (mkRegular_den _ _ _ _ H3). eauto. }
  destruct adv as [a|].
  - destruct Ha as [Ha1 Ha2]. pose proof (zlen_nonneg ks). pose proof (arrays_nonneg t). cbn [is_adv] in Harr. destruct (Z.eqb_spec (zlen a) 0) as [E0|E0].
    + edestruct (range_common reg start stop step l (Some a) ks) as (next & En & Ho); [exact Hs0|exact Hs|exact Hk|exact Hsh|auto|exact Hft| |reflexivity|exact Hmk|rewrite En; exact Ho].
      split; [|intros; lia]. assert (El : l = []) by (apply zlen_0; lia). rewrite El. cbn [map]. unfold spread. rewrite combine_nil. cbn [map concat]. change (zlen (@nil (option Z))) with 0. lia.
    + set (lens := map (fun ab => zlen (sel start stop step (diff ab))) l).
      assert (Hln : Forall (fun k => 0 <= k) lens) by (unfold lens; rewrite Forall_map; apply Forall_forall; intros; apply zlen_nonneg).
      assert (Hll : zlen lens = zlen l) by (unfold lens; apply zlen_map).
      edestruct (range_common reg start stop step l (Some (spread a lens)) ks) as (next & En & Ho); [exact Hs0|exact Hs|exact Hk|exact Hsh|auto|exact Hft| |reflexivity|exact Hmk|].
      { split; [|intros; lia]. fold lens. rewrite !zlen_spread; auto; lia. }
      rewrite En. cbn [bind].
      match goal with |- outcome _ (let* nextadvanced := ?X in _) _ => assert (X = Ok (spread a lens)) as -> end; [|exact Ho].
      unfold lens. rewrite Hlens. apply regular_spread_spec; auto; [lia|]. rewrite zlen_alloc; nia.
  - edestruct (range_common reg start stop step l None ks) as (next & En & Ho); [exact Hs0|exact Hs|exact Hk|exact Hsh|auto|exact Hft| |reflexivity|exact Hmk|rewrite En; exact Ho].
    eapply adv_range_none; eauto.
Qed.
Lemma wrap1 out k : getitem_next_array_wrap out [k] = mkRegular k 0 out.
Proof. unfold getitem_next_array_wrap. cbn [rev app]. destruct (mkRegular k 0 out); reflexivity. Qed.
Lemma bind_wrap r k : (let* out := r in getitem_next_array_wrap out [k]) = (let* out := r in mkRegular k 0 out).
Proof. destruct r; cbn [bind]; auto using wrap1. Qed.
Lemma rows_empty items : rows items [] [] = Some [].
Proof. reflexivity. Qed.
(** no rows at all *)
Lemma first_empty reg K : fits n m true t (form_of c') -> (has_regular c' = true -> reg = true) -> kout reg K (Some ([], [])) ->
  outcome reg (let* ca := K in let '(nc, na) := (ca : list Z * list Z) in let* next := carry c' nc true in getitem_next fuel next t (Some na)) (Some []).
Proof.
  intros Hfit Hreg HK. destruct K as [[nc na]|e|]; cbn [kout] in HK; [injection HK as <- <-|destruct HK as [HK|HK]; [discriminate|right; exact HK]|exact HK].
  destruct (carry_den c' ws [] [] true Hd eq_refl) as (next & En & _). cbn [bind]. rewrite En. cbn [bind]. rewrite <- (rows_empty t). apply (outcome_mono (has_regular c')); [exact Hreg|].
  eapply (next_ok is64 n m fuel c' ws [] next [] t (Some []) [] []); eauto; [split; [reflexivity || (unfold zlen; cbn; lia)|]; intros _; repeat split; constructor|apply Forall_nil].
Qed.
Lemma list_array_case starts stops adv ks shape index (l := combine starts stops) : zlen starts <= zlen stops -> forallb (sub_ok (zlen ws)) l = true -> zlen ks = zlen l ->
  fits n m (is_adv adv) (SArray shape index :: t) (FList (form_of c')) -> adv_ok n (SArray shape index :: t) adv ks -> Forall (short m) (map VList (map (seg ws) l)) ->
  outcome (has_regular c') (g_list_array fuel adv starts stops c' shape index t) (rows (SArray shape index :: t) ks (map VList (map (seg ws) l))).
Proof.
  intros Hz Hs Hk Hfit Ha Hsh. unfold g_list_array. destruct (Z.ltb_spec (zlen stops) (zlen starts)); [lia|]. destruct (fits_array_inv _ _ _ _ _ _ _ Hfit) as (-> & Hi0 & Hn0 & Hft).
  assert (Hlz : zlen l = zlen starts) by (apply zlen_combine_min; exact Hz). pose proof (zlen_nonneg starts).
  assert (HK : kout (has_regular c') (awkward_ListArray_getitem_next_array (alloc (zlen starts * zlen index)) (alloc (zlen starts * zlen index)) starts stops index (zlen starts) (zlen index) (length_ c'))
    (option_map (fun pss => (concat pss, concat (map (fun _ => zseq 0 n) l))) (omap (arr_pos index) l))).
  { rewrite Hi0. apply kout_of. pose proof (list_array_spec starts stops index (length_ c') (zlen starts) (alloc (zlen starts * zlen index)) (alloc (zlen starts * zlen index)) Hz eq_refl) as G. rewrite zlen_alloc in G by nia.
    rewrite (den_length _ _ Hd) in *. specialize (G eq_refl eq_refl Hs). fold l in G. destruct (omap (arr_pos index) l); exact G. }
  destruct adv as [a|].
  - destruct (adv_next _ _ _ _ _ _ Hk Ha) as (Hza & Eks & Hfa & Ha'). destruct (Z.eqb_spec (zlen a) 0) as [E0|E0].
    + assert (El : l = []) by (apply zlen_0; lia). rewrite El in HK |- *. rewrite (zlen_0 a E0) in Eks. rewrite Eks. apply first_empty; auto.
    + rewrite Eks. rewrite Hlz in Ha'. apply (step_adv (has_regular c') _ c' ws l a (zlen starts) index [n] t (fun next na => getitem_next fuel next t (Some na))); auto.
      * apply kout_of. pose proof (list_array_adv_spec starts stops index a (length_ c') (zlen starts) (alloc (zlen starts)) (alloc (zlen starts)) Hz eq_refl) as G. rewrite zlen_alloc in G by apply zlen_nonneg.
        rewrite (den_length _ _ Hd) in *. rewrite <- Hi0 in G; specialize (G eq_refl eq_refl (eq_trans Hza Hlz) Hs Hfa). fold l in G. destruct (omap (adv_pos index) (combine a l)); exact G.
      * intros nc next xs Hc Hx Hkx Hin. eapply (next_ok is64 n m fuel c' ws nc next xs); eauto. now rewrite zlen_map.
  - rewrite bind_wrap. apply (step_first (has_regular c') _ c' ws l ks index [n] n t (fun next na => getitem_next fuel next t (Some na))); auto.
    + apply Ha. rewrite arrays_cons. pose proof (arrays_nonneg t). lia.
    + intros nc next xs Hc Hx Hzx Hin. eapply (next_ok is64 n m fuel c' ws nc next xs); eauto.
      * rewrite zlen_map, concat_const_map, zlen_zseq by lia. lia.
      * eapply adv_first; eauto.
Qed.
Lemma reg_array_case reg size len adv ks shape index (l := regs size len) : (has_regular c' = true -> reg = true) -> (reg = true \/ 0 < len /\ adv = None) -> 0 <= len -> 0 <= size -> forallb (sub_ok (zlen ws)) l = true -> zlen ks = zlen l ->
  fits n m (is_adv adv) (SArray shape index :: t) (FList (form_of c')) -> adv_ok n (SArray shape index :: t) adv ks -> Forall (short m) (map VList (map (seg ws) l)) ->
  outcome reg (g_reg_array fuel adv len size c' shape index t) (rows (SArray shape index :: t) ks (map VList (map (seg ws) l))).
Proof.
  intros Hreg Hpos Hl Hsz Hs Hk Hfit Ha Hsh. unfold g_reg_array. destruct (fits_array_inv _ _ _ _ _ _ _ Hfit) as (-> & Hi0 & Hn0 & Hft).
  assert (Hlz : zlen l = len) by (apply zlen_regs; exact Hl).
  pose proof (regularize_spec index size (alloc (zlen index)) (zlen_alloc _ (zlen_nonneg index))) as HR.
  destruct (omap (fun x => wrap x size) index) as [r|] eqn:Er; [|].
  2: { destruct HR as (e & ->). destruct Hpos as [Hpos|[Hpos ->]]; [right; exact Hpos|left]. cbn [bind]. 
    apply omap_None in Er. destruct Er as (i & x & Hx & Ew). pose proof (nthZ_Some _ _ _ Hx).
    destruct (nthZ_lt l 0) as [ab Hab]; [lia|]. assert (Hsg : zlen (seg ws ab) = size). { rewrite zlen_seg; [eapply regs_diff; eapply nthZ_In; exact Hab|]. rewrite forallb_forall in Hs. apply Hs. eapply nthZ_In; exact Hab. }
    destruct (nthZ_lt ks 0) as [k Hk0]; [lia|]. apply (omap_None_In _ _ (k, VList (seg ws ab))); [apply (nthZ_In _ 0); rewrite nthZ_combine, Hk0, !nthZ_map, Hab; reflexivity|].
    assert (k = None) as ->. { destruct Ha as [Ha _]. rewrite arrays_cons in Ha. pose proof (arrays_nonneg t). specialize (Ha ltac:(lia)). rewrite Forall_forall in Ha. symmetry. apply Ha. eapply nthZ_In; exact Hk0. }
    cbn [fst snd pick thru]. rewrite (omap_None_In _ _ i); [reflexivity|apply In_zseq; lia|]. rewrite Hx. unfold elem. now rewrite Hsg, Ew. } rewrite HR. cbn [bind]. cbv zeta. clear HR.
  assert (HK : kout reg (awkward_RegularArray_getitem_next_array (alloc (len * zlen index)) (alloc (len * zlen index)) r len (zlen r) size)
    (option_map (fun pss => (concat pss, concat (map (fun _ => zseq 0 n) l))) (omap (arr_pos index) l))).
  { rewrite Hi0. destruct (regular_array_spec index r size len (alloc (len * zlen index)) (alloc (len * zlen index)) Hl Er) as (pss & E1 & E2); [rewrite zlen_alloc; nia|rewrite zlen_alloc; nia|]. fold l in E1, E2. rewrite E1, E2. reflexivity. }
  destruct adv as [a|].
  - destruct (adv_next _ _ _ _ _ _ Hk Ha) as (Hza & Eks & Hfa & Ha'). destruct (Z.eqb_spec (zlen a) 0) as [E0|E0].
    + assert (El : l = []) by (apply zlen_0; lia). rewrite El in HK |- *. rewrite (zlen_0 a E0) in Eks. rewrite Eks. apply first_empty; auto.
    + destruct (Z.eqb_spec size 0) as [->|Hnz].
      { destruct (nthZ_lt index 0) as [x Hx]; [lia|]. destruct (omap_nth _ _ _ _ _ Er Hx) as (_ & y & Hy). apply wrap_range in Hy. lia. }
      rewrite Eks. apply (step_adv reg _ c' ws l a (zlen l) index [n] t (fun next na => getitem_next fuel next t (Some na))); auto.
      * destruct (regular_array_adv_spec index r a size len (alloc len) (alloc len) Hl Er) as (ps & E1 & E2); [rewrite zlen_alloc; lia|rewrite zlen_alloc; lia|lia|rewrite <- Hi0; exact Hfa|]. fold l in E1. rewrite E1, E2, Hlz. reflexivity.
      * intros nc next xs Hc Hx Hkx Hin. apply (outcome_mono (has_regular c')); [auto|]. eapply (next_ok is64 n m fuel c' ws nc next xs); eauto. now rewrite zlen_map.
  - rewrite bind_wrap. apply (step_first reg _ c' ws l ks index [n] n t (fun next na => getitem_next fuel next t (Some na))); auto.
    + apply Ha. rewrite arrays_cons. pose proof (arrays_nonneg t). lia.
    + intros nc next xs Hc Hx Hzx Hin. apply (outcome_mono (has_regular c')); [auto|]. eapply (next_ok is64 n m fuel c' ws nc next xs); eauto.
      * rewrite zlen_map, concat_const_map, zlen_zseq by lia. lia.
      * eapply adv_first; eauto.
Qed.
End Node.

(** ** missing values *)
Definition sliced (it : sliceitem) : Prop := match it with SAt _ | SRange _ _ _ | SArray _ _ => True | _ => False end.
Lemma pick_thru it t k : sliced it -> exists f, forall v, pick (it :: t) k v = thru f v.
Proof. destruct it; intros []; eexists; intros v; reflexivity. Qed.
Lemma rows_plain items ks vs : Forall (eq None) ks \/ arrays items = 0 -> zlen ks = zlen vs -> rows items ks vs = omap (pick items None) vs.
Proof.
  intros H Hz. unfold rows. rewrite <- (omap_combine_r ks vs (pick items None) Hz). apply omap_ext. intros [k v] Hin. cbn [fst snd]. destruct H as [H|H].
  - rewrite Forall_forall in H. now rewrite <- (H k (in_combine_l _ _ _ _ Hin)).
  - apply pick_indep. exact H.
Qed.
Lemma ranks_all {X} (p : X -> bool) xs k j : k <= j < k + zlen (filter p xs) -> In j (ranks p k xs).
Proof.
  revert k. induction xs as [|x xs IHx]; intros k H; cbn [filter ranks] in *; [change (zlen (@nil X)) with 0 in H; lia|]. destruct (p x).
  - rewrite zlen_cons in H. destruct (Z.eq_dec j k) as [->|]; [now left|right]. apply IHx. lia.
  - right. apply IHx. lia.
Qed.
Lemma zlen_filter_le {X} (p : X -> bool) xs : zlen (filter p xs) <= zlen xs.
Proof. induction xs as [|x xs IHx]; cbn [filter]; [lia|]. destruct (p x); rewrite ?zlen_cons; lia. Qed.
Definition optget (vs : list value) (i : Z) : option value := if i <? 0 then Some VNone else nthZ vs i.
Lemma option_step reg (nc oi : list Z) (ws' vs : list value) r g : g VNone = Some VNone -> omap (optget ws') oi = Some vs -> ranked oi (zlen nc) -> zlen ws' = zlen nc ->
  outcome reg r (omap g ws') -> outcome reg (let* out := r in simplify_optiontype (IndexedOption oi out)) (omap g vs).
Proof.
  intros Hg Hoi (p & xs & Eo & Ez) Hz Hr. destruct r as [out|e|]; cbn [bind outcome] in *; [|destruct Hr as [Hr|Hr]; [left|right; exact Hr]|exact Hr].
  - destruct Hr as (us & Hus & Hout). assert (Hdo : exists zs, omap g vs = Some zs /\ den (IndexedOption oi out) = Some zs).
    { cbn [den]. rewrite Hout. rewrite (omap_comp _ g _ _ Hoi). 
      assert (E : omap (fun x => match optget ws' x with Some y => g y | None => None end) oi = omap (fun i => if i <? 0 then Some VNone else nthZ us i) oi).
      - apply omap_ext. intros i Hi. unfold optget. destruct (Z.ltb_spec i 0); [exact Hg|]. apply In_nthZ in Hi. destruct Hi as (j & Hj). destruct (omap_nth _ _ _ _ _ Hoi Hj) as (_ & y & Hy). unfold optget in Hy. destruct (Z.ltb_spec i 0); [lia|].
        rewrite Hy. destruct (omap_nth _ _ _ _ _ Hus Hy) as (E & _). exact E.
      - rewrite E. destruct (omap_total (fun i => if i <? 0 then Some VNone else nthZ us i) oi) as [zs Hzs]; [|eauto].
        intros i Hi. destruct (Z.ltb_spec i 0); [eauto|]. apply In_nthZ in Hi. destruct Hi as (j & Hj). destruct (omap_nth _ _ _ _ _ Hoi Hj) as (_ & y & Hy). unfold optget in Hy. destruct (Z.ltb_spec i 0); [lia|].
        destruct (omap_nth _ _ _ _ _ Hus Hy) as (E1 & z & E2). exists z. congruence. }
    destruct Hdo as (zs & -> & Hzs). destruct (simplify_io _ _ _ Hzs) as (c & -> & Hc). exists zs. split; [reflexivity|exact Hc].
  - apply omap_None in Hr. destruct Hr as (i & x & Hx & Hgx). apply nthZ_Some in Hx as Hi. assert (In i oi) as Hin by (rewrite Eo; apply ranks_all; lia).
    apply In_nthZ in Hin. destruct Hin as (j & Hj). destruct (omap_nth _ _ _ _ _ Hoi Hj) as (E & _). unfold optget in E. destruct (Z.ltb_spec i 0); [lia|]. rewrite Hx in E. symmetry in E. apply nthZ_In in E. eapply omap_None_In; eauto.
Qed.
Section Opt.
Variable fuel : nat.
Hypothesis IH : correct fuel.
Lemma adv_option it t adv ks (vs : list value) : zlen ks = zlen vs -> (is_adv adv = true -> arrays (it :: t) = 0) -> adv_ok n (it :: t) adv ks ->
  (Forall (eq None) ks \/ arrays (it :: t) = 0) /\ forall k, 0 <= k <= zlen vs -> adv_ok n (it :: t) adv (repeat None (Z.to_nat k)).
Proof.
  intros Hz H0 Ha. destruct adv as [a|]; unfold adv_ok in *; cbn [is_adv] in H0.
  - split; [right; auto|]. intros k Hk. rewrite zlen_repeat. rewrite H0 by reflexivity. split; [lia|intros; lia].
  - destruct Ha as [Ha1 Ha2]. pose proof (arrays_nonneg (it :: t)). split; [destruct (Z.eq_dec (arrays (it :: t)) 0); [right; assumption|left; apply Ha1; lia]|].
    intros k Hk. rewrite zlen_repeat. split; [|lia]. intros _. apply Forall_forall. intros y Hy. apply repeat_spec in Hy. congruence.
Qed.
Lemma repeat_None_all k : Forall (eq (@None Z)) (repeat None k).
Proof. apply Forall_forall. intros y Hy. apply repeat_spec in Hy. congruence. Qed.
Lemma option_case c' ws vs (nc oi : list Z) ws' it t adv ks pair :
  (bound c' + length (it :: t) <= fuel)%nat -> den c' = Some ws -> exact c' -> sliced it -> fits n m (is_adv adv) (it :: t) (FOption (form_of c')) -> adv_ok n (it :: t) adv ks ->
  zlen ks = zlen vs -> Forall (short m) vs ->
  pair = Ok (nc, oi) -> omap (nthZ ws) nc = Some ws' -> omap (optget ws') oi = Some vs -> ranked oi (zlen nc) ->
  outcome (has_regular c') (option_path true (fun next => getitem_next fuel next (it :: t) adv) pair c') (rows (it :: t) ks vs).
Proof.
  intros Hf Hd HE Hit Hfit Ha Hk Hsh -> Hnc Hoi Hrk. unfold option_path. cbn [bind]. destruct (carry_den _ _ _ _ true Hd Hnc) as (next & En & Hdn). rewrite En. cbn [bind].
  assert (H0 : is_adv adv = true -> arrays (it :: t) = 0). { inversion Hfit; subst; try contradiction; auto. }
  assert (Hft : fits n m (is_adv adv) (it :: t) (form_of c')). { inversion Hfit; subst; try contradiction; auto. }
  destruct (adv_option it t adv ks vs Hk H0 Ha) as [Hplain Hadv]. rewrite rows_plain by assumption.
  pose proof (omap_zlen _ _ _ Hnc) as Hz. assert (Hle : zlen ws' <= zlen vs).
  { destruct Hrk as (p & xs & Eo & Ez). pose proof (omap_zlen _ _ _ Hoi) as Hz2. rewrite Eo, zlen_ranks in Hz2. pose proof (zlen_filter_le p xs). lia. }
  pose proof (zlen_nonneg ws'). destruct (pick_thru it t None Hit) as (f & Hpf).
  eapply option_step; [rewrite Hpf; reflexivity|exact Hoi|exact Hrk|exact Hz|].
  destruct (carry_same _ _ _ _ En) as [F B]. rewrite <- (carry_reg _ _ _ _ En).
  rewrite <- (rows_plain (it :: t) (repeat None (Z.to_nat (zlen ws'))) ws').
  - apply IH; auto.
    + pose proof (need_bound next). lia.
    + rewrite zlen_repeat. lia.
    + exact (carry_exact _ _ _ _ _ _ Hd Hnc HE En).
    + rewrite F. exact Hft.
    + rewrite Forall_forall in *. intros x Hx. apply Hsh. apply In_nthZ in Hx. destruct Hx as (i & Hi). apply nthZ_Some in Hi as Hr. destruct Hrk as (p & xs & Eo & Ez).
      assert (In i oi) as Hin by (rewrite Eo; apply ranks_all; lia). apply In_nthZ in Hin. destruct Hin as (j & Hj). destruct (omap_nth _ _ _ _ _ Hoi Hj) as (E & _). unfold optget in E. destruct (Z.ltb_spec i 0); [lia|].
      rewrite Hi in E. symmetry in E. eapply nthZ_In; exact E.
  - left. apply repeat_None_all.
  - rewrite zlen_repeat. lia.
Qed.

(** ** records *)
Lemma transpose_row (G : value -> option value) (vss uss : list (list value)) i row :
  Forall2 (fun vs us => forall x, nthZ vs i = Some x -> G x = nthZ us i) vss uss -> omap (fun vs => nthZ vs i) vss = Some row -> omap G row = omap (fun us => nthZ us i) uss.
Proof.
  intros H. revert row. induction H as [|vs us vss uss H _ IHF]; intros row E; cbn [omap] in *; [injection E as <-; reflexivity|].
  destruct (nthZ vs i) as [x|] eqn:Ex; [|discriminate]. destruct (omap _ vss) as [row'|]; [|discriminate]. injection E as <-. cbn [omap]. rewrite (H x eq_refl), (IHF _ eq_refl). reflexivity.
Qed.
Lemma record_case keys len cs it adv ks vs : (forall x, In x cs -> (bound x + 1 <= fuel)%nat) -> (1 <= fuel)%nat ->
  den (Record keys len cs) = Some vs -> zlen ks = zlen vs -> exact (Record keys len cs) -> sliced it -> fits n m (is_adv adv) [it] (FRecord keys (map form_of cs)) -> adv_ok n [it] adv ks -> Forall (short m) vs ->
  outcome (existsb has_regular cs) (let* contents := mapres (fun x => getitem_next fuel x [it] adv) cs in getitem_next fuel (Record keys (minlength contents) contents) [] adv) (rows [it] ks vs).
Proof.
  intros Hf Hf1 Hd Hk [Hne HE] Hit Hfit Ha Hsh. destruct (record_cols _ _ _ _ Hd) as (vss & Hvss & Hlen & Hkeys & Hzl & Hrows). rewrite exact_fields in HE.
  assert (Hft : Forall (fits n m (is_adv adv) [it]) (map form_of cs)). { inversion Hfit; subst; try contradiction; auto. }
  assert (Hcol : forall x xs, In x cs -> den x = Some xs -> zlen xs = len). { intros x xs Hx Hxs. rewrite <- (den_length _ _ Hxs). apply HE. exact Hx. }
  assert (Hzv : zlen vss = zlen cs) by (eapply omap_zlen; exact Hvss).
  (* the rows *)
  assert (Hrow : forall i v, nthZ vs i = Some v -> exists row, omap (fun xs => nthZ xs i) vss = Some row /\ v = mkrow keys row /\ zlen row = zlen cs).
  { intros i v Hv. destruct (omap_nth' _ _ _ _ _ Hrows Hv) as (j & Hj & E). apply nthZ_Some in Hv as Hr. rewrite nthZ_zseq in Hj by lia. injection Hj as <-. cbn [Z.add] in E. rewrite ?Z.add_0_l in E.
    destruct (omap (fun xs => nthZ xs i) vss) as [row|] eqn:Er; [|discriminate]. injection E as <-. exists row. split; [reflexivity|]. split; [reflexivity|]. apply omap_zlen in Er. lia. }
  assert (Hshc : forall x xs, In x cs -> den x = Some xs -> Forall (short m) xs).
  { intros x xs Hx Hxs. apply Forall_forall. intros y Hy. apply In_nthZ in Hy. destruct Hy as (i & Hi). apply nthZ_Some in Hi as Hr. rewrite (Hcol _ _ Hx Hxs) in Hr. destruct (nthZ_lt vs i) as [v Hv]; [lia|].
    destruct (Hrow i v Hv) as (row & Er & -> & Hzr). apply nthZ_In in Hv. rewrite Forall_forall in Hsh. specialize (Hsh _ Hv). apply short_mkrow in Hsh; [|now rewrite Hzr]. rewrite Forall_forall in Hsh. apply Hsh.
    eapply omap_In'; [exact Er|eapply omap_In'; [exact Hvss|exact Hx|exact Hxs]|exact Hi]. }
  assert (HI : forall x xs, In x cs -> den x = Some xs -> outcome (has_regular x) (getitem_next fuel x [it] adv) (rows [it] ks xs)).
  { intros x xs Hx Hxs. apply IH; auto.
    - specialize (Hf x Hx). pose proof (need_bound x). cbn [length]. lia.
    - rewrite (Hcol _ _ Hx Hxs). lia.
    - apply HE. exact Hx.
    - rewrite Forall_forall in Hft. apply Hft. apply in_map. exact Hx.
    - eapply Hshc; eauto. }
  destruct (pick_thru it [] None Hit) as (f0 & _).
  assert (HP : forall k row, zlen row = zlen cs -> pick [it] k (mkrow keys row) = option_map (mkrow keys) (omap (pick [it] k) row)).
  { intros k row Hr. destruct (pick_thru it [] k Hit) as (f & Hpf). rewrite Hpf, thru_mkrow by now rewrite Hr. f_equal. apply omap_ext. intros; now rewrite Hpf. }
  (* all columns, or one that fails *)
  assert (HM : match mapres (fun x => getitem_next fuel x [it] adv) cs with
     | Ok contents => exists uss, omap den contents = Some uss /\ Forall2 (fun xs us => rows [it] ks xs = Some us) vss uss /\ zlen contents = zlen cs
     | Err _ => (exists x xs, In x cs /\ den x = Some xs /\ rows [it] ks xs = None) \/ existsb has_regular cs = true
     | UB => False end).
  { clear -HI Hvss. revert vss Hvss. induction cs as [|x cs IHc]; intros vss Hvss; cbn [omap] in Hvss; cbn [mapres].
    - injection Hvss as <-. exists []. repeat split; constructor.
    - destruct (den x) as [xs|] eqn:Ex; [|discriminate]. destruct (omap den cs) as [vss'|] eqn:Ecs; [|discriminate]. injection Hvss as <-.
      pose proof (HI x xs (or_introl eq_refl) Ex) as Hx. destruct (getitem_next fuel x [it] adv) as [c|e|]; cbn [bind outcome] in *; [|destruct Hx as [Hx|Hx]|exact Hx].
      + destruct Hx as (us & Hus & Hc). specialize (IHc (fun y ys Hy => HI y ys (or_intror Hy)) _ eq_refl). destruct (mapres _ cs) as [contents|e|]; cbn [bind].
        * destruct IHc as (uss & E1 & E2 & E3). exists (us :: uss). cbn [omap]. rewrite Hc, E1. repeat split; [constructor; assumption|rewrite !zlen_cons; lia].
        * destruct IHc as [(y & ys & H1 & H2 & H3)|H1]; [left; exists y, ys; repeat split; auto; now right|right; cbn [existsb]; now rewrite H1, Bool.orb_true_r].
        * exact IHc.
      + left. exists x, xs. repeat split; auto. now left.
      + right. cbn [existsb]. now rewrite Hx. }
  destruct (mapres _ cs) as [contents|e|]; cbn [bind].
  - destruct HM as (uss & Huss & HF & Hzc).
    assert (HU : forall us, In us uss -> zlen us = len).
    { intros us Hu. apply In_nthZ in Hu. destruct Hu as (j & Hj). apply nthZ_Some in Hj as Hr. destruct (nthZ_lt vss j) as [xs Hxs]; [rewrite (PPromote.F2_zlen _ _ _ HF); exact Hr|].
      destruct (omap_nth' _ _ _ _ _ Hvss Hxs) as (x & Hx & Edx). pose proof (Hcol x xs (nthZ_In _ _ _ Hx) Edx). assert (Hru : rows [it] ks xs = Some us).
      { clear -HF Hxs Hj. revert j Hxs Hj. induction HF as [|a b vss uss Hab _ IHF]; intros j Hxs Hj; [rewrite nthZ_nil in Hj; discriminate|]. rewrite nthZ_cons in Hxs, Hj. destruct (j =? 0); [congruence|eauto]. }
      apply rows_zlen in Hru; lia. }
    assert (Hml : minlength contents = len).
    { apply minlength_const; [|lia|].
      - intros ->. destruct cs; [congruence|]. rewrite zlen_cons in Hzc. change (zlen (@nil content)) with 0 in Hzc. pose proof (zlen_nonneg cs). lia.
      - intros c Hc. destruct (omap_In _ _ _ _ Huss Hc) as (us & E & Hu). rewrite (den_length _ _ E). auto. }
    rewrite Hml. destruct fuel as [|fuel']; [lia|]. cbn [Getitem.getitem_next outcome].
    assert (Hdr : exists rs, den (Record keys len contents) = Some rs).
    { cbn [den]. rewrite Huss, Hzc, Hkeys. destruct (Z.leb_spec 0 len); [|lia]. cbn [andb]. apply omap_total. intros i Hi. apply In_zseq in Hi.
      destruct (omap_total (fun us => nthZ us i) uss) as [row Hr]; [intros us Hu; apply nthZ_lt; rewrite (HU us Hu); lia|]. rewrite Hr. cbn [option_map]. eauto. }
    destruct Hdr as (rs & Hrs). exists rs. split; [|exact Hrs]. destruct (record_cols _ _ _ _ Hrs) as (uss' & Huss' & _ & _ & Hzrs & Hrows'). rewrite Huss in Huss'. injection Huss' as <-.
    apply omap_intro; [rewrite zlen_combine by exact Hk; lia|]. intros i [k v] Hkv. rewrite nthZ_combine in Hkv. destruct (nthZ ks i) as [k'|] eqn:Eki; [|discriminate]. destruct (nthZ vs i) as [v'|] eqn:Ev; [|discriminate]. injection Hkv as -> ->.
    cbn [fst snd]. destruct (Hrow i v Ev) as (row & Er & -> & Hzr). rewrite HP by exact Hzr. apply nthZ_Some in Ev as Hri.
    destruct (nthZ_lt rs i) as [w Hw]; [lia|]. destruct (omap_nth' _ _ _ _ _ Hrows' Hw) as (j & Hj & E). rewrite nthZ_zseq in Hj by lia. injection Hj as <-. rewrite Z.add_0_l in E. rewrite Hw, <- E. f_equal.
    eapply transpose_row; [|exact Er]. clear -HF Eki. induction HF as [|a b vss uss Hab _ IHF]; constructor; [|exact IHF]. intros x Hx. unfold rows in Hab. assert (Hc : nthZ (combine ks a) i = Some (k, x)) by now rewrite nthZ_combine, Eki, Hx.
    destruct (omap_nth _ _ _ _ _ Hab Hc) as (E & _). exact E.
  - destruct HM as [(x & xs & Hx & Hxs & Hnone)|HM]; [left|right; exact HM]. apply omap_None in Hnone. destruct Hnone as (i & [k y] & Hky & Hp). rewrite nthZ_combine in Hky. destruct (nthZ ks i) as [k'|] eqn:Ek; [|discriminate]. destruct (nthZ xs i) as [y'|] eqn:Ey; [|discriminate]. injection Hky as -> ->.
    cbn [fst snd] in Hp. apply nthZ_Some in Ek as Hr. destruct (nthZ_lt vs i) as [v Hv]; [lia|]. destruct (Hrow i v Hv) as (row & Er & -> & Hzr).
    apply (omap_None_In _ _ (k, mkrow keys row)); [apply (nthZ_In _ i); rewrite nthZ_combine, Ek, Hv; reflexivity|]. cbn [fst snd]. rewrite HP by exact Hzr.
    rewrite (omap_None_In _ row y); [reflexivity| |exact Hp]. eapply omap_In'; [exact Er|eapply omap_In'; [exact Hvss|exact Hx|exact Hxs]|exact Ey].
  - exact HM.
Qed.
End Opt.
End Main.

Section Whole.
Variable is64 : content -> bool.
Variables n m : Z.
Hypothesis Hm : 0 <= m.
Lemma newaxis_eq fuel c tail adv : (forall keys fs, form_of c <> FRecord keys fs) ->
  getitem_next is64 (S fuel) c (SNewAxis :: tail) adv = let* nextcontent := getitem_next is64 fuel c tail adv in mkRegular 1 (length_ nextcontent) nextcontent.
Proof. intros H. destruct c; try reflexivity. exfalso. eapply H. reflexivity. Qed.
Lemma newaxis_case reg r t ks vs : outcome reg r (rows t ks vs) -> outcome reg (let* x := r in mkRegular 1 (length_ x) x) (rows (SNewAxis :: t) ks vs).
Proof.
  intros H. assert (E : rows (SNewAxis :: t) ks vs = option_map (map (fun x => VList [x])) (rows t ks vs)) by (unfold rows; cbn [pick]; apply omap_option_map). rewrite E. clear E.
  destruct r as [c|e|]; cbn [bind outcome] in *; [|destruct H as [->|H]; [left; reflexivity|right; exact H]|exact H].
  destruct H as (ws & -> & Hd). cbn [option_map]. assert (H : den (Regular 1 (length_ c) c) = Some (map VList (map (fun x => [x]) ws))).
  { apply regular_den; [lia|lia| |].
    - intros l Hl. apply in_map_iff in Hl. destruct Hl as (x & <- & _). reflexivity.
    - rewrite Hd. f_equal. clear. induction ws; cbn [map concat app]; congruence. }
  rewrite map_map in H. rewrite (mkRegular_den _ _ _ _ H). eexists; split; [reflexivity|exact H].
Qed.
Lemma fits_head f : forall adv it t, fits n m adv (it :: t) f -> sliced it \/ it = SNewAxis \/ exists key, it = SField key.
Proof.
  induction f using form_ind'; intros adv it t Hf; inversion Hf; subst; try (left; exact I); try (right; left; reflexivity); try (right; right; eexists; reflexivity).
  - eapply IHf; eassumption.
  - destruct fs as [|f fs]; [congruence|]. inversion H as [|? ? Hx ?]; subst. match goal with H : Forall (fits _ _ _ _) _ |- _ => inversion H; subst end. eapply Hx; eassumption.
Qed.
Lemma fits_sliced f : forall adv it t, sliced it -> fits n m adv (it :: t) f -> match f with FList _ => True | FOption g => fits n m adv (it :: t) g | FRecord _ fs => t = [] /\ Forall (fits n m adv [it]) fs | _ => False end.
Proof. intros adv it t Hs Hf. destruct f; inversion Hf; subst; try (destruct Hs; fail); auto. Qed.
Lemma getitem_next_correct fuel : correct is64 n m fuel.
Proof.
  induction fuel as [|fuel IH]; intros c items adv ks vs Hf Hd Hk HE Hfit Ha Hsh; [pose proof (need_pos c); lia|].
  destruct items as [|it t]; [cbn [getitem_next outcome]; rewrite rows_nil by exact Hk; eauto|]. cbn [length] in Hf. pose proof (need_pos c) as Hnp.
  destruct (fits_head _ _ _ _ Hfit) as [Hit|[->|(key & ->)]].
  - pose proof (fits_sliced _ _ _ _ Hit Hfit) as Hfs.
    assert (HL : forall c' l, list_view c = Some (l, c') -> exists ws, den c' = Some ws /\ forallb (sub_ok (zlen ws)) l = true /\ vs = map VList (map (seg ws) l)) by (intros c' l; apply list_inv; exact Hd).
    destruct c as [|dt data|starts stops c'|offsets c'|size zl c'|index c'|index c'|mask vw c'|mask vw lsb len c'|c'|keys len cs|tags index cs]; cbn [form_of] in Hfit, Hfs; try contradiction.
    + (* ListA *) destruct (HL _ _ eq_refl) as (ws & Hdw & Hs & ->). rewrite !zlen_map in Hk. cbn [need bound] in Hf.
      assert (Hz : zlen starts <= zlen stops). { cbn [den] in Hd. rewrite Hdw in Hd. destruct (Z.leb_spec (zlen starts) (zlen stops)); [assumption|discriminate]. }
      assert (Hf' : (bound c' + length t <= fuel)%nat) by lia. cbn [has_regular exact] in *.
      destruct it; try contradiction.
      * exact (list_at_case is64 n m fuel c' ws t IH Hf' Hdw HE starts stops adv ks _ Hz Hs Hk Hfit Ha Hsh).
      * exact (list_range_case is64 n m Hm fuel c' ws t IH Hf' Hdw HE starts stops adv ks _ _ _ Hz Hs Hk Hfit Ha Hsh).
      * exact (list_array_case is64 n m fuel c' ws t IH Hf' Hdw HE starts stops adv ks _ _ Hz Hs Hk Hfit Ha Hsh).
    + (* ListOffset *) destruct (HL _ _ eq_refl) as (ws & Hdw & Hs & ->). rewrite !zlen_map in Hk. cbn [need bound] in Hf.
      assert (Hz : 1 <= zlen offsets). { cbn [den] in Hd. rewrite Hdw in Hd. destruct (Z.leb_spec 1 (zlen offsets)); [assumption|discriminate]. }
      assert (Hf' : (bound c' + length t <= fuel)%nat) by lia. cbn [has_regular exact] in *.
      rewrite <- (combine_starts_stops _ Hz) in Hs, Hk, Hsh |- *.
      assert (Hz' : zlen (slice 0 (zlen offsets - 1) offsets) <= zlen (slice 1 (zlen offsets) offsets)) by (rewrite !zlen_slice; lia).
      cbn [getitem_next]. rewrite (make_starts_spec _ Hz), (make_stops_spec _ Hz). cbn [bind].
      destruct it; try contradiction.
      * exact (list_at_case is64 n m fuel c' ws t IH Hf' Hdw HE _ _ adv ks _ Hz' Hs Hk Hfit Ha Hsh).
      * exact (list_range_case is64 n m Hm fuel c' ws t IH Hf' Hdw HE _ _ adv ks _ _ _ Hz' Hs Hk Hfit Ha Hsh).
      * exact (list_array_case is64 n m fuel c' ws t IH Hf' Hdw HE _ _ adv ks _ _ Hz' Hs Hk Hfit Ha Hsh).
    + (* Regular *) destruct (HL _ _ eq_refl) as (ws & Hdw & Hs & ->). rewrite !zlen_map in Hk. cbn [need bound] in Hf.
      assert (Hsz : 0 <= size). { destruct (regular_inv _ _ _ _ Hd) as (? & ? & _ & Hsz & _). exact Hsz. }
      assert (Hln : 0 <= length_ (Regular size zl c')). { rewrite (den_length _ _ Hd). apply zlen_nonneg. }
      assert (Hf' : (bound c' + length t <= fuel)%nat) by lia. cbn [has_regular exact] in *.
      set (len := length_ (Regular size zl c')) in *. fold (regs size len) in *. rewrite zlen_zseq in Hk by exact Hln. assert (Hk' : zlen ks = zlen (regs size len)) by (rewrite zlen_regs; lia).
      destruct it; try contradiction.
      * exact (reg_at_case is64 n m fuel c' ws t IH Hf' Hdw HE true size len adv ks _ (fun _ => eq_refl) (or_introl eq_refl) Hln Hs Hk' Hfit Ha Hsh).
      * exact (reg_range_case is64 n m Hm fuel c' ws t IH Hf' Hdw HE true size len adv ks _ _ _ (fun _ => eq_refl) Hln Hsz Hs Hk' Hfit Ha Hsh).
      * exact (reg_array_case is64 n m fuel c' ws t IH Hf' Hdw HE true size len adv ks _ _ (fun _ => eq_refl) (or_introl eq_refl) Hln Hsz Hs Hk' Hfit Ha Hsh).
    + (* Indexed *) destruct (project_indexed _ _ _ Hd) as (p & Ep & Hdp & Fp & Bp). pose proof (project_need _ _ _ Ep) as Hnd.
      assert (E : getitem_next is64 (S fuel) (Indexed index c') (it :: t) adv = let* next := project (Indexed index c') in getitem_next is64 fuel next (it :: t) adv).
      { destruct it; try contradiction; cbn [getitem_next project]; destruct (awkward_IndexedArray_getitem_nextcarry _ _ _ _); cbn [bind]; try reflexivity; destruct (carry c' _ false); reflexivity. }
      rewrite E, Ep. cbn [bind]. assert (Hreg : has_regular p = has_regular (Indexed index c')). { cbn [project] in Ep. binv Ep. cbn [has_regular]. eapply carry_reg; exact Ep. }
      rewrite <- Hreg. apply IH; auto.
      * cbn [length]. lia.
      * destruct (project_taken _ _ _ Hd eq_refl Ep) as [?|(cry & ws & ws' & Hws & Hc & Ec)]; [discriminate|]. cbn [below] in *. exact (carry_exact _ _ _ _ _ _ Hws Hc HE Ec).
      * rewrite Fp. exact Hfit.
    + (* IndexedOption *) destruct (content_inv1 _ _ Hd) as [ws Hws]. destruct (indexedoption_nextcarry' _ _ _ _ Hws Hd) as (nc & oi & ws' & E1 & E2 & E3 & E4).
      assert (E : getitem_next is64 (S fuel) (IndexedOption index c') (it :: t) adv = option_path true (fun next => getitem_next is64 fuel next (it :: t) adv) (IndexedOption_nextcarry_outindex index c') c') by (destruct it; try contradiction; reflexivity).
      rewrite E. cbn [has_regular]. cbn [need bound] in Hf. eapply (option_case is64 n m fuel IH); eauto. cbn [length]. lia.
    + (* ByteMasked *) destruct (content_inv1 _ _ Hd) as [ws Hws]. destruct (bytemasked_nextcarry' _ _ _ _ _ Hws Hd) as (nc & oi & ws' & E1 & E2 & E3 & E4).
      assert (E : getitem_next is64 (S fuel) (ByteMasked mask vw c') (it :: t) adv = option_path true (fun next => getitem_next is64 fuel next (it :: t) adv) (ByteMasked_nextcarry_outindex mask vw) c') by (destruct it; try contradiction; reflexivity).
      rewrite E. cbn [has_regular]. cbn [need bound] in Hf. eapply (option_case is64 n m fuel IH); eauto. cbn [length]. lia.
    + (* BitMasked *) destruct (to_byte_masked _ _ Hd) as (mask' & vw' & c'' & Eb & Hd' & _); [left; eauto 8|].
      assert (c'' = c') as ->. { cbn [toByteMaskedArray] in Eb. binv Eb. mkinv Eb. congruence. }
      destruct (content_inv1 _ _ Hd') as [ws Hws]. destruct (bytemasked_nextcarry' _ _ _ _ _ Hws Hd') as (nc & oi & ws' & E1 & E2 & E3 & E4).
      assert (E : getitem_next is64 (S fuel) (BitMasked mask vw lsb len c') (it :: t) adv = option_path true (fun next => getitem_next is64 fuel next (it :: t) adv) (ByteMasked_nextcarry_outindex mask' vw') c').
      { transitivity (option_path_of true (fun next => getitem_next is64 fuel next (it :: t) adv) (BitMasked mask vw lsb len c')); [destruct it; try contradiction; reflexivity|]. unfold option_path_of. rewrite Eb. reflexivity. }
      rewrite E. cbn [has_regular]. cbn [need bound] in Hf. eapply (option_case is64 n m fuel IH); eauto. cbn [length]. lia.
    + (* Unmasked *) change (den (Unmasked c')) with (den c') in Hd. cbn [need bound] in Hf. pose proof (need_bound c').
      assert (E : getitem_next is64 (S fuel) (Unmasked c') (it :: t) adv = let* out := getitem_next is64 fuel c' (it :: t) adv in simplify_optiontype (Unmasked out)) by (destruct it; try contradiction; reflexivity).
      rewrite E. cbn [has_regular]. assert (HI : outcome (has_regular c') (getitem_next is64 fuel c' (it :: t) adv) (rows (it :: t) ks vs)).
      { apply IH; auto. cbn [length]. lia. }
      destruct (getitem_next is64 fuel c' (it :: t) adv) as [out|e|]; cbn [bind outcome] in *; auto. destruct HI as (ws & Hr & Ho).
      destruct (simplify_den (Unmasked out) ws Ho eq_refl) as (c2 & -> & H2 & _). exists ws. split; assumption.
    + (* Record *) destruct Hfs as [-> Hfs]. cbn [need bound pred] in Hf. cbn [has_regular].
      assert (E : getitem_next is64 (S fuel) (Record keys len cs) [it] adv = let* contents := mapres (fun x => getitem_next is64 fuel x [it] adv) cs in getitem_next is64 fuel (Record keys (minlength contents) contents) [] adv) by (destruct it; try contradiction; reflexivity).
      rewrite E. apply (record_case is64 n m fuel IH keys len cs); auto.
      * intros x Hx. pose proof (maxl_In _ _ (in_map bound _ _ Hx)). cbn [length] in Hf. lia.
      * cbn [length] in Hf. lia.
  - (* newaxis *) inversion Hfit; subst; try congruence. rewrite newaxis_eq by assumption. apply newaxis_case. apply IH; auto. lia.
  - (* field *) assert (Ht : t = [] /\ has_field key (form_of c) = true). { inversion Hfit; subst; try congruence; auto. }
    destruct Ht as [-> Hh]. destruct (field_den key c vs Hh Hd) as (c2 & ws & E1 & E2 & E3). cbn [length] in Hf. destruct fuel as [|fuel]; [lia|].
    replace (getitem_next is64 (S (S fuel)) c [SField key] adv) with (Ok c2) by (cbn [getitem_next]; rewrite E1; reflexivity). cbn [outcome]. exists ws. split; [|exact E3].
    unfold rows. cbn [pick]. rewrite <- E2, <- (omap_combine_r ks vs (proj key) Hk). apply omap_ext. intros [k v] _. cbn [fst snd]. destruct (proj key v); reflexivity.
Qed.

(** ** the whole slice *)
Lemma one_row c vs : den c = Some vs -> den (Regular (length_ c) 1 c) = Some [VList vs] /\ length_ (Regular (length_ c) 1 c) = 1.
Proof.
  intros Hd. pose proof (den_length _ _ Hd) as HL. pose proof (zlen_nonneg vs). assert (E : den (Regular (length_ c) 1 c) = Some [VList vs]).
  { apply (regular_den (length_ c) 1 c [vs]).
    - lia.
    - reflexivity.
    - intros l [<-|[]]. lia.
    - cbn [concat]. now rewrite app_nil_r. }
  split; [exact E|]. rewrite (den_length _ _ E). reflexivity.
Qed.
Lemma top_correct c vs : den c = Some vs -> exact c -> short m (VList vs) -> forall fuel items, (S (bound c) + length items <= fuel)%nat -> fits n m false items (FList (form_of c)) ->
  outcome (has_regular c) (getitem_next is64 fuel (Regular (length_ c) 1 c) items None) (rows items [None] [VList vs]).
Proof.
  intros Hd HE Hsh fuel. induction fuel as [|fuel IHf]; intros items Hf Hfit; [lia|]. destruct (one_row c vs Hd) as [Hd1 HL1].
  destruct items as [|it t]; [cbn [getitem_next outcome]; exists [VList vs]; split; [reflexivity|exact Hd1]|]. cbn [length] in Hf.
  destruct (fits_head _ _ _ _ Hfit) as [Hit|[->|(key & ->)]].
  - assert (Hsz : 0 <= length_ c) by (rewrite (den_length _ _ Hd); apply zlen_nonneg).
    assert (Ha : adv_ok n (it :: t) None [None]). { split; [intros _; repeat constructor|right; unfold zlen; cbn; lia]. }
    destruct (list_inv _ _ _ _ Hd1 eq_refl) as (ws & Hdw & Hs & Ev). rewrite Hd in Hdw. injection Hdw as <-. rewrite Ev. rewrite HL1 in Hs, Ev |- *.
    assert (Hsh' : Forall (short m) (map VList (map (seg vs) (regs (length_ c) 1)))). { unfold regs. rewrite <- Ev. constructor; [exact Hsh|constructor]. }
    assert (Hf' : (bound c + length t <= fuel)%nat) by lia. pose proof (getitem_next_correct fuel) as IH.
    destruct it; try contradiction; cbn [getitem_next]; rewrite ?HL1.
    + exact (reg_at_case is64 n m fuel c vs t IH Hf' Hd HE (has_regular c) (length_ c) 1 None [None] _ (fun H => H) (or_intror eq_refl) Z.le_0_1 Hs eq_refl Hfit Ha Hsh').
    + exact (reg_range_case is64 n m Hm fuel c vs t IH Hf' Hd HE (has_regular c) (length_ c) 1 None [None] _ _ _ (fun H => H) Z.le_0_1 Hsz Hs eq_refl Hfit Ha Hsh').
    + exact (reg_array_case is64 n m fuel c vs t IH Hf' Hd HE (has_regular c) (length_ c) 1 None [None] _ _ (fun H => H) (or_intror (conj eq_refl eq_refl)) Z.le_0_1 Hsz Hs eq_refl Hfit Ha Hsh').
  - inversion Hfit; subst; try congruence. rewrite newaxis_eq by discriminate. apply newaxis_case. apply IHf; [lia|assumption].
  - pose proof (getitem_next_correct (S fuel) (Regular (length_ c) 1 c) [SField key] None [None] [VList vs]) as G. assert (t = []) as -> by (inversion Hfit; subst; congruence).
    cbn [getitem_next] in G |- *. inversion Hfit; subst; try congruence. destruct (field_den key (Regular (length_ c) 1 c) [VList vs]) as (c2 & ws & E1 & E2 & E3); [assumption|assumption|]. rewrite E1. cbn [bind].
    destruct fuel as [|fuel]; [lia|]. cbn [getitem_next outcome]. exists ws. split; [|exact E3]. unfold rows. cbn [combine omap fst snd pick] in *. destruct (proj key (VList vs)); exact E2.
Qed.
Lemma getitem_correct c vs items fuel : den c = Some vs -> exact c -> short m (VList vs) -> (S (bound c) + length items <= fuel)%nat -> fits n m false items (FList (form_of c)) ->
  match getitem is64 fuel c items with
  | Ok it => exists v, item_den it = Some v /\ pick items None (VList vs) = Some v
  | Err _ => pick items None (VList vs) = None \/ has_regular c = true
  | UB => False
  end.
Proof.
  intros Hd HE Hsh Hf Hfit. unfold getitem. destruct (one_row c vs Hd) as [Hd1 HL1]. rewrite (mkRegular_den _ _ _ _ Hd1). cbn [bind].
  pose proof (top_correct c vs Hd HE Hsh fuel items Hf Hfit) as H. unfold rows in H. cbn [combine omap fst snd] in H.
  destruct (getitem_next is64 fuel (Regular (length_ c) 1 c) items None) as [out|e|]; cbn [bind outcome] in *.
  - destruct H as (ws & E & Hw). destruct (pick items None (VList vs)) as [v|]; [|discriminate]. injection E as <-. rewrite (den_length _ _ Hw). cbn [zlen length]. change (zlen [v] =? 0) with false. cbn match.
    destruct (at_den out [v] 0 v Hw eq_refl) as (it & -> & Hit). exists v. split; [exact Hit|reflexivity].
  - destruct H as [H|H]; [left|right; exact H]. destruct (pick items None (VList vs)); [discriminate|reflexivity].
  - exact H.
Qed.
End Whole.
