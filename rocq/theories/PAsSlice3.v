(** Arrays as slices: the slice an array becomes. *)
From Verif Require Import Base BaseLemmas LoopLemmas OmapLemmas Content KCore Core KRange KConvert Convert KOption Option KAxis Axis KCombinations Combinations KGetitem
  SpecArray SpecForm SpecSlice SpecOption PCore PRange PCarry PList PConvert POption PForm PAxis PNat PFlatten Getitem SpecGetitem PGetitem1 KAsSlice AsSlice SpecAsSlice PAsSlice1 PAsSlice2.
Local Open Scope list_scope.
Local Open Scope Z_scope.

(** ** tidy arrays stay tidy *)
Lemma range_tidy c : forall a b c', getitem_range_nowrap c a b = Ok c' -> tidy c -> tidy c'.
Proof.
  induction c using content_ind'; intros a' b' c' H0 HT; simpl in H0; binv H0; try (mkinv H0; subst; exact HT); try contradiction HT.
  - mkinv H0; subst. destruct HT as [H1 H2]. split; [|exact H2]. eapply iview_sub; eassumption.
  - mkinv H0; subst. simpl. eapply IHc; eassumption.
  - mkinv H0; subst. simpl. eapply IHc; eassumption.
  - injection H0 as <-. simpl. eapply IHc; eassumption.
Qed.
Lemma contiguous_tidy c cry kk c' : carry_contiguous c cry kk = Ok c' -> tidy c -> (kk tt = Ok c' -> tidy c') -> tidy c'.
Proof.
  unfold carry_contiguous; intros H HT Hk. binv H.
  - injection H as <-. exact HT.
  - eapply range_tidy; eassumption.
  - auto.
Qed.
Lemma carry_tidy c : forall cry lz c', carry c cry lz = Ok c' -> tidy c -> tidy c'.
Proof.
  induction c using content_ind'; intros cry lz c' H0 HT; try contradiction HT; cbn [carry] in H0;
    try (eapply contiguous_tidy; [exact H0|exact HT|clear H0; intros H0; cbv beta in H0]); binv H0; try (mkinv H0; subst; exact HT).
  - mkinv H0; subst. exact (proj2 HT).
  - mkinv H0; subst. simpl. eapply IHc; eassumption.
  - eapply (contiguous_tidy (ByteMasked a vw c)); [exact H0|exact HT|clear H0; intros H0; cbv beta in H0]. binv H0. mkinv H0; subst. simpl. eapply IHc; eassumption.
  - injection H0 as <-. simpl. eapply IHc; eassumption.
Qed.
Lemma tolistoffset_tidy w saz c o c' : toListOffsetArray64 w saz c = Ok (ListOffset o c') -> tidy c -> tidy c'.
Proof.
  unfold toListOffsetArray64. destruct c; intros H HT; try (simpl in H; discriminate); try contradiction HT; binv H.
  - simpl in H. unfold starts_at_0 in H. binv H. mkinv H. injection H as -> ->. eapply carry_tidy; eassumption.
  - injection H as -> ->. exact (proj2 HT).
  - simpl in H. unfold starts_at_0 in H. binv H. mkinv H. injection H as -> ->. eapply carry_tidy; [eassumption|exact (proj2 HT)].
Qed.
Lemma toindexedoption_tidy c i c' : toIndexedOptionArray64 c = Ok (IndexedOption i c') -> tidy c -> tidy c'.
Proof. destruct c; simpl; intros H HT; try discriminate; binv H; mkinv H; subst; try injection H as -> ->; exact HT. Qed.
Lemma project_tidy i c c' : project (Indexed i c) = Ok c' -> tidy c -> tidy c'.
Proof. simpl; intros H HT; binv H. eapply carry_tidy; eassumption. Qed.

(** ** options *)
Definition ogetv {A} (f : A -> value) (o : option A) : value := match o with Some i => f i | None => VNone end.
Lemma ranks_oranks {A} (f : A -> value) (p : Z -> bool) xs : forall (pre ws : list A) vs, zlen ws = zlen (filter p xs) ->
  omap (optget (map f (pre ++ ws))) (ranks p (zlen pre) xs) = Some vs -> exists os, vs = map (ogetv f) os /\ keep os = ws /\ ranks p (zlen pre) xs = oranks (zlen pre) os.
Proof.
  induction xs as [|x xs IH]; intros pre ws vs Hz Ho.
  - cbn [filter ranks omap] in *. injection Ho as <-. exists []. apply zlen_0 in Hz. subst. repeat split.
  - cbn [filter ranks] in *. destruct (p x).
    + rewrite zlen_cons in Hz. pose proof (zlen_nonneg (filter p xs)). destruct ws as [|w ws]; [change (zlen (@nil A)) with 0 in Hz; lia|]. rewrite zlen_cons in Hz. cbn [omap] in Ho. unfold optget at 1 in Ho.
      destruct (Z.ltb_spec (zlen pre) 0); [pose proof (zlen_nonneg pre); lia|]. rewrite map_app in Ho at 1. cbn [map] in Ho. rewrite <- (zlen_map f pre) in Ho at 1. rewrite nthZ_mid in Ho.
      destruct (omap (optget (map f (pre ++ w :: ws))) (ranks p (zlen pre + 1) xs)) as [vs'|] eqn:E; [|discriminate]. injection Ho as <-.
      destruct (IH (pre ++ [w]) ws vs') as (os & -> & K & R); [lia|rewrite <- app_assoc, zlen_app; exact E|]. rewrite zlen_app in R. change (zlen [w]) with 1 in R.
      exists (Some w :: os). cbn [map ogetv keep oranks]. rewrite K, R. repeat split.
    + cbn [omap] in Ho. change (optget (map f (pre ++ ws)) (-1)) with (Some VNone) in Ho. cbn match in Ho. destruct (omap (optget (map f (pre ++ ws))) (ranks p (zlen pre) xs)) as [vs'|] eqn:E; [|discriminate]. injection Ho as <-.
      destruct (IH pre ws vs' Hz E) as (os & -> & K & R). exists (None :: os). cbn [map ogetv keep oranks]. rewrite R. repeat split. exact K.
Qed.
Lemma ranked_oranks {A} (f : A -> value) oi (ws : list A) vs : ranked oi (zlen ws) -> omap (optget (map f ws)) oi = Some vs -> exists os, vs = map (ogetv f) os /\ keep os = ws /\ oi = oranks 0 os.
Proof. intros (p & xs & -> & Hz) Ho. exact (ranks_oranks f p xs [] ws vs Hz Ho). Qed.

(** ** what a slice stands for *)
Inductive means : nat -> arrayslice -> list value -> Prop :=
| means_array index b : means O (AArray index b) (map VInt index)
| means_missing os m b : means O (AMissing (oranks 0 os) m (AArray (keep os) b)) (map (ogetv VInt) os)
| means_list d a pss : means d a (concat pss) -> means (S d) (AJagged (offsets_of (map zlen pss)) a) (map VList pss).

Definition place (m : value) : value := match m with VList l => VList (as_positions l) | _ => m end.
Definition nonbool (m : value) : Prop := match m with VBool _ => False | _ => True end.
Definition quiet (a : arrayslice) : Prop := match a with AArray _ true | AMissing _ _ (AArray _ true) => False | _ => True end.

Lemma places_list k l : places k (VList l) = [VList (as_positions l)].
Proof.
  reflexivity.
Qed.
Lemma positions_nonbool l : forall k, Forall nonbool l -> positions_from k l = map place l.
Proof.
  induction l as [|x t IH]; intros k H; cbn [positions_from map]; [reflexivity|]. inversion H; subst. rewrite IH by assumption. destruct x; cbn [place]; try contradiction; try reflexivity; rewrite places_list; reflexivity.
Qed.
Lemma as_positions_nonbool l : Forall nonbool l -> as_positions l = map place l.
Proof. apply positions_nonbool. Qed.
Lemma positions_bools bs : forall k, positions_from k (map VBool bs) = map VInt (trues k bs).
Proof. induction bs as [|b t IH]; intros k; cbn [map positions_from trues places]; [reflexivity|]. rewrite IH. destruct b; reflexivity. Qed.
Fixpoint opos (k : Z) (obs : list (option bool)) : list (option Z) :=
  match obs with [] => [] | None :: t => None :: opos (k + 1) t | Some b :: t => (if b then [Some k] else []) ++ opos (k + 1) t end.
Lemma positions_obools obs : forall k, positions_from k (map (ogetv VBool) obs) = map (ogetv VInt) (opos k obs).
Proof. induction obs as [|[[|]|] t IH]; intros k; cbn [map positions_from opos ogetv places app]; [reflexivity| | |]; rewrite IH; reflexivity. Qed.
Lemma keep_opos obs : forall k, keep (opos k obs) = otrues k obs.
Proof. induction obs as [|[[|]|] t IH]; intros k; cbn [opos otrues keep app]; [reflexivity| | |]; rewrite IH; reflexivity. Qed.
Lemma oranks_opos obs : forall k j, oranks j (opos k obs) = oidx j obs.
Proof. induction obs as [|[[|]|] t IH]; intros k j; cbn [opos oidx oranks app]; [reflexivity| | |]; rewrite IH; reflexivity. Qed.
Lemma oidx_rebase obs : forall j, oidx j obs = oranks j (opos 0 obs). Proof. intros j. symmetry. apply oranks_opos. Qed.

(** the three kinds of slices: booleans, booleans with missing values, others *)
Definition says (d : nat) (a : arrayslice) (ms : list value) : Prop :=
  (d = O /\ exists bs, a = AArray (trues 0 bs) true /\ ms = map VBool bs) \/
  (d = O /\ exists obs, a = AMissing (oidx 0 obs) (omask obs) (AArray (otrues 0 obs) true) /\ ms = map (ogetv VBool) obs) \/
  (quiet a /\ Forall nonbool ms /\ means d a (map place ms)).

Lemma says_means d a ms : says d a ms -> means d a (as_positions ms).
Proof.
  intros [(-> & bs & -> & ->)|[(-> & obs & -> & ->)|(Q & N & M)]].
  - unfold as_positions. rewrite positions_bools. constructor.
  - unfold as_positions. rewrite positions_obools, oidx_rebase, <- (keep_opos obs 0). constructor.
  - rewrite as_positions_nonbool by assumption. exact M.
Qed.

Lemma bools_concat ls bs : concat ls = map VBool bs -> exists bss, ls = map (map VBool) bss /\ bs = concat bss.
Proof.
  revert bs. induction ls as [|l ls IH]; intros bs E; cbn [concat] in E.
  - destruct bs; [|discriminate]. exists []. split; reflexivity.
  - symmetry in E. apply map_eq_app in E as (b1 & b2 & -> & E1 & E2). destruct (IH b2 (eq_sym E2)) as (bss & -> & ->). exists (b1 :: bss). cbn [map concat]. rewrite E1. split; reflexivity.
Qed.
Lemma obools_concat ls obs : concat ls = map (ogetv VBool) obs -> exists obss, ls = map (map (ogetv VBool)) obss /\ obs = concat obss.
Proof.
  revert obs. induction ls as [|l ls IH]; intros bs E; cbn [concat] in E.
  - destruct bs; [|discriminate]. exists []. split; reflexivity.
  - symmetry in E. apply map_eq_app in E as (b1 & b2 & -> & E1 & E2). destruct (IH b2 (eq_sym E2)) as (bss & -> & ->). exists (b1 :: bss). cbn [map concat]. rewrite E1. split; reflexivity.
Qed.
Lemma concat_map_VInt (iss : list (list Z)) : concat (map (map VInt) iss) = map VInt (concat iss). Proof. rewrite concat_map. reflexivity. Qed.

Lemma jagged_of_says d a ls : says d a (concat ls) -> exists a', jagged_of (offsets_of (map zlen ls)) a = Ok a' /\ says (S d) a' (map VList ls).
Proof.
  assert (NB : Forall nonbool (map VList ls)) by (apply Forall_map, Forall_forall; intros; exact I).
  intros [(-> & bs & -> & E)|[(-> & obs & -> & E)|(Q & N & M)]].
  - destruct (bools_concat _ _ E) as (bss & -> & ->). cbn [jagged_of]. rewrite map_map. rewrite (map_ext (fun x => zlen (map VBool x)) zlen) by (intros; apply zlen_map).
    pose proof (adjust_offsets_spec bss) as A. cbv zeta in A. rewrite A. cbn [bind]. eexists. split; [reflexivity|]. right. right. split; [exact I|]. split; [exact NB|].
    rewrite !map_map. rewrite (map_ext (fun x => place (VList (map VBool x))) (fun x => VList (map VInt (trues 0 x)))) by (intros x; cbn [place]; unfold as_positions; rewrite positions_bools; reflexivity).
    rewrite <- (map_map (fun x => map VInt (trues 0 x)) VList). replace (map ntrues bss) with (map zlen (map (fun x => map VInt (trues 0 x)) bss)) by (rewrite map_map; apply map_ext; intros x; apply zlen_map).
    constructor. rewrite <- (map_map (trues 0) (map VInt)), concat_map_VInt. constructor.
  - destruct (obools_concat _ _ E) as (obss & -> & ->). cbn [jagged_of]. rewrite map_map. rewrite (map_ext (fun x => zlen (map (ogetv VBool) x)) zlen) by (intros; apply zlen_map).
    pose proof (adjust_offsets_index_spec obss) as A. cbv zeta in A. rewrite A. cbn [bind]. eexists. split; [reflexivity|]. right. right. split; [exact I|]. split; [exact NB|].
    rewrite !map_map. rewrite (map_ext (fun x => place (VList (map (ogetv VBool) x))) (fun x => VList (map (ogetv VInt) (opos 0 x)))) by (intros x; cbn [place]; unfold as_positions; rewrite positions_obools; reflexivity).
    rewrite <- (map_map (fun x => map (ogetv VInt) (opos 0 x)) VList). replace (map nkept obss) with (map zlen (map (fun x => map (ogetv VInt) (opos 0 x)) obss)) by (rewrite map_map; apply map_ext; intros x; rewrite zlen_map; unfold nkept; rewrite oidx_rebase, zlen_oranks; reflexivity).
    constructor. rewrite <- (map_map (opos 0) (map (ogetv VInt))), <- concat_map.
    assert (K : concat (map (otrues 0) obss) = keep (concat (map (opos 0) obss))) by (rewrite keep_concat, map_map; f_equal; apply map_ext; intros x; rewrite keep_opos; reflexivity).
    assert (R : forall j, oidx j (concat obss) = oranks j (concat (map (opos 0) obss))).
    { clear. induction obss as [|x t IH]; intros j; [reflexivity|]. cbn [concat map]. rewrite oidx_app, oranks_app, oidx_rebase, IH. do 2 f_equal. rewrite keep_opos, zlen_otrues. reflexivity. }
    rewrite K, (R 0). constructor.
  - exists (AJagged (offsets_of (map zlen ls)) a). split; [destruct a as [i [|]| |i m [i' [|]| | |]|]; try contradiction Q; reflexivity|].
    right. right. split; [exact I|]. split; [exact NB|]. rewrite map_map. rewrite (map_ext_in _ (fun x => VList (map place x))).
    + rewrite <- (map_map (map place) VList). replace (map zlen ls) with (map zlen (map (map place) ls)) by (rewrite map_map; apply map_ext; intros x; apply zlen_map). constructor. rewrite <- concat_map. exact M.
    + intros x Hx. cbn [place]. rewrite as_positions_nonbool; [reflexivity|]. apply Forall_forall. intros y Hy. rewrite Forall_forall in N. apply N. apply in_concat. eauto.
Qed.

(** missing values above integers or booleans *)
Lemma missing_of_says a ws oi ms : says O a ws -> (forall o m c, a <> AMissing o m c) -> ranked oi (zlen ws) -> omap (optget ws) oi = Some ms ->
  exists a', missing_of oi (zlen oi - zlen ws) a = Ok a' /\ says O a' ms.
Proof.
  intros HS NM R HO. destruct HS as [(_ & bs & -> & ->)|[(_ & obs & -> & ->)|(Q & N & M)]].
  - rewrite zlen_map in R. destruct (ranked_oranks VBool _ _ _ R HO) as (obs & -> & <- & ->). cbn [missing_of]. rewrite zlen_map.
    rewrite (adjust_outindex_spec obs) by (rewrite zlen_oranks; pose proof (zlen_keep obs); unfold ntrues; lia). cbn [bind]. eexists. split; [reflexivity|]. right. left. split; [reflexivity|]. exists obs. split; reflexivity.
  - exfalso. eapply NM. reflexivity.
  - remember O as d eqn:Hd. remember (map place ws) as js eqn:Hj. destruct M as [index b|os m b|d' a pss M]; [|exfalso; eapply NM; reflexivity|discriminate Hd]; clear Hd.
    assert (W : ws = map VInt index).
    { clear - Hj. revert index Hj. induction ws as [|w ws IH]; intros [|i index] H; try discriminate; [reflexivity|]. injection H as H1 H2. cbn [map]. f_equal; [destruct w; try discriminate; exact (eq_sym H1)|apply IH; exact H2]. }
    subst ws. rewrite zlen_map in R. destruct (ranked_oranks VInt _ _ _ R HO) as (os & -> & <- & ->). destruct b; [contradiction Q|]. cbn [missing_of]. eexists. split; [reflexivity|]. right. right. split; [exact I|].
    split; [apply Forall_map, Forall_forall; intros [x|] _; exact I|]. try subst d; rewrite map_map. rewrite (map_ext (fun x => place (ogetv VInt x)) (ogetv VInt)) by (intros [x|]; reflexivity). constructor.
Qed.

(** lists *)
Lemma offsets_cut offsets c' ms : den (ListOffset offsets c') = Some ms -> Forall (fun o => 0 <= o <= length_ c') offsets ->
  exists ls start stop next, ms = map VList ls /\ rd offsets 0 = Ok start /\ rd offsets (zlen offsets - 1) = Ok stop /\ getitem_range_nowrap c' start stop = Ok next /\ den next = Some (concat ls) /\
    (if start =? 0 then Ok offsets else awkward_ListOffsetArray_compact_offsets (alloc (zlen offsets)) offsets (zlen offsets - 1)) = Ok (offsets_of (map zlen ls)).
Proof.
  intros Hd Hf. destruct (list_inv _ _ _ _ Hd eq_refl) as (ws & Hc & Hok & E). pose proof (den_length _ _ Hc) as Hl. rewrite Hl in Hf.
  cbn [den] in Hd. rewrite Hc in Hd. destruct (Z.leb_spec 1 (zlen offsets)) as [L|]; [|discriminate]. destruct (offsets_diffs offsets L) as (a & Ha & Eo). set (lens := map diff (pairs offsets)) in *.
  assert (Zl : zlen offsets = zlen lens + 1) by (rewrite Eo; apply zlen_offsets_from).
  assert (Hlast : nthZ offsets (zlen offsets - 1) = Some (a + sumZ lens)) by (rewrite Zl; replace (zlen lens + 1 - 1) with (zlen lens) by lia; rewrite Eo at 1; apply nthZ_offsets_last).
  assert (Nn : nonneg_counts lens).
  { apply Forall_forall. intros x Hx. unfold lens in Hx. apply in_map_iff in Hx as (ab & <- & Hab). rewrite forallb_forall in Hok. pose proof (Hok _ Hab) as Ho. rewrite <- (zlen_seg ws ab Ho). apply zlen_nonneg. }
  assert (Sn : 0 <= sumZ lens) by (clear - Nn; induction Nn; [cbv; discriminate|]; change (sumZ (x :: l)) with (x + sumZ l); lia).
  rewrite Forall_forall in Hf. pose proof (Hf _ (nthZ_In _ _ _ Ha)) as B1. pose proof (Hf _ (nthZ_In _ _ _ Hlast)) as B2.
  destruct (range_den c' ws a (a + sumZ lens) Hc ltac:(lia) ltac:(lia)) as (next & Hr & Hn).
  exists (map (seg ws) (pairs offsets)), a, (a + sumZ lens), next. split; [exact E|]. split; [apply rd_Ok, Ha|]. split; [apply rd_Ok, Hlast|]. split; [exact Hr|].
  assert (Hz : map zlen (map (seg ws) (pairs offsets)) = lens) by (rewrite map_zlen_seg by assumption; reflexivity). split.
  - rewrite Hn. f_equal. rewrite Eo at 1. symmetry. apply concat_segs_offsets; [lia|exact Nn|lia].
  - rewrite Hz. destruct (Z.eqb_spec a 0) as [->|]; [rewrite Eo at 1; reflexivity|]. apply listoffset_compact, L.
Qed.

Section Main.
Variable is64 : content -> bool.

Lemma js_inv o f : jagged_slice o f -> match f with FUnknown => o = false | FNum DInt => o = false | FNum DBool => o = false | FList g => jagged_slice o g | FOption g => o = true /\ scalars g | _ => False end.
Proof. intros H. inversion H as [g S|g S|o' g J]; subst; auto. destruct S as [->|[->| ->]]; reflexivity. Qed.

Lemma asslice_scalars fuel : forall c ms, (bound c <= fuel)%nat -> den c = Some ms -> tidy c -> scalars (form_of c) -> exists a, asslice is64 fuel c = Ok a /\ says O a ms /\ (forall o m x, a <> AMissing o m x).
Proof.
  induction fuel as [|fuel IH]; intros c ms Hb Hd HT HS; [pose proof (bound_pos c); lia|].
  destruct c; cbn [form_of] in HS; try contradiction HT; try (exfalso; destruct HS as [H|[H|H]]; discriminate H).
  - exists (AArray [] false). cbn [den] in Hd. injection Hd as <-. repeat split; [|discriminate]. right. right. split; [exact I|]. split; [constructor|apply (means_array [] false)].
  - destruct dt; [| |exfalso; destruct HS as [H|[H|H]]; discriminate H].
    + pose proof (mask_spec data) as M. eexists. split; [exact M|]. split; [|discriminate]. left. split; [reflexivity|]. eexists. split; [reflexivity|]. cbn [den] in Hd. injection Hd as <-. rewrite map_map. reflexivity.
    + cbn [den] in Hd. cbn [asslice]. eexists. split; [reflexivity|]. split; [|discriminate]. injection Hd as <-. right. right. split; [exact I|]. split; [apply Forall_map, Forall_forall; intros; exact I|]. rewrite map_map. apply means_array.
  - destruct (project_indexed _ _ _ Hd) as (p & Hp & Hpd & Hf & Hbp). cbn [asslice]. rewrite Hp. cbn [bind]. apply IH.
    + rewrite Hbp. cbn [bound] in Hb. destruct c; try lia. contradiction HT.
    + exact Hpd.
    + eapply project_tidy; [exact Hp|exact HT].
    + rewrite Hf. exact HS.
Qed.

Lemma option_next index c ws ms : den c = Some ws -> den (IndexedOption index c) = Some ms ->
  exists numnull nc oi ws', awkward_IndexedArray_numnull index (zlen index) = Ok numnull /\
    awkward_IndexedArray_getitem_nextcarry_outindex_mask (alloc (zlen index - numnull)) (alloc (zlen index)) index (zlen index) (length_ c) = Ok (nc, oi) /\
    omap (nthZ ws) nc = Some ws' /\ omap (optget ws') oi = Some ms /\ ranked oi (zlen ws') /\ numnull = zlen oi - zlen ws'.
Proof.
  intros Hc Hd. destruct (indexedoption_nextcarry' _ _ _ _ Hc Hd) as (nc & oi & ws' & E & A & B & R). unfold IndexedOption_nextcarry_outindex in E. apply bind_Ok in E as (numnull & En & E).
  exists numnull, nc, oi, ws'. split; [exact En|]. split; [exact E|]. split; [exact A|]. split; [exact B|]. pose proof (omap_zlen _ _ _ A) as Zw. rewrite Zw. split; [exact R|].
  unfold awkward_IndexedArray_numnull in En. rewrite (for_count index (fun i => i <? 0)) in En; [|reflexivity|intros i x k Hx; apply rd_Ok in Hx; rewrite Hx; cbn [bind]; destruct (x <? 0); reflexivity].
  injection En as <-. pose proof (omap_zlen _ _ _ B) as Zb. cbn [den] in Hd. rewrite Hc in Hd. pose proof (omap_zlen _ _ _ Hd) as Zi.
  destruct R as (p & xs & -> & Hp). rewrite zlen_ranks in *.
  unfold awkward_IndexedArray_getitem_nextcarry_outindex in E.
  pose proof (filter_negb (fun i => 0 <=? i) index) as Hn. rewrite (filter_ext (fun i => negb (0 <=? i)) (fun i => i <? 0)) in Hn by (intros i; rewrite Z.ltb_antisym; reflexivity).
  rewrite (for_nextcarry index (fun i => 0 <=? i) (fun i => i)) in E.
  - cbn [bind] in E. injection E as E1 E2. rewrite <- E1, zlen_map in Hp. pose proof (f_equal zlen E2) as E3. rewrite !zlen_ranks in E3. rewrite <- E1, zlen_map. lia.
  - reflexivity.
  - pose proof (zlen_nonneg (filter (fun i => 0 <=? i) index)). rewrite zlen_alloc; lia.
  - pose proof (zlen_nonneg index). rewrite zlen_alloc; lia.
  - intros i x k t o Hx. assert (Hr : x < zlen ws). { destruct (omap_nth _ _ _ _ _ Hd Hx) as (_ & v & Hv). destruct (Z.ltb_spec x 0); [pose proof (zlen_nonneg ws); lia|]. apply nthZ_Some in Hv. lia. }
    apply rd_Ok in Hx. rewrite Hx. cbn [bind]. rewrite (den_length _ _ Hc). destruct (Z.leb_spec (zlen ws) x); [lia|]. destruct (Z.ltb_spec x 0), (Z.leb_spec 0 x); try lia; reflexivity.
Qed.

(** missing values above scalars *)
Lemma asslice_option fuel : forall c g ms, (bound c <= fuel)%nat -> den c = Some ms -> tidy c -> form_of c = FOption g -> scalars g -> exists a, asslice is64 fuel c = Ok a /\ says O a ms.
Proof.
  induction fuel as [|fuel IH]; intros c g ms Hb Hd HT HF HS; [pose proof (bound_pos c); lia|].
  assert (K : forall index c', form_of c' = g -> (bound c' <= fuel)%nat -> tidy c' -> den (IndexedOption index c') = Some ms ->
    exists a, (let* numnull := awkward_IndexedArray_numnull index (zlen index) in
    let* p := awkward_IndexedArray_getitem_nextcarry_outindex_mask (alloc (zlen index - numnull)) (alloc (zlen index)) index (zlen index) (length_ c') in
    let '(nextcarry, outindex) := p in
    let* next := carry c' nextcarry false in
    let* slicecontent := asslice is64 fuel next in
    missing_of outindex numnull slicecontent) = Ok a /\ says O a ms).
  { intros index c' Ef Hb' HT' Hd'. destruct (den c') as [ws|] eqn:Hc; [|cbn [den] in Hd'; rewrite Hc in Hd'; discriminate].
    destruct (option_next _ _ _ _ Hc Hd') as (numnull & nc & oi & ws' & -> & E & A & B & R & ->). cbn [bind]. rewrite E. cbn [bind].
    destruct (carry_den c' ws nc ws' false Hc A) as (next & En & Hn). rewrite En. cbn [bind].
    destruct (carry_same _ _ _ _ En) as [Fn Bn].
    destruct (asslice_scalars fuel next ws') as (a & Ea & Sa & Na); [rewrite Bn; exact Hb'|exact Hn|eapply carry_tidy; eassumption|rewrite Fn, Ef; exact HS|]. rewrite Ea. cbn [bind].
    exact (missing_of_says a ws' oi ms Sa Na R B). }
  destruct c; cbn [form_of] in HF; try discriminate HF; try contradiction HT.
  - destruct (project_indexed _ _ _ Hd) as (p & Hp & Hpd & Hf & Hbp). cbn [asslice]. rewrite Hp. cbn [bind]. apply (IH p g).
    + rewrite Hbp. cbn [bound] in Hb. destruct c; try lia. contradiction HT.
    + exact Hpd.
    + eapply project_tidy; [exact Hp|exact HT].
    + rewrite Hf. exact HF.
    + exact HS.
  - injection HF as HF. apply K; auto. cbn [bound] in Hb. lia.
  - injection HF as HF. destruct (to_indexed_option _ _ Hd) as (index & c' & E & Hd' & _); [left; eauto|]. cbn [asslice]. rewrite E. cbn [bind]. destruct (toindexedoption_same _ _ E) as (i' & c'' & Eq & F & B). injection Eq as <- <-. cbn [form_of bound] in *. injection F as F. apply K; auto; [congruence|lia|eapply toindexedoption_tidy; eassumption].
  - injection HF as HF. destruct (to_indexed_option _ _ Hd) as (index & c' & E & Hd' & _); [right; left; do 5 eexists; reflexivity|]. cbn [asslice]. rewrite E. cbn [bind]. destruct (toindexedoption_same _ _ E) as (i' & c'' & Eq & F & B). injection Eq as <- <-. cbn [form_of bound] in *. injection F as F. apply K; auto; [congruence|lia|eapply toindexedoption_tidy; eassumption].
  - injection HF as HF. cbn [asslice]. destruct (asslice_scalars fuel c ms) as (a & Ea & Sa & Na); [cbn [bound] in Hb; lia|exact Hd|exact HT|rewrite HF; exact HS|]. exists a. auto.
Qed.

(** lists *)
Lemma levels_scalars f : scalars f -> levels f = O. Proof. intros [->|[->| ->]]; reflexivity. Qed.
Lemma asslice_says fuel : forall c o ms, (bound c <= fuel)%nat -> den c = Some ms -> tidy c -> jagged_slice o (form_of c) -> exists a, asslice is64 fuel c = Ok a /\ says (levels (form_of c)) a ms.
Proof.
  induction fuel as [|fuel IH]; intros c o ms Hb Hd HT HJ; [pose proof (bound_pos c); lia|].
  assert (SC : forall f, form_of c = f -> jagged_slice o f -> (forall g, f <> FList g) -> exists a, asslice is64 (S fuel) c = Ok a /\ says (levels f) a ms).
  { intros f Ef Hf Nl. inversion Hf as [g HS|g HS|o' g J]; clear Hf.
    - destruct (asslice_scalars (S fuel) c ms Hb Hd HT) as (a & Ea & Sa & _); [rewrite Ef; exact HS|]. exists a. rewrite (levels_scalars _ HS). auto.
    - destruct (asslice_option (S fuel) c g ms Hb Hd HT) as (a & Ea & Sa); [congruence|exact HS|]. exists a. cbn [levels]. rewrite (levels_scalars _ HS). auto.
    - exfalso. eapply Nl. symmetry. eassumption. }
  assert (K : forall offsets c' g, form_of c' = g -> (bound c' <= fuel)%nat -> tidy c' -> Forall (fun o => 0 <= o <= length_ c') offsets -> jagged_slice o g -> den (ListOffset offsets c') = Some ms ->
    exists a, (let* start := rd offsets 0 in
    let* stop := rd offsets (zlen offsets - 1) in
    let* next := getitem_range_nowrap c' start stop in
    let* offsets' := if start =? 0 then Ok offsets else awkward_ListOffsetArray_compact_offsets (alloc (zlen offsets)) offsets (zlen offsets - 1) in
    let* slicecontent := asslice is64 fuel next in
    jagged_of offsets' slicecontent) = Ok a /\ says (S (levels g)) a ms).
  { intros offsets c' g Ef Hb' HT' HFo HJ' Hd'. destruct (offsets_cut _ _ _ Hd' HFo) as (ls & start & stop & next & -> & -> & E1 & E2 & Hn & E3). cbn [bind]. rewrite E1. cbn [bind]. rewrite E2. cbn [bind]. rewrite E3. cbn [bind].
    destruct (range_same _ _ _ _ E2) as [Fn Bn]. destruct (IH next o (concat ls)) as (a & Ea & Sa); [rewrite Bn; exact Hb'|exact Hn|eapply range_tidy; eassumption|rewrite Fn, Ef; exact HJ'|].
    rewrite Ea. cbn [bind]. rewrite Fn, Ef in Sa. exact (jagged_of_says _ _ _ Sa). }
  assert (K2 : forall w g, form_of c = FList g -> list_view c <> None -> jagged_slice o g -> exists a, (let* lo := toListOffsetArray64 w true c in
      match lo with ListOffset offsets c' => (let* start := rd offsets 0 in
    let* stop := rd offsets (zlen offsets - 1) in
    let* next := getitem_range_nowrap c' start stop in
    let* offsets' := if start =? 0 then Ok offsets else awkward_ListOffsetArray_compact_offsets (alloc (zlen offsets)) offsets (zlen offsets - 1) in
    let* slicecontent := asslice is64 fuel next in
    jagged_of offsets' slicecontent) | _ => UB end) = Ok a /\ says (S (levels g)) a ms).
  { intros w g Ef HV HJ'. destruct (list_view c) as [[l c']|] eqn:V; [|congruence]. destruct (to_listoffset w true c l c' ms Hd V) as (offs & c'' & E & Hd' & H0). rewrite E. cbn [bind].
    destruct (tolistoffset_same _ _ _ _ E) as (o' & x & Eq & F & B). injection Eq as <- <-. cbn [form_of bound] in F, B. apply K; auto.
    - congruence.
    - lia.
    - eapply tolistoffset_tidy; eassumption.
    - destruct (list_inv _ _ _ _ Hd' eq_refl) as (ws & Hc & Hok & Em). rewrite Em in Hd'. destruct (listoffset0_inv _ _ _ Hd' (H0 eq_refl)) as (Eo & tail & Hc'). rewrite Eo. rewrite (den_length _ _ Hc'). apply Forall_forall. intros x Hx. apply In_nthZ in Hx as (i & Hi).
      set (lens := map zlen _) in *. pose proof (nthZ_Some _ _ _ Hi) as Hr. rewrite zlen_offsets_of in Hr. unfold offsets_of in Hi. rewrite nthZ_offsets_from in Hi by lia. injection Hi as <-.
      assert (Nn : nonneg_counts lens) by (unfold lens; apply Forall_map, Forall_forall; intros; apply zlen_nonneg).
      assert (G : forall i l, 0 <= i <= zlen l -> nonneg_counts l -> 0 <= sumZ (slice 0 i l) <= sumZ l).
      { clear. intros i l Hi Hn. assert (N : forall l, nonneg_counts l -> 0 <= sumZ l) by (clear; intros l Hn; induction Hn; [cbv; discriminate|]; change (sumZ (x :: l)) with (x + sumZ l); lia).
        assert (E : sumZ l = sumZ (slice 0 i l) + sumZ (slice i (zlen l) l)) by (rewrite <- sumZ_app, <- slice_split, slice_full by lia; reflexivity).
        assert (A : forall a b, nonneg_counts (slice a b l)). { intros a b. apply Forall_forall. intros x Hx. unfold nonneg_counts in Hn. rewrite Forall_forall in Hn. apply Hn. eapply In_slice; exact Hx. }
        pose proof (N _ (A 0 i)). pose proof (N _ (A i (zlen l))). lia. }
      pose proof (G i lens ltac:(lia) Nn). assert (Sl : sumZ lens = zlen (concat (map (seg ws) (pairs offs)))) by (unfold lens; apply sumZ_zlen_concat). rewrite zlen_app. pose proof (zlen_nonneg tail). lia. }
  destruct c; try contradiction HT; try (apply SC; [reflexivity|exact HJ|discriminate]).
  - cbn [form_of levels] in *. pose proof (js_inv _ _ HJ) as HJ'. apply (K2 (is64 (ListA starts stops c)) (form_of c)); [reflexivity|discriminate|exact HJ'].
  - cbn [form_of levels] in *. pose proof (js_inv _ _ HJ) as HJ'. cbn [asslice]. destruct (is64 (ListOffset offsets c)).
    + apply K; auto; [cbn [bound] in Hb; lia|exact (proj2 HT)|exact (proj1 HT)].
    + apply (K2 false (form_of c)); [reflexivity|discriminate|exact HJ'].
  - destruct (project_indexed _ _ _ Hd) as (p & Hp & Hpd & Hf & Hbp). cbn [asslice]. rewrite Hp. cbn [bind]. cbn [form_of] in *. rewrite <- Hf. apply (IH p o).
    + rewrite Hbp. cbn [bound] in Hb. destruct c; try lia. contradiction HT.
    + exact Hpd.
    + eapply project_tidy; [exact Hp|exact HT].
    + rewrite Hf. exact HJ.
Qed.

(** missing values above lists *)
Lemma asslice_top fuel : forall c g o ms, (bound c <= fuel)%nat -> den c = Some ms -> tidy c -> form_of c = FOption (FList g) -> jagged_slice o (FList g) ->
  exists a, asslice is64 fuel c = Ok a /\ (says (S (levels g)) a ms \/ exists os offs sc, a = AMissing (oranks 0 os) [] (AJagged offs sc) /\ ms = map (ogetv (fun v => v)) os /\ says (S (levels g)) (AJagged offs sc) (keep os)).
Proof.
  induction fuel as [|fuel IH]; intros c g o ms Hb Hd HT HF HS; [pose proof (bound_pos c); lia|].
  assert (K : forall index c', form_of c' = FList g -> (bound c' <= fuel)%nat -> tidy c' -> den (IndexedOption index c') = Some ms ->
    exists a, (let* numnull := awkward_IndexedArray_numnull index (zlen index) in
    let* p := awkward_IndexedArray_getitem_nextcarry_outindex_mask (alloc (zlen index - numnull)) (alloc (zlen index)) index (zlen index) (length_ c') in
    let '(nextcarry, outindex) := p in
    let* next := carry c' nextcarry false in
    let* slicecontent := asslice is64 fuel next in
    missing_of outindex numnull slicecontent) = Ok a /\ (says (S (levels g)) a ms \/ exists os offs sc, a = AMissing (oranks 0 os) [] (AJagged offs sc) /\ ms = map (ogetv (fun v => v)) os /\ says (S (levels g)) (AJagged offs sc) (keep os))).
  { intros index c' Ef Hb' HT' Hd'. destruct (den c') as [ws|] eqn:Hc; [|cbn [den] in Hd'; rewrite Hc in Hd'; discriminate].
    destruct (option_next _ _ _ _ Hc Hd') as (numnull & nc & oi & ws' & -> & E & A & B & R & ->). cbn [bind]. rewrite E. cbn [bind].
    destruct (carry_den c' ws nc ws' false Hc A) as (next & En & Hn). rewrite En. cbn [bind].
    destruct (carry_same _ _ _ _ En) as [Fn Bn].
    destruct (asslice_says fuel next o ws') as (a & Ea & Sa); [rewrite Bn; exact Hb'|exact Hn|eapply carry_tidy; eassumption|rewrite Fn, Ef; exact HS|]. rewrite Ea. cbn [bind]. rewrite Fn, Ef in Sa. cbn [levels] in Sa.
    assert (J : exists offs sc, a = AJagged offs sc). { destruct Sa as [(D & _)|[(D & _)|(_ & _ & M)]]; try discriminate D. inversion M; subst. eauto. }
    destruct J as (offs & sc & ->). cbn [missing_of]. eexists. split; [reflexivity|]. right.
    replace ws' with (map (fun v : value => v) ws') in B by apply map_id. destruct (ranked_oranks (fun v => v) _ _ _ R B) as (os & -> & <- & ->). exists os, offs, sc. auto. }
  destruct c; cbn [form_of] in HF; try discriminate HF; try contradiction HT.
  - destruct (project_indexed _ _ _ Hd) as (p & Hp & Hpd & Hf & Hbp). cbn [asslice]. rewrite Hp. cbn [bind]. apply (IH p g o).
    + rewrite Hbp. cbn [bound] in Hb. destruct c; try lia. contradiction HT.
    + exact Hpd.
    + eapply project_tidy; [exact Hp|exact HT].
    + rewrite Hf. exact HF.
    + exact HS.
  - injection HF as HF. apply K; auto. cbn [bound] in Hb. lia.
  - injection HF as HF. destruct (to_indexed_option _ _ Hd) as (index & c' & E & Hd' & _); [left; eauto|]. cbn [asslice]. rewrite E. cbn [bind]. destruct (toindexedoption_same _ _ E) as (i' & c'' & Eq & F & B). injection Eq as <- <-. cbn [form_of bound] in *. injection F as F. apply K; auto; [congruence|lia|eapply toindexedoption_tidy; eassumption].
  - injection HF as HF. destruct (to_indexed_option _ _ Hd) as (index & c' & E & Hd' & _); [right; left; do 5 eexists; reflexivity|]. cbn [asslice]. rewrite E. cbn [bind]. destruct (toindexedoption_same _ _ E) as (i' & c'' & Eq & F & B). injection Eq as <- <-. cbn [form_of bound] in *. injection F as F. apply K; auto; [congruence|lia|eapply toindexedoption_tidy; eassumption].
  - injection HF as HF. cbn [asslice]. destruct (asslice_says fuel c o ms) as (a & Ea & Sa); [cbn [bound] in Hb; lia|exact Hd|exact HT|rewrite HF; exact HS|]. exists a. rewrite HF in Sa. cbn [levels] in Sa. auto.
Qed.
End Main.
