(** The text of a LayoutBuilder compiles to the program of its shape *)
From Coq Require Import String.
From Verif Require Import Base BaseLemmas OmapLemmas Content Forms PForms Forth ForthParse PForthSafe4 PForthOut LayoutBuild SpecLayout PLayoutVm PLayoutWord PLayoutTop PLayoutSnap PLayoutMain PLayoutToken PLayoutParse PLayoutNames PLayoutCompile PLayoutCompile2.
Local Open Scope string_scope.
Local Open Scope list_scope.
Local Open Scope Z_scope.

Fixpoint keys_all (cs : list form) (next : nat) : list string * nat :=
  match cs with
  | [] => ([], next)
  | c :: cs => let '(ks, next) := keys_in c next in let '(ks', next) := keys_all cs next in (ks ++ ks', next)
  end.
Definition own_key (m : meta) (next : nat) : string * nat := match form_key m with Some k => (k, next) | None => (("node-id" +++ to_string next)%string, S next) end.
Lemma keys_rec : forall m keys cs next, keys_in (FRecord m keys cs) next = let '(k, next) := own_key m next in let '(ks, next) := keys_all cs next in (k :: ks, next).
Proof. reflexivity. Qed.
Lemma key_own : forall m i, exists k i1, key_of m i = (k, i1) /\ own_key m (next_node i) = (k, next_node i1) /\ next_error i1 = next_error i.
Proof. intros m i. unfold key_of, own_key. destruct (form_key m); eauto. Qed.
Lemma nodup_split : forall {A} (a b : list A), NoDup (a ++ b) -> NoDup a /\ NoDup b /\ forall x, In x a -> ~ In x b.
Proof.
  induction a as [ | x a IH ]; intros b H; [ split; [ constructor | split; [ exact H | intros x [ ] ] ] | ]. cbn [app] in H. inversion H as [ | ? ? NI H' ]; subst. destruct (IH b H') as (A1 & A2 & A3). rewrite in_app_iff in NI.
  split; [ constructor; [ tauto | exact A1 ] | ]. split; [ exact A2 | ]. intros y [ <- | Hy ]; [ tauto | auto ].
Qed.
Lemma nodes_pos : forall s, 1 <= nodes s.
Proof. induction s using shape_ind'; cbn [nodes]; try lia. assert (0 <= fold_right Z.add 0 (map nodes cs)); [ | lia ]. induction H as [ | c cs Hc _ IH ]; cbn [map fold_right]; lia. Qed.

Lemma build_piece : forall f s i ks nx, shape_of f = Some s -> keys_in f (next_node i) = (ks, nx) -> NoDup ks -> forallb plain_key ks = true -> Z.of_nat (next_error i) + nodes s <= 300 ->
  exists n t i', build f i = Ok (n, t, i') /\ next_node i' = nx /\ Z.of_nat (next_error i') <= Z.of_nat (next_error i) + nodes s /\ piece s n t ks.
Proof.
  induction f using form_ind'; intros sh ii ks nx HS HK ND HP HE; cbn [shape_of] in HS; try discriminate; destruct (key_own m ii) as (key & i1 & K1 & K2 & K3).
  - cbn [keys_in meta_of] in HK. change ((let '(k, next) := own_key m (next_node ii) in ([k], next)) = (ks, nx)) in HK. rewrite K2 in HK. injection HK as <- <-. cbn [forallb] in HP. rewrite andb_true_r in HP.
    cbn [build]. rewrite K1. unfold take_error.
    assert (X : exists l st, sh = SNum l /\ d = leaf_prim l /\ dtype_to_state d = Some st) by (shape_num HS; first [ (exists LBool; eexists; split; [ reflexivity | split; reflexivity ]) | (exists LInt; eexists; split; [ reflexivity | split; reflexivity ]) | (exists LReal; eexists; split; [ reflexivity | split; reflexivity ]) ]).
    destruct X as (l & st & -> & -> & DS). rewrite DS. do 3 eexists. split; [ reflexivity | ]. cbn [next_node next_error nodes] in *. split; [ reflexivity | ]. split; [ lia | ]. apply piece_num; [ exact HP | lia | exact DS ].
  - destruct (omap shape_of l) as [ [ | s0 ss ] | ] eqn:EO; try discriminate. destruct (keys_ok k (zlen l)) eqn:EK; [ | discriminate ]. injection HS as <-. rewrite build_rec, K1. rewrite keys_rec, K2 in HK. destruct (keys_all l (next_node i1)) as [ kl nl' ] eqn:KA. injection HK as <- <-.
    inversion ND as [ | ? ? NI ND' ]; subst. cbn [forallb] in HP. apply andb_true_iff in HP. destruct HP as [ HP1 HP2 ]. cbn [nodes] in HE. change (fold_right Z.add 0 (map nodes (s0 :: ss))) with (sum_nodes (s0 :: ss)) in HE.
    assert (X : exists ns ts i', build_all l i1 = Ok (ns, ts, i') /\ next_node i' = nl' /\ Z.of_nat (next_error i') <= Z.of_nat (next_error i1) + sum_nodes (s0 :: ss) /\ pieces (s0 :: ss) ns ts kl).
    { assert (HE1 : Z.of_nat (next_error i1) + sum_nodes (s0 :: ss) <= 300) by (rewrite K3; lia). clear EK HE NI ND K1 K2 K3 HP1. revert EO i1 kl nl' KA ND' HP2 HE1. generalize (s0 :: ss). induction H as [ | f fs Hf _ IH ]; intros shs EO i1 kl nl' KA ND HP HE.
      - injection EO as <-. injection KA as <- <-. exists [], [], i1. split; [ reflexivity | ]. split; [ reflexivity | ]. split; [ unfold sum_nodes; cbn [map fold_right]; lia | apply pieces_nil ].
      - destruct (omap_cons_inv _ _ _ _ EO) as (sh & shs' & E1 & E2 & ->). cbn [keys_all] in KA. destruct (keys_in f (next_node i1)) as [ k1 nx1 ] eqn:KF. destruct (keys_all fs nx1) as [ k2 nx2 ] eqn:KS. injection KA as <- <-.
        destruct (nodup_split _ _ ND) as (N1 & N2 & N3). rewrite forallb_app in HP. apply andb_true_iff in HP. destruct HP as [ HP1 HP2 ]. unfold sum_nodes in HE. cbn [map fold_right] in HE. change (fold_right Z.add 0 (map nodes shs')) with (sum_nodes shs') in HE.
        assert (0 <= sum_nodes shs') by (unfold sum_nodes; clear; induction shs' as [ | c cs IH ]; cbn [map fold_right]; [ lia | pose proof (nodes_pos c); lia ]).
        destruct (Hf sh i1 k1 nx1 E1 KF N1 HP1 ltac:(lia)) as (n & t & i2 & B & Q1 & Q2 & P). subst nx1.
        destruct (IH shs' E2 i2 k2 nx2 KS N2 HP2 ltac:(lia)) as (ns & ts & i3 & B2 & R1 & R2 & P2).
        cbn [build_all]. rewrite B. cbn [bind]. rewrite B2. cbn [bind]. do 3 eexists. split; [ reflexivity | ]. split; [ exact R1 | ]. split; [ unfold sum_nodes in *; cbn [map fold_right]; lia | apply pieces_cons; assumption ]. }
    destruct X as (ns & ts & i' & B & Q1 & Q2 & P). rewrite B. cbn [bind]. do 3 eexists. split; [ reflexivity | ]. split; [ exact Q1 | ]. split; [ cbn [nodes]; unfold sum_nodes in *; lia | ].
    apply piece_rec; [ exact P | discriminate | | exact HP1 | exact NI ]. replace (zlen (s0 :: ss)) with (zlen l); [ exact EK | ]. symmetry. apply (omap_zlen _ _ _ EO).
  - apply wide_cases in HS. destruct HS as (s0 & HC & -> & HW). cbn [keys_in] in HK. change ((let '(k, next) := own_key m (next_node ii) in let '(ks, next) := keys_in f next in (k :: ks, next)) = (ks, nx)) in HK. rewrite K2 in HK.
    destruct (keys_in f (next_node i1)) as [ kf nf ] eqn:KF. injection HK as <- <-. inversion ND as [ | ? ? NI ND' ]; subst. cbn [forallb] in HP. apply andb_true_iff in HP. destruct HP as [ HP1 HP2 ]. cbn [nodes] in *.
    cbn [build]. rewrite K1. destruct (IHf s0 i1 kf nf HC KF ND' HP2 ltac:(lia)) as (n & t & i2 & B & Q1 & Q2 & P). rewrite B. cbn [bind]. unfold take_error.
    do 3 eexists. split; [ reflexivity | ]. cbn [next_node next_error]. split; [ exact Q1 | ]. split; [ lia | ]. apply piece_list; try assumption. lia.
Qed.

(** ** The whole text *)
Lemma combine_fst : forall {A B} (a : list A) (b : list B), List.length a = List.length b -> map fst (combine a b) = a /\ map snd (combine a b) = b.
Proof. induction a as [ | x a IH ]; intros [ | y b ] H; try discriminate; [ split; reflexivity | ]. cbn [combine map fst snd]. destruct (IH b ltac:(injection H as H; exact H)) as [ -> -> ]. split; reflexivity. Qed.

Definition main_toks (name : string) : list string := ["0"; nl] ++ ("begin" :: [nl; "pause"; nl; name; nl; "1+"; nl] ++ ["again"]) ++ [nl].

Lemma program_ok : forall s n t ks, piece s n t ks -> exists p, compile vm_options (vm_source t) = Ok (p, machine_of vm_options p) /\ program s (machine_of vm_options p) /\ map fst (p_outs p) = node_outs n.
Proof.
  intros s n t ks [ PL (te & RE & PE) (to & RO & PO) PN PD PW (tf & RF & PF) (tr & RR & PR) ]. destruct (wname_free _ _ PW) as (CF & CP & C1 & C2 & C3 & C4).
  set (O := combine (node_outs n) (types s)).
  assert (LN : List.length (node_outs n) = List.length (types s)) by (pose proof (looks_size _ _ PL); pose proof (types_len s); unfold zlen in *; lia).
  destruct (combine_fst _ _ LN) as [ O1 O2 ]. fold O in O1, O2.
  assert (HG : outs_good O).
  { split; [ | split ]; rewrite O1; [ | exact PD | ]; (eapply Forall_impl; [ | exact PN ]); intros x Hx; apply (oname_free _ _ Hx). }
  assert (HA : at_outs O 0 (node_outs n)) by (intros i Hi; rewrite O1; reflexivity).
  destruct (PE [] [[]]) as (Er & txts & LE & GE). cbn [app] in GE.
  pose proof (PO [] txts [[]] (Forall_nil _)) as GO. cbn [app] in GO. fold O in GO.
  destruct (PF O txts 0 [] [[]] HG HA (Z.le_refl 0) (Forall_nil _) ltac:(unfold zlen; cbn; lia)) as (D & S & wb & GF & DI & AS & HB & SW). cbn [app] in GF, AS.
  pose proof (PR O txts 0 D ([] :: S) HG HA (Z.le_refl 0) (D_free_in _ _ DI)) as GR.
  set (SS := [] :: S) in *. 
  set (toks := ["variable"; "err"; nl] ++ ["input"; "data"; nl] ++ te ++ [nl] ++ to ++ [nl] ++ tf ++ [nl] ++ tr ++ [nl] ++ main_toks (v_name t)).
  assert (TK : tokens (vm_source t) = Ok toks).
  { apply tokens_ok. unfold vm_source, toks, main_toks. match goal with |- reads "" ?s ?l "" => assert (R : exists ts, reads "" s ts "" /\ ts = l) end; [ | destruct R as (ts & R & <-); exact R ].
    eexists. split; [ kn; kn; kn; kn; eapply reads_app; [ exact RE | ]; kn; eapply reads_app; [ exact RO | ]; kn; eapply reads_app; [ exact RF | ]; kn; eapply reads_app; [ exact RR | ]; do 7 kn; wd C3; eol C3 C4; kn; kn; kn; kn_last | ].
    rewrite ?app_nil_l. cbn [app]. rewrite <- ?app_assoc. cbn [app]. reflexivity. }
  assert (G : goes "" 0 toks (concat (map (fun i => [24; i]) Er) ++ from_code s 0 ++ [0; 0; zlen SS + 66; 7]) (mkPst [] [] [] [] [] [[]]) (E O txts D (SS ++ [[2; 66 + wb; 46]]))).
  { unfold toks. eapply goes_to with (c := [] ++ [] ++ concat (map (fun i => [24; i]) Er) ++ [] ++ [] ++ [] ++ [] ++ [] ++ from_code s 0 ++ [] ++ [0; 0; zlen SS + 66; 7]); [ | reflexivity | cbn [app]; reflexivity ].
    seqg; [ eapply (goes_app0 "" 0 ["variable"; "err"] _ (mkPst ["err"] [] [] [] [] [[]]) [nl]); [ apply goes_step; [ intros; rewrite app_nil_r; reflexivity | cbn; lia ] | apply g_nl ] | ].
    seqg; [ eapply (goes_app0 "" 0 ["input"; "data"] _ (strings [] [[]]) [nl]); [ apply goes_step; [ intros; rewrite app_nil_r; reflexivity | cbn; lia ] | apply g_nl ] | ].
    seqg; [ exact GE | ]. seqg; [ apply g_nl | ]. seqg; [ exact GO | ]. seqg; [ apply g_nl | ]. seqg; [ exact GF | ]. seqg; [ apply g_nl | ]. seqg; [ exact GR | ]. seqg; [ apply g_nl | ].
    eapply goes_to with (ts := ["0"] ++ [nl] ++ ("begin" :: [nl; "pause"; nl; v_name t; nl; "1+"; nl] ++ ["again"]) ++ [nl]) (c := [0; wrapS 32 0] ++ [] ++ [zlen SS + 66; CODE_AGAIN] ++ []); [ | reflexivity | reflexivity ].
    seqg; [ apply (g_int O txts); [ apply HG | apply n0 | eapply D_free_in; exact DI ] | ]. seqg; [ apply g_nl | ]. seqg; [ | apply g_nl ]. destruct (free_mem _ CF) as (MC & _).
    apply (g_begin O txts) with (X := []); [ each_token | ]. intros S' _. rewrite app_nil_r.
    eapply goes_to with (ts := [nl] ++ ["pause"] ++ [nl] ++ [v_name t] ++ [nl] ++ ["1+"] ++ [nl]) (c := [] ++ [CODE_PAUSE] ++ [] ++ [66 + wb] ++ [] ++ [46] ++ []); [ | reflexivity | reflexivity ].
    seqg; [ apply g_nl | ]. seqg; [ apply g_pause | ]. seqg; [ apply g_nl | ]. seqg; [ apply (g_call O txts (proj1 HG)); assumption | ]. seqg; [ apply g_nl | ]. seqg; [ apply (g_builtin O txts); [ apply HG | cbn; auto 10 ] | apply g_nl ]. }
  pose proof (goes_parse _ _ _ _ _ _ G _ (Nat.le_refl _)) as PA.
  eexists. split; [ | split ].
  - unfold compile. rewrite TK. cbn [bind]. unfold compile_tokens. rewrite PA. cbn [bind fst snd]. reflexivity.
  - set (main := concat (map (fun i => [24; i]) Er) ++ from_code s 0 ++ [0; 0; zlen SS + 66; 7]). cbn [set_segs p_segs p_vars p_ins p_outs p_dict p_strings E].
    change (upd (SS ++ [[2; 66 + wb; 46]]) 0 main) with (main :: S ++ [[2; 66 + wb; 46]]). match goal with |- program _ (machine_of _ ?q) => set (p := q) end.
    split.
    + split; [ reflexivity .. | | reflexivity ]. split; [ reflexivity | ]. intros r Hr. cbn [machine_of m_grow o_grow vm_options]. assert (r + 1 <= (3 * r + 1) / 2) by (apply Z.div_le_lower_bound; lia). lia.
    + reflexivity.
    + exact O2.
    + assert (ZS : zlen SS = zlen S + 1) by (unfold SS; rewrite zlen_cons; lia). pose proof (zlen_nonneg S).
      exists (zlen SS), wb, Er. split; [ lia | ]. split; [ exact HB | ]. split; [ replace (66 + zlen SS) with (zlen SS + 66) by lia; apply seg_code; reflexivity | ]. split; [ exact LE | ]. split.
      * apply seg_code. change (p_segs p) with (main :: S ++ [[2; 66 + wb; 46]]). rewrite ZS, nthZ_cons. destruct (Z.eqb_spec (zlen S + 1) 0); [ lia | ]. rewrite nthZ_app. replace (zlen S + 1 - 1) with (zlen S) by lia. destruct (Z.ltb_spec (zlen S) (zlen S)); [ lia | ]. rewrite Z.sub_diag. reflexivity.
      * apply sword_word. eapply sword_to; [ | exact SW ]. intros b l [ H1 H2 ]. split; [ exact H1 | ]. change (p_segs p) with (main :: S ++ [[2; 66 + wb; 46]]). cbn [app] in H2. rewrite nthZ_cons in H2. rewrite nthZ_cons. destruct (Z.eqb_spec b 0); [ lia | ]. pose proof (nthZ_Some _ _ _ H2). rewrite nthZ_app. destruct (Z.ltb_spec (b - 1) (zlen S)); [ exact H2 | lia ].
  - cbn. exact O1.
Qed.

(** ** The whole session *)
Lemma layout_ok : forall f s initial first, shape_of f = Some s -> nest s = true -> nodes s <= 300 -> NoDup (fst (keys_in f first)) -> forallb plain_key (fst (keys_in f first)) = true -> 8 <= initial < 2^63 ->
  forall vs, Forall (of_shape s) vs -> few s vs ->
  exists N, forall fuel, (N <= fuel)%nat -> exists b0 b c, layout_builder f initial first fuel = Ok (Some (Done b0)) /\ lcalls fuel (calls_all vs) b0 = Some (Done b) /\ snapshot b = Ok c /\ den c = Some vs.
Proof.
  intros f s initial first HS HN HD ND HP HI vs HV HF. destruct (keys_in f first) as [ ks nx ] eqn:HK. cbn [fst] in *.
  destruct (build_piece f s (mkIds first 0) ks nx HS HK ND HP HD) as (n & t & i & HB & _ & _ & P). destruct (program_ok _ _ _ _ P) as (p & HC & HPr & HO).
  eapply session_ok; try eassumption. apply (pc_distinct _ _ _ _ P).
Qed.
