(** The snapshot of outputs that hold the columns of some values is the array of those values *)
From Coq Require Import String.
From Verif Require Import Base BaseLemmas OmapLemmas SpecArray SpecSlice Content Forms Combinations PCore PList PFlatten PAsSlice1 PCombinations Forth ForthParse PForthOut LayoutBuild SpecLayout PLayoutVm PLayoutWord PLayoutCalls.
Local Open Scope list_scope.
Local Open Scope Z_scope.

Definition leaf_prim (l : leaf) : prim := match l with LInt => int64 | LReal => float64 | LBool => boolean end.
Definition wide (w : iform) : bool := match w with i32 | u32 | i64 => true | _ => false end.
Inductive looks : shape -> node -> Prop :=
| looks_num : forall l o, looks (SNum l) (NNumpy o (leaf_prim l))
| looks_list : forall w c o i b n, wide w = true -> looks c n -> looks (SList w c) (NListOffset o w i b n)
| looks_rec : forall ks cs ns fi l, keys_ok ks (zlen cs) = true -> Forall2 looks cs ns -> cs <> [] -> looks (SRec ks cs) (NRecord ks ns fi l).
Fixpoint node_outs (n : node) : list string :=
  match n with
  | NNumpy o _ => [o]
  | NListOffset o _ _ _ c => o :: node_outs c
  | NRecord _ cs _ _ => concat (map node_outs cs)
  | _ => []
  end.
Lemma looks_rec_inv : forall ks cs n, looks (SRec ks cs) n -> exists ns fi l, n = NRecord ks ns fi l /\ keys_ok ks (zlen cs) = true /\ Forall2 looks cs ns /\ cs <> [].
Proof. intros ks cs n H. inversion H; subst. do 3 eexists. eauto. Qed.
Lemma looks_size : forall s n, looks s n -> zlen (node_outs n) = size s.
Proof.
  induction s using shape_ind'; intros n Hn; [ inversion Hn; subst; reflexivity | inversion Hn; subst; cbn [node_outs size]; rewrite zlen_cons, (IHs n0) by assumption; lia | ].
  destruct (looks_rec_inv _ _ _ Hn) as (ns & fi & l & -> & _ & H4 & _). cbn [node_outs size]. clear Hn. revert ns H4. induction H as [ | c cs Hc _ IH ]; intros ns H4; inversion H4; subst; cbn [map concat fold_right]; [ reflexivity | ]. rewrite zlen_app, IH by assumption. rewrite (Hc y) by assumption. reflexivity.
Qed.

Lemma assoc_nth : forall (names : list string) (os : list outbuf) k x b, NoDup names -> nthZ names k = Some x -> nthZ os k = Some b -> assoc x (combine names os) = Some b.
Proof.
  induction names as [ | y names IH ]; intros os k x b ND N O1; [ rewrite nthZ_nil in N; discriminate | ]. destruct os as [ | o os ]; [ rewrite nthZ_nil in O1; discriminate | ].
  rewrite nthZ_cons in N. rewrite nthZ_cons in O1. cbn [combine assoc]. inversion ND as [ | ? ? NI ND' ]; subst. destruct (Z.eqb_spec k 0).
  - injection N as ->. injection O1 as ->. rewrite String.eqb_refl. reflexivity.
  - destruct (String.eqb_spec y x) as [ -> | ]; [ exfalso; apply NI; apply (nthZ_In _ _ _ N) | ]. eapply IH; eassumption.
Qed.
Lemma written_ok : forall vs, written_cells (map Some vs) = Ok vs.
Proof. induction vs as [ | v vs IH ]; cbn; [ reflexivity | rewrite IH; reflexivity ]. Qed.
Lemma output_ok : forall names os k x t vs, NoDup names -> nthZ names k = Some x -> buf os k t vs -> output (combine names os) x = Ok vs.
Proof.
  intros names os k x t vs ND N (b & O1 & _ & _ & G). unfold output. rewrite (assoc_nth _ _ _ _ _ ND N O1). pose proof (g_vals _ _ G) as E. unfold contents in E. rewrite E. apply written_ok.
Qed.

Lemma totals_offsets : forall us, totals us = SpecSlice.offsets_of (map zlen (map items_of us)).
Proof.
  intros us. induction us as [ | v us IH ] using rev_ind; [ reflexivity | ]. rewrite totals_snoc, IH, !map_app. cbn [map]. rewrite PFlatten.offsets_of_snoc. f_equal. f_equal. f_equal.
  rewrite map_map. rewrite <- (sumZ_zlen_concat (map items_of us)), map_map. reflexivity.
Qed.

Lemma items_back : forall w c us, Forall (of_shape (SList w c)) us -> map VList (map items_of us) = us /\ Forall (of_shape c) (concat (map items_of us)).
Proof.
  intros w c us H. induction H as [ | v us Hv _ [ IH1 IH2 ] ]; [ split; [ reflexivity | constructor ] | ]. apply of_list in Hv. destruct Hv as (vs & -> & OA). cbn [map items_of concat]. rewrite IH1. split; [ reflexivity | ]. apply Forall_app. split; assumption.
Qed.
Lemma fields_len : forall cs vs, of_fields cs vs -> List.length cs = List.length vs.
Proof. induction cs as [ | c cs IH ]; intros [ | v vs ] H; cbn in *; try contradiction; [ reflexivity | ]. f_equal. apply IH, H. Qed.
Lemma fields_nth : forall cs vs j c, of_fields cs vs -> nth_error cs j = Some c -> of_shape c (nth j vs VNone).
Proof. induction cs as [ | c cs IH ]; intros [ | v vs ] [ | j ] c' H N; cbn in *; try contradiction; try discriminate; [ injection N as <-; apply H | eapply IH; [ apply H | exact N ] ]. Qed.
Lemma row_back : forall ks cs v, of_shape (SRec ks cs) v -> mkrow ks (fields_of v) = v.
Proof.
  intros [ ks | ] cs v [ (vs & H) _ ]; cbn [mkrow].
  - destruct H as [ -> L ]. cbn [fields_of]. f_equal. clear - L. revert vs L. induction ks as [ | k ks IH ]; intros [ | x vs ] L; cbn in *; try discriminate; [ reflexivity | ]. f_equal. apply IH. injection L as L. exact L.
  - subst v. reflexivity.
Qed.
Lemma nth_seq_map : forall (vs : list value) n, List.length vs = n -> map (fun j => nth j vs VNone) (seq 0 n) = vs.
Proof.
  intros vs n <-. induction vs as [ | v vs IH ]; [ reflexivity | ]. cbn [List.length seq map nth]. f_equal. rewrite <- seq_shift, map_map. exact IH.
Qed.

Lemma record_array : forall ks cs us ccs, keys_ok ks (zlen cs) = true -> cs <> [] -> Forall (of_shape (SRec ks cs)) us -> List.length ccs = List.length cs ->
  Forall2 (fun c j => den c = Some (map (field_of j) us)) ccs (seq 0 (List.length cs)) -> den (Record ks (match ccs with [] => 0 | _ => minlength ccs end) ccs) = Some us.
Proof.
  intros ks cs us ccs KO NE HA L F2.
  assert (LEN : (match ccs with [] => 0 | _ => minlength ccs end) = zlen us).
  { destruct ccs as [ | c0 ccs ]; [ destruct cs; [ congruence | discriminate ] | ]. apply minlength_const; [ discriminate | apply zlen_nonneg | ]. intros x Hx.
    clear - F2 Hx. revert F2 Hx. generalize (seq 0 (List.length cs)). generalize (c0 :: ccs). clear. intros l l0 F2. induction F2 as [ | a b l l0 E _ IH ]; intros [ ]; [ subst; rewrite (den_length _ _ E), zlen_map; reflexivity | auto ]. }
  rewrite LEN. cbn [den].
  assert (OD : omap den ccs = Some (map (fun j => map (field_of j) us) (seq 0 (List.length cs)))).
  { clear - F2. revert F2. generalize (seq 0 (List.length cs)). intros l F2. induction F2 as [ | a b l l0 E _ IH ]; [ reflexivity | ]. cbn [omap map]. rewrite E, IH. reflexivity. }
  rewrite OD. pose proof (zlen_nonneg us). destruct (Z.leb_spec 0 (zlen us)); [ | lia ]. replace (zlen ccs) with (zlen cs) by (unfold zlen; rewrite L; reflexivity). rewrite KO. cbn [andb].
  apply omap_intro; [ rewrite zlen_zseq by lia; lia | ]. intros i x Hx. pose proof (nthZ_Some _ _ _ Hx) as Hi. rewrite zlen_zseq in Hi by lia. rewrite nthZ_zseq in Hx by lia. injection Hx as <-. rewrite Z.add_0_l.
  destruct (nthZ_lt us i ltac:(lia)) as (u & Nu). rewrite Nu. rewrite Forall_forall in HA. pose proof (HA u (nthZ_In _ _ _ Nu)) as Hu.
  assert (OM : omap (fun vs => nthZ vs i) (map (fun j => map (field_of j) us) (seq 0 (List.length cs))) = Some (map (fun j => field_of j u) (seq 0 (List.length cs)))).
  { generalize (seq 0 (List.length cs)). induction l as [ | j l IH ]; [ reflexivity | ]. cbn [map omap]. rewrite nthZ_map, Nu. cbn [option_map]. rewrite IH. reflexivity. }
  rewrite OM. cbn [option_map]. unfold field_of. rewrite nth_seq_map by (symmetry; apply fields_len; apply (of_rec _ _ _ Hu)). rewrite (row_back _ _ _ Hu). reflexivity.
Qed.

Lemma field_shapes : forall ks cs us j c, Forall (of_shape (SRec ks cs)) us -> nth_error cs j = Some c -> Forall (of_shape c) (map (field_of j) us).
Proof. intros ks cs us j c H N. induction H as [ | u us Hu _ IH ]; cbn; constructor; [ | exact IH ]. unfold field_of. eapply fields_nth; [ apply (of_rec _ _ _ Hu) | exact N ]. Qed.

Lemma snap : forall s n, looks s n -> forall k us names os, (forall i, 0 <= i < size s -> nthZ names (k + i) = nthZ (node_outs n) i) -> NoDup names -> holds s k us os -> Forall (of_shape s) us ->
  exists c, node_snapshot (combine names os) n = Ok c /\ den c = Some us.
Proof.
  induction s using shape_ind'; intros n Hn k us names os NM ND HH HA; [ inversion Hn; subst | inversion Hn; subst | destruct (looks_rec_inv _ _ _ Hn) as (ns & fi & l & -> & H3 & H4 & H5) ].
  - cbn [node_snapshot size node_outs] in *. specialize (NM 0 ltac:(lia)). rewrite Z.add_0_r in NM. cbn in HH. rewrite (output_ok _ _ _ _ _ _ ND NM HH). cbn [bind].
    exists (Numpy (match l with LInt => DInt | LReal => DReal | LBool => DBool end) (map code_of us)). split; [ destruct l; reflexivity | ]. cbn [den]. f_equal. rewrite map_map. rewrite <- (map_id us) at 2. apply map_ext_in. intros u Hu. rewrite Forall_forall in HA. pose proof (HA u Hu) as Ou.
    destruct l; destruct Ou as (z & Ou); [ destruct Ou as [ -> _ ]; reflexivity .. | subst u; destruct z; reflexivity ].
  - cbn [node_snapshot size node_outs] in *. pose proof (size_pos s). cbn [holds] in HH. destruct HH as [ HB HC ]. destruct (items_back _ _ _ HA) as [ EB OB ].
    pose proof (NM 0 ltac:(lia)) as N0. rewrite Z.add_0_r in N0. rewrite (output_ok _ _ _ _ _ _ ND N0 HB). cbn [bind].
    destruct (IHs n0 ltac:(assumption) (k + 1) (concat (map items_of us)) names os) as (c & E & D); [ | exact ND | exact HC | exact OB | ].
    { intros i0 Hi0. replace (k + 1 + i0) with (k + (1 + i0)) by lia. rewrite NM by lia. rewrite nthZ_cons. destruct (Z.eqb_spec (1 + i0) 0); [ lia | ]. f_equal. lia. }
    rewrite E. cbn [bind]. exists (ListOffset (totals us) c). split; [ destruct w; try discriminate; reflexivity | ]. rewrite totals_offsets. rewrite (listoffset_den0 (map items_of us) c D). rewrite EB. reflexivity.
  - apply holds_rec in HH. cbn [size node_outs] in NM.
    assert (X : exists ccs, (fix go (cs : list node) : res (list content) :=
                    match cs with
                    | [] => Ok []
                    | c :: cs => let* c := node_snapshot (combine names os) c in let* cs := go cs in Ok (c :: cs)
                    end) ns = Ok ccs /\ List.length ccs = List.length cs /\ Forall2 (fun c j => den c = Some (map (field_of j) us)) ccs (seq 0 (List.length cs))).
    { assert (FS : forall j c, nth_error cs j = Some c -> Forall (of_shape c) (map (field_of (0 + j)) us)) by (intros j c Nj; eapply field_shapes; eassumption).
      clear Hn HA. clear H3 H5. revert FS HH NM. generalize 0%nat. revert k ns H4. induction H as [ | c cs Hc _ IH ]; intros k ns H4 j0 FS HH NM; inversion H4 as [ | ? y ? ns' Ly H4' ]; subst.
      - exists []. split; [ reflexivity | ]. split; [ reflexivity | constructor ].
      - cbn [holds_f] in HH. destruct HH as [ HX HR ]. cbn [map concat fold_right] in NM. pose proof (looks_size _ _ Ly) as LS. pose proof (size_pos c).
        assert (SM : 0 <= fold_right Z.add 0 (map size cs)) by (clear; induction cs as [ | z l IH ]; cbn; [ lia | pose proof (size_pos z); lia ]).
        destruct (Hc y Ly k (map (field_of j0) us) names os) as (x & Ex & Dx); [ | exact ND | exact HX | | ].
        { intros i Hi. rewrite NM by lia. rewrite nthZ_app. rewrite LS. destruct (Z.ltb_spec i (size c)); [ reflexivity | lia ]. }
        { specialize (FS 0%nat c eq_refl). rewrite Nat.add_0_r in FS. exact FS. }
        destruct (IH (k + size c) ns' H4' (S j0)) as (ccs & Eg & Lg & Fg); [ | exact HR | | ].
        { intros j c' Nj. specialize (FS (S j) c' Nj). rewrite <- plus_n_Sm in FS. exact FS. }
        { intros i Hi. replace (k + size c + i) with (k + (size c + i)) by lia. rewrite NM by lia. rewrite nthZ_app, LS. destruct (Z.ltb_spec (size c + i) (size c)); [ lia | ]. f_equal. lia. }
        exists (x :: ccs). cbn [bind]. rewrite Ex. cbn [bind]. rewrite Eg. cbn [bind]. split; [ reflexivity | ]. split; [ cbn; f_equal; exact Lg | ]. cbn [List.length seq]. constructor; assumption. }
    destruct X as (ccs & Eg & Lg & Fg). cbn [node_snapshot]. rewrite Eg. cbn [bind]. eexists. split; [ reflexivity | ]. eapply record_array; eassumption.
Qed.

(** the open lists and the positions in records do not matter *)
Lemma snap_skel : forall outs n, node_snapshot outs (skel n) = node_snapshot outs n.
Proof.
  intros outs. induction n using node_ind'; cbn [skel node_snapshot]; try reflexivity; try (rewrite IHn; reflexivity).
  assert (E : (fix go (cs : list node) : res (list content) :=
                    match cs with
                    | [] => Ok []
                    | c :: cs => let* c := node_snapshot outs c in let* cs := go cs in Ok (c :: cs)
                    end) (map skel cs) = (fix go (cs : list node) : res (list content) :=
                    match cs with
                    | [] => Ok []
                    | c :: cs => let* c := node_snapshot outs c in let* cs := go cs in Ok (c :: cs)
                    end) cs).
  { induction H as [ | c cs Hc _ IH ]; [ reflexivity | ]. cbn [map]. rewrite Hc, IH. reflexivity. }
  rewrite E. reflexivity.
Qed.
