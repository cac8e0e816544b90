(** C36: setidentities labels every row of an array, and of everything inside it, with the way to reach it: the row of the
    outermost array and then the position in each list.  Slicing keeps the labels. *)
From Verif Require Import Base BaseLemmas KRange Content KCore Core SpecArray OmapLemmas PCore Identities SpecIdentities
  PIdentities PIdentities2 PIdentities4 PIdentities5 PIdentities6 PIdentities7 PIdentities8.
From Coq Require Import String.
From Coq Require Import List.
Import ListNotations.
Local Open Scope string_scope.
Local Open Scope list_scope.
Local Open Scope Z_scope.

(** For every valid array whose layout is [tidy] (what that leaves out is shown below to go wrong), setidentities succeeds.
    A node has no identities only below a node that refers twice to one row (overlapping lists, an index used twice).
    Everywhere else there is one identity for each row, with one number for the outermost array and one for each list on
    the way, and the fields on the way beside it.
    A row bears [i :: p] exactly if it is reached from row [i] of the array by taking the positions [p] in the lists.
    A row that is not reached bears an identity whose first number is -1. *)
Theorem C36_identities_partial c vs :
  den c = Some vs -> tidy false c = true -> c <> Empty ->
  exists t, setidentities0 c = Ok t /\
  forall np d, subnode c np = Some d ->
  match ident_at t np with
  | Some J =>
      ilen J = length_ d /\ width J = 1 + lists_on c np /\ fieldloc J = route c np 1 /\
      (forall j i p, 0 <= j < length_ d -> 0 <= i ->
         (identity J j = i :: p <-> i < length_ c /\ descend c np i p = Some j)) /\
      (forall j, 0 <= j < length_ d -> zlen (identity J j) = width J /\
         (nthZ (identity J j) 0 = Some (-1) \/ exists i p, 0 <= i /\ identity J j = i :: p))
  | None => exists np1 k np2 d', np = np1 ++ k :: np2 /\ subnode c np1 = Some d' /\ shared d' k
  end.
Proof.
  intros Hd Ht Hc. pose proof (den_nonneg _ _ Hd) as Hn. set (n := length_ c) in *.
  destruct (setidentities_ok c false (top_identities n) vs Hd Ht (top_wf n Hn) eq_refl (fun _ => eq_refl)) as (t & E & G).
  exists t. split; [rewrite (setidentities0_top _ _ Hd Hc); exact E|].
  intros np d Hs. specialize (G np d Hs). destruct (ident_at t np) as [J|]; [|exact G].
  destruct G as (Hw & Hl & Hwd & Hfl & Snd & Cmp). change (ilen (top_identities n)) with n in *.
  split; [exact Hl|]. split; [exact Hwd|]. split; [exact Hfl|]. split.
  - intros j i p Hj Hi. split.
    + intros Eid. destruct (Snd j Hj) as [Hun|(i' & p' & Hi' & Hd' & E')].
      * unfold unset in Hun. rewrite Eid, nthZ_cons in Hun. cbn in Hun. injection Hun as ->. lia.
      * rewrite top_identity in E' by assumption. rewrite Eid in E'. cbn in E'. injection E' as -> ->. split; [apply Hi'|exact Hd'].
    + intros (Hi2 & Hd'). destruct (Cmp i p j Hd') as (_ & E'); [lia| |rewrite top_identity in E' by lia; exact E'].
      rewrite top_identity by lia. unfold unset. rewrite nthZ_cons. cbn. intros [= ->]. lia.
  - intros j Hj. split; [apply zlen_identity; [exact Hw|lia]|].
    destruct (Snd j Hj) as [Hun|(i & p & Hi & _ & E')]; [left; exact Hun|right].
    rewrite top_identity in E' by assumption. exists i, p. split; [apply Hi|exact E'].
Qed.
Print Assumptions C36_identities_partial.

(** An array with nothing shared has identities everywhere. *)
Definition unshared (c : content) : Prop := forall np d k, subnode c np = Some d -> ~ shared d k.

(** Take ranges and select by integer arrays, in any order and as often as you like: if row [i] of the result was row [r]
    of the array, then it still bears the identity [[r]], and everything that can be reached from it by positions [p] in
    lists bears [r :: p].  No identities get lost. *)
Theorem C36_slices_keep_identities_partial c vs ops rows :
  den c = Some vs -> tidy false c = true -> c <> Empty -> straight c = true ->
  origin (zseq 0 (length_ c)) ops = Some rows ->
  exists t c' t' vs',
    setidentities0 c = Ok t /\ slices (c, t) ops = Ok (c', t') /\
    den c' = Some vs' /\ omap (nthZ vs) rows = Some vs' /\
    (exists J, ident_at t' [] = Some J /\ ilen J = zlen vs') /\
    (forall np J i r p j, ident_at t' np = Some J -> nthZ rows i = Some r -> descend c' np i p = Some j ->
       0 <= j < ilen J /\ identity J j = r :: p) /\
    (unshared c -> forall np d, subnode c' np = Some d -> exists J, ident_at t' np = Some J /\ ilen J = length_ d).
Proof.
  intros Hd Ht Hc Hst Ho. pose proof (den_nonneg _ _ Hd) as Hn. set (n := length_ c) in *.
  destruct (setidentities_ok c false (top_identities n) vs Hd Ht (top_wf n Hn) eq_refl (fun _ => eq_refl)) as (t & E & G).
  change (ilen (top_identities n)) with n in *.
  assert (Hb : bears c t (fun i q => exists r, nthZ (zseq 0 n) i = Some r /\ q = [r])).
  { intros np J i q p j HJ (r & Hr & ->) Hdj. pose proof (nthZ_Some _ _ _ Hr) as Hi. rewrite zlen_zseq in Hi by lia.
    rewrite nthZ_zseq in Hr by lia. injection Hr as <-.
    assert (exists d, subnode c np = Some d) as (d & Hs).
    { clear -Hdj. revert c i p Hdj. induction np as [|k np IH]; intros c i p Hdj; [cbn; eauto|].
      cbn [descend subnode] in *. destruct (child c k) as [c'|]; [|discriminate]. destruct (into c k i p) as [[r p']|]; [|discriminate]. eauto. }
    specialize (G np d Hs). rewrite HJ in G. destruct G as (_ & Hl & _ & _ & _ & Cmp). change (ilen (top_identities n)) with n in *.
    destruct (Cmp i p j Hdj) as (H1 & H2); [lia| |].
    { rewrite top_identity by lia. unfold unset. rewrite nthZ_cons. cbn. intros [= ->]. lia. }
    rewrite top_identity in H2 by lia. split; [lia|exact H2]. }
  assert (Hf : forall must, (must = true -> unshared c) -> fits must c t).
  { intros must Hm. apply shaped_fits; [eapply set_shaped; exact E|]. intros np d Hs. specialize (G np d Hs). split.
    - intros Em. specialize (Hm Em). destruct (ident_at t np); [discriminate|]. destruct G as (np1 & k & np2 & d' & _ & Hs' & Hsh).
      destruct (Hm _ _ _ Hs' Hsh).
    - intros J HJ. rewrite HJ in G. destruct G as (Hw & Hl & _). auto. }
  assert (Hv : omap (nthZ vs) (zseq 0 n) = Some vs).
  { unfold n. rewrite (den_length _ _ Hd). pose proof (zlen_nonneg vs). rewrite omap_nthZ_zseq by lia. now rewrite slice_full. }
  destruct (slices_ok false (fun r q => q = [r]) ops c t vs vs _ rows Hd (Hf false ltac:(discriminate)) Hst Hv Hb Ho)
    as (c' & t' & vs' & Es & Hd' & Hv' & Hf' & Hb').
  exists t, c', t', vs'. split; [rewrite (setidentities0_top _ _ Hd Hc); exact E|]. split; [exact Es|]. split; [exact Hd'|]. split; [exact Hv'|].
  split; [|split].
  - assert (own_of t' <> None) as Hown.
    { eapply slices_own; [exact Es|]. specialize (G [] c eq_refl). destruct t as [[J|] subs]; cbn in G |- *; [discriminate|].
      destruct G as (np1 & k & np2 & d' & Hnil & _). destruct np1; discriminate Hnil. }
    destruct t' as [[J|] subs]; [|now destruct Hown]. exists J. split; [reflexivity|]. apply fits_inv in Hf' as ((_ & Hok) & _).
    destruct (Hok J eq_refl) as (_ & ->). apply den_length, Hd'.
  - intros np J i r p j HJ Hr Hdj. apply (Hb' np J i [r] p j HJ); [exists r; auto|exact Hdj].
  - intros Hu. destruct (slices_ok true (fun r q => q = [r]) ops c t vs vs _ rows Hd (Hf true (fun _ => Hu)) Hst Hv Hb Ho)
      as (c2 & t2 & vs2 & Es2 & _ & _ & Hf2 & _). rewrite Es in Es2. injection Es2 as <- <-.
    clear -Hf2. intros np. revert c' t' Hf2. induction np as [|k np IH]; intros c' t' Hf2 d Hs.
    + cbn in Hs. injection Hs as <-. destruct t' as [own subs]. apply fits_inv in Hf2 as ((Hm & Hok) & _). destruct own as [J|]; [|now destruct (Hm eq_refl)].
      exists J. split; [reflexivity|]. apply (Hok J eq_refl).
    + cbn [subnode] in Hs. destruct (child c' k) as [c1|] eqn:Ec; [|discriminate]. destruct t' as [own subs]. apply fits_inv in Hf2 as (_ & Hk).
      destruct (Hk k c1 Ec) as (t1 & Et & Hf1). cbn [ident_at]. rewrite Et. apply (IH c1 t1 Hf1 d Hs).
Qed.
Print Assumptions C36_slices_keep_identities_partial.

(** ** Cases that meet the hypotheses *)
(** records with a list field and an optional field; lists that start in the middle of their content *)
Definition ex_records : content :=
  Record (Some ["x"; "y"]) 3
    [ListOffset [1; 3; 3; 4] (Union [0; 1; 0; 0; 1] [0; 0; 2; 1; 1] [Numpy DInt [10; 11; 12]; ListA [1; 0] [2; 1] (Numpy DInt [20; 21])]);
     ByteMasked [0; 1; 0] true (Numpy DInt [1; 2; 3])].
Example C36_example_records :
  exists t J0 J1 J2 J3, den ex_records <> None /\ tidy false ex_records = true /\ straight ex_records = true /\ setidentities0 ex_records = Ok t /\
    ident_at t [0; 0] = Some J0 /\ map (identity J0) [0; 1; 2; 3; 4] = [[-1; -1]; [0; 0]; [0; 1]; [2; 0]; [-1; -1]] /\
    ident_at t [0; 0; 0] = Some J1 /\ map (identity J1) [0; 1; 2] = [[-1; -1]; [2; 0]; [0; 1]] /\
    ident_at t [0; 0; 1; 0] = Some J2 /\ map (identity J2) [0; 1] = [[-1; -1; 0]; [0; 0; 0]] /\
    ident_at t [1; 0] = Some J3 /\ map (identity J3) [0; 1; 2] = [[0]; [1]; [2]] /\
    fieldloc J2 = [(0, "x")] /\ fieldloc J3 = [(0, "y")].
Proof. do 5 eexists. split; [discriminate|]. repeat split; vm_compute; reflexivity. Qed.
(** overlapping lists: no identities for the content *)
Example C36_example_overlap :
  let c := ListA [0; 1] [2; 3] (Numpy DInt [1; 2; 3]) in
  exists t, den c <> None /\ tidy false c = true /\ setidentities0 c = Ok t /\ ident_at t [0] = None /\ shared c 0.
Proof.
  cbv zeta. eexists. split; [discriminate|]. split; [reflexivity|]. split; [vm_compute; reflexivity|]. split; [reflexivity|].
  exists 0, [1], 1, [0], 1. split; [discriminate|]. split; reflexivity.
Qed.
(** slices of the records *)
Example C36_example_slices :
  exists t c' t' J, setidentities0 ex_records = Ok t /\
    origin (zseq 0 3) [OCarry [2; 0; 2] false; ORange 1 3; OCarry [1; 0] true] = Some [2; 0] /\
    slices (ex_records, t) [OCarry [2; 0; 2] false; ORange 1 3; OCarry [1; 0] true] = Ok (c', t') /\
    ident_at t' [0; 0; 0] = Some J /\ descend c' [0; 0; 0] 1 [1] = Some 2 /\ identity J 2 = [0; 1].
Proof. do 4 eexists. repeat split; vm_compute; reflexivity. Qed.
Example C36_unshared_example : unshared (ListOffset [0; 2; 3] (Numpy DInt [5; 6; 7])).
Proof.
  intros np d k Hs (i1 & p1 & i2 & p2 & r & Hne & H1 & H2). destruct np as [|k0 np].
  - cbn in Hs. injection Hs as <-. cbn [into] in H1, H2.
    destruct (nthZ [0; 2; 3] i1) as [a1|] eqn:Ea1; [|discriminate]. destruct (nthZ [0; 2; 3] (i1 + 1)) as [b1|] eqn:Eb1; [|discriminate].
    destruct (nthZ [0; 2; 3] i2) as [a2|] eqn:Ea2; [|discriminate]. destruct (nthZ [0; 2; 3] (i2 + 1)) as [b2|] eqn:Eb2; [|discriminate].
    pose proof (nthZ_Some _ _ _ Ea1). pose proof (nthZ_Some _ _ _ Eb1). pose proof (nthZ_Some _ _ _ Ea2). pose proof (nthZ_Some _ _ _ Eb2).
    change (zlen [0; 2; 3]) with 3 in *. unfold within in *.
    destruct p1 as [|q1 p1]; [discriminate|]. destruct p2 as [|q2 p2]; [discriminate|].
    destruct (Z.leb_spec 0 q1), (Z.ltb_spec q1 (b1 - a1)); try discriminate. destruct (Z.leb_spec 0 q2), (Z.ltb_spec q2 (b2 - a2)); try discriminate.
    cbn [andb] in *. injection H1 as H1 ->. injection H2 as H2 ->.
    assert (i1 = 0 \/ i1 = 1) as [-> | ->] by lia; assert (i2 = 0 \/ i2 = 1) as [-> | ->] by lia; vm_compute in Ea1, Eb1, Ea2, Eb2;
      injection Ea1 as <-; injection Eb1 as <-; injection Ea2 as <-; injection Eb2 as <-.
    + apply Hne. do 2 f_equal. lia.
    + lia.
    + lia.
    + apply Hne. do 2 f_equal. lia.
  - cbn [subnode child] in Hs. destruct (k0 =? 0); [|discriminate]. destruct np as [|k1 np]; cbn in Hs; [|discriminate]. injection Hs as <-. discriminate.
Qed.

(** ** What goes wrong outside *)
Definition ex_lists : content := ListOffset [0; 2; 3] (Numpy DInt [5; 6; 7]).
(** Asking Identities for one row gives numbers of other rows as soon as there is more than one number per row. *)
Theorem C36_one_identity_refuted :
  exists t J, setidentities0 ex_lists = Ok t /\ ident_at t [0] = Some J /\ identity J 1 = [0; 1] /\ iat J 1 = Ok [0; 0].
Proof. do 2 eexists. repeat split; vm_compute; reflexivity. Qed.
Print Assumptions C36_one_identity_refuted.
(** A deep copy of Identities has room for one number per row only: reading the last rows reads beyond it. *)
Theorem C36_deep_copy_refuted :
  exists t J J', setidentities0 ex_lists = Ok t /\ ident_at t [0] = Some J /\ ideep_copy J = Ok J' /\
    ivalue J 2 0 = Ok 1 /\ ivalue J' 2 0 = UB.
Proof. do 3 eexists. repeat split; vm_compute; reflexivity. Qed.
Print Assumptions C36_deep_copy_refuted.
(** A masked array inside a list: only the first numbers are copied, the rest is whatever the memory held. *)
Theorem C36_masked_in_list_refuted :
  let c := ListOffset [0; 2; 3] (ByteMasked [1; 0; 1] true (Numpy DInt [5; 6; 7])) in
  exists t J, den c <> None /\ setidentities0 c = Ok t /\ ident_at t [0; 0] = Some J /\
    descend c [0; 0] 1 [0] = Some 2 /\ identity J 2 = [poison; poison].
Proof. do 2 eexists. split; [discriminate|]. repeat split; vm_compute; reflexivity. Qed.
Print Assumptions C36_masked_in_list_refuted.
(** Rows left over at the end of a regular array's content bear whatever the memory held. *)
Theorem C36_regular_leftover_refuted :
  let c := Regular 2 0 (Numpy DInt [1; 2; 3; 4; 5]) in
  exists t J, den c <> None /\ setidentities0 c = Ok t /\ ident_at t [0] = Some J /\ ilen J = 5 /\ identity J 4 = [poison; poison].
Proof. do 2 eexists. split; [discriminate|]. repeat split; vm_compute; reflexivity. Qed.
Print Assumptions C36_regular_leftover_refuted.
(** Empty lists by offsets beyond the content, a valid array, make setidentities write outside its memory. *)
Theorem C36_offsets_beyond_refuted :
  let c := ListOffset [5; 5] (Numpy DInt [1; 2]) in den c <> None /\ setidentities0 c = UB.
Proof. split; [discriminate|]. vm_compute. reflexivity. Qed.
Print Assumptions C36_offsets_beyond_refuted.
(** A record with a field that is longer than the record cannot be labelled. *)
Theorem C36_longer_field_refuted :
  let c := Record (Some ["x"]) 2 [Numpy DInt [1; 2; 3]] in
  den c <> None /\ setidentities0 c = Err "content and its identities must have the same length".
Proof. split; [discriminate|]. vm_compute. reflexivity. Qed.
Print Assumptions C36_longer_field_refuted.
(** A range of a regular array keeps the identities of the whole array: the first row of [c[1:3]] bears the identity of row 0. *)
Theorem C36_regular_range_refuted :
  let c := Regular 2 0 (Numpy DInt [1; 2; 3; 4; 5; 6]) in
  exists t c' t' J, den c <> None /\ setidentities0 c = Ok t /\ range_labelled (c, t) 1 3 = Ok (c', t') /\
    length_ c' = 2 /\ ident_at t' [] = Some J /\ ilen J = 3 /\ identity J 0 = [0].
Proof. do 4 eexists. split; [discriminate|]. repeat split; vm_compute; reflexivity. Qed.
Print Assumptions C36_regular_range_refuted.
