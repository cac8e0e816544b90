(** C06: converting between ListArray, ListOffsetArray and RegularArray keeps the lists. *)
From Verif Require Import Base Content SpecArray SpecSlice SpecConvert KConvert Convert PConvert ExampleArrays.

Lemma list_type_view c : list_type c -> exists l c', list_view c = Some (l, c').
Proof. destruct c; try (intros []); cbn; eauto. Qed.

(** Any list array becomes a ListOffsetArray with the same values; its offsets start at 0 when asked to. *)
Theorem C06_toListOffsetArray64 : forall is64 start_at_zero c vs, list_type c -> den c = Some vs ->
  exists offsets content, toListOffsetArray64 is64 start_at_zero c = Ok (ListOffset offsets content) /\
    den (ListOffset offsets content) = Some vs /\ (start_at_zero = true -> nthZ offsets 0 = Some 0).
Proof. intros is64 saz c vs Ht Hd. destruct (list_type_view c Ht) as (l & c' & Hv). eapply to_listoffset; eassumption. Qed.
Print Assumptions C06_toListOffsetArray64.
Definition ex_list : content := ListA [3; 9; 0; 5] [5; 9; 3; 6] (Numpy DInt [10; 11; 12; 13; 14; 15]).
Definition ex_list_values : list (list value) := [[VInt 13; VInt 14]; []; [VInt 10; VInt 11; VInt 12]; [VInt 15]].
Example C06_toListOffsetArray64_ex : list_type ex_list /\ den ex_list = Some (map VList ex_list_values) /\
  toListOffsetArray64 false true ex_list = Ok (ListOffset [0; 2; 2; 5; 6] (Numpy DInt [13; 14; 10; 11; 12; 15])).
Proof. split; [exact I|]. split; vm_compute; reflexivity. Qed.

(** The offsets computed by compact_offsets64 are the cumulative lengths of the lists. *)
Theorem C06_compact_offsets64 : forall is64 c lists, list_type c -> den c = Some (map VList lists) ->
  compact_offsets64 is64 true c = Ok (offsets_of (map zlen lists)).
Proof. intros is64 c lists Ht Hd. destruct (list_type_view c Ht) as (l & c' & Hv). eapply compact_den; eassumption. Qed.
Print Assumptions C06_compact_offsets64.
Example C06_compact_offsets64_ex : den ex_list = Some (map VList ex_list_values) /\ compact_offsets64 true true ex_list = Ok [0; 2; 2; 5; 6].
Proof. split; vm_compute; reflexivity. Qed.

(** broadcast_tooffsets64 to the offsets of lists of lengths [counts] (no negative one): for
    ListArray and ListOffsetArray, the leading lists if they have these lengths, and an error otherwise ... *)
Theorem C06_broadcast_tooffsets64_list : forall c lists counts, list_type c -> ~ is_regular c -> den c = Some (map VList lists) ->
  Forall (fun n => 0 <= n) counts ->
  (counts = map zlen (slice 0 (zlen counts) lists) ->
     exists content, broadcast_tooffsets64 c (offsets_of counts) = Ok (ListOffset (offsets_of counts) content) /\
       den (ListOffset (offsets_of counts) content) = Some (map VList (slice 0 (zlen counts) lists)))
  /\ (counts <> map zlen (slice 0 (zlen counts) lists) -> exists m, broadcast_tooffsets64 c (offsets_of counts) = Err m).
Proof.
  intros c lists counts Ht Hr Hd Hpos. destruct (list_type_view c Ht) as (l & c' & Hv).
  assert (forall s z x, c <> Regular s z x) as Hr' by (intros s z x ->; now apply Hr).
  destruct (broadcast_list c l c' lists counts Hd Hv Hr' Hpos) as [(He & c'' & H1 & H2)|[Hne H]]; (split; [intros Heq|intros Hneq]); try contradiction.
  - exists c''. split; [exact H1|]. pose proof (listoffset_den0 _ _ H2) as H3. rewrite <- Heq in H3. exact H3.
  - exact H.
Qed.
Print Assumptions C06_broadcast_tooffsets64_list.
Example C06_broadcast_tooffsets64_list_ex :
  (exists content, broadcast_tooffsets64 ex_list (offsets_of [2; 0; 3]) = Ok (ListOffset [0; 2; 2; 5] content) /\ den content = Some [VInt 13; VInt 14; VInt 10; VInt 11; VInt 12]) /\
  broadcast_tooffsets64 ex_list (offsets_of [2; 1; 3; 1]) = Err "cannot broadcast nested list".
Proof. split; [eexists; split|]; vm_compute; reflexivity. Qed.

(** ... for a RegularArray, all of the lists, or an error; ... *)
Theorem C06_broadcast_tooffsets64_regular : forall c lists counts, is_regular c -> ~ size_one c -> den c = Some (map VList lists) ->
  Forall (fun n => 0 <= n) counts ->
  (counts = map zlen lists ->
     exists content, broadcast_tooffsets64 c (offsets_of counts) = Ok (ListOffset (offsets_of counts) content) /\
       den (ListOffset (offsets_of counts) content) = Some (map VList lists))
  /\ (counts <> map zlen lists -> exists m, broadcast_tooffsets64 c (offsets_of counts) = Err m).
Proof.
  intros c lists counts Ht Hs Hd Hpos. destruct c; try contradiction.
  assert (size <> 1) as Hs1 by (intros ->; now apply Hs).
  destruct (broadcast_reg _ _ _ lists counts Hd Hs1 Hpos) as [(He & H1 & tail & H2)|[Hne H]]; (split; [intros Heq|intros Hneq]); try contradiction.
  - exists c. split; [exact H1|]. rewrite Heq. eapply listoffset_den. exact H2.
  - exact H.
Qed.
Print Assumptions C06_broadcast_tooffsets64_regular.
Example C06_broadcast_tooffsets64_regular_ex :
  let c := Regular 2 0 (Numpy DInt [1; 2; 3; 4; 5]) in
  broadcast_tooffsets64 c (offsets_of [2; 2]) = Ok (ListOffset [0; 2; 4] (Numpy DInt [1; 2; 3; 4; 5])) /\
  broadcast_tooffsets64 c (offsets_of [2; 3]) = Err "cannot broadcast nested list".
Proof. split; vm_compute; reflexivity. Qed.

(** ... and lists of exactly one element (size 1) are repeated to the length asked for. *)
Theorem C06_broadcast_tooffsets64_one : forall c lists counts, size_one c -> den c = Some (map VList lists) ->
  Forall (fun n => 0 <= n) counts -> zlen counts = zlen lists ->
  exists content, broadcast_tooffsets64 c (offsets_of counts) = Ok (ListOffset (offsets_of counts) content) /\
    den (ListOffset (offsets_of counts) content)
      = Some (map VList (map (fun lc => concat (repeat (fst lc) (Z.to_nat (snd lc)))) (combine lists counts))).
Proof.
  intros c lists counts Hs Hd Hpos Hl. destruct c; try contradiction. cbn in Hs.
  assert (size = 1) as -> by (destruct size as [|[| |]|]; try contradiction; reflexivity).
  destruct (broadcast_reg1 _ _ lists counts Hd Hpos Hl) as (c'' & H1 & H2). exists c''. split; [exact H1|].
  set (segs := map (fun lc => concat (repeat (fst lc) (Z.to_nat (snd lc)))) (combine lists counts)) in *.
  assert (counts = map zlen segs) as Hc; [|pose proof (listoffset_den0 segs c'' H2) as H3; rewrite <- Hc in H3; exact H3].
  destruct (regular_inv _ _ _ _ Hd) as (ws & segs' & _ & _ & E & Hlen & _). apply map_VList_inj in E as <-.
  unfold segs. rewrite map_map. apply list_eqZ; [rewrite zlen_map, zlen_combine; lia|]. intros i Hi. rewrite nthZ_map, nthZ_combine.
  destruct (nthZ_lt counts i Hi) as [n Hn]. destruct (nthZ_lt lists i) as [s Hs']; [lia|]. rewrite Hn, Hs'. cbn [option_map fst snd]. f_equal.
  assert (zlen s = 1) as H1s by (apply Hlen; eapply nthZ_In; exact Hs'). unfold nonneg_counts in Hpos. rewrite Forall_forall in Hpos.
  specialize (Hpos n (nthZ_In _ _ _ Hn)). rewrite (zlen_concat_const _ 1) by (intros l Hin; apply repeat_spec in Hin; congruence).
  rewrite zlen_repeat. lia.
Qed.
Print Assumptions C06_broadcast_tooffsets64_one.
Example C06_broadcast_tooffsets64_one_ex :
  broadcast_tooffsets64 (Regular 1 0 (Numpy DInt [1; 2; 3])) (offsets_of [2; 0; 3]) = Ok (ListOffset [0; 2; 2; 5] (Numpy DInt [1; 1; 3; 3; 3])).
Proof. vm_compute; reflexivity. Qed.

(** Offsets that go down make broadcast_tooffsets64 write outside of the buffer it allocated before its own
    check on the offsets is reached: the error is only raised after the damage. *)
Theorem C06_broadcast_nonmonotonic_refuted :
  exists c vs, den c = Some vs /\ broadcast_tooffsets64 c [0; 2; 1] = UB.
Proof. exists ex_list, (map VList ex_list_values). split; vm_compute; reflexivity. Qed.
Print Assumptions C06_broadcast_nonmonotonic_refuted.

(** toRegularArray: the same values if all lists have one length, an error if not. *)
Theorem C06_toRegularArray : forall is64 c lists, list_type c -> den c = Some (map VList lists) -> offsets_inside c ->
  all_same_length lists ->
  exists c', toRegularArray is64 c = Ok c' /\ is_regular c' /\ den c' = Some (map VList lists).
Proof.
  intros is64 c lists Ht Hd Hin Hsame. destruct c; try contradiction.
  - destruct (lista_toregular is64 _ _ _ _ Hd) as [H _]. destruct (H Hsame) as (size & c' & H1 & H2). eexists; split; [exact H1|]. split; [exact I|exact H2].
  - destruct (listoffset_toregular _ _ _ Hd) as [H _]. destruct (H Hsame (or_intror Hin)) as (size & c' & H1 & H2).
    eexists; split; [exact H1|]. split; [exact I|exact H2].
  - eexists; split; [reflexivity|]. split; [exact I|exact Hd].
Qed.
Print Assumptions C06_toRegularArray.
Example C06_toRegularArray_ex :
  let c := ListA [3; 0; 1] [5; 2; 3] (Numpy DInt [10; 11; 12; 13; 14; 15]) in
  toRegularArray true c = Ok (Regular 2 3 (Numpy DInt [13; 14; 10; 11; 11; 12])).
Proof. vm_compute; reflexivity. Qed.

Theorem C06_toRegularArray_irregular : forall is64 c lists, list_type c -> ~ is_regular c -> den c = Some (map VList lists) ->
  ~ all_same_length lists -> exists m, toRegularArray is64 c = Err m.
Proof.
  intros is64 c lists Ht Hr Hd Hne.
  assert (exists s t, In s lists /\ In t lists /\ zlen s <> zlen t) as Hex.
  { destruct lists as [|s0 rest]; [elim Hne; intros s t []|].
    destruct (forallb (fun t => zlen t =? zlen s0) (s0 :: rest)) eqn:E.
    - elim Hne. intros s t Hs Ht'. rewrite forallb_forall in E. pose proof (E s Hs). pose proof (E t Ht'). lia.
    - assert (existsb (fun t => negb (zlen t =? zlen s0)) (s0 :: rest) = true) as Ex.
      { clear -E. induction (s0 :: rest) as [|x l IH] in s0, E |- *; [discriminate|]. cbn in *. destruct (zlen x =? zlen s0); cbn in *; [now apply IH|reflexivity]. }
      apply existsb_exists in Ex as (t & Hin & Ht'). exists t, s0. split; [exact Hin|]. split; [now left|lia]. }
  destruct c; try contradiction.
  - destruct (lista_toregular is64 _ _ _ _ Hd) as [_ H]. now apply H.
  - destruct (listoffset_toregular _ _ _ Hd) as [_ H]. now apply H.
Qed.
Print Assumptions C06_toRegularArray_irregular.
Example C06_toRegularArray_irregular_ex : ~ all_same_length ex_list_values /\
  toRegularArray true ex_list = Err "cannot convert to RegularArray because subarray lengths are not regular".
Proof. split; [|vm_compute; reflexivity]. intros H. specialize (H [VInt 13; VInt 14] [] ltac:(now left) ltac:(right; now left)). discriminate. Qed.

(** Without [offsets_inside] the conversion fails on an array that is valid (its lists are all empty,
    with offsets pointing past the end of the content). *)
Theorem C06_toRegularArray_empty_refuted :
  exists c lists, den c = Some (map VList lists) /\ all_same_length lists /\ validityerror c = Ok None /\ exists m, toRegularArray true c = Err m.
Proof.
  exists (ListOffset [7; 7; 7] (ListOffset [0; 1] (Numpy DInt [1]))), [[]; []].
  split; [vm_compute; reflexivity|]. split; [intros s t [<-|[<-|[]]] [<-|[<-|[]]]; reflexivity|]. split; [vm_compute; reflexivity|].
  eexists. vm_compute. reflexivity.
Qed.
Print Assumptions C06_toRegularArray_empty_refuted.
