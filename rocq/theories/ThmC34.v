(** C34: a partitioned array behaves as the concatenation of its partitions. *)
From Verif Require Import Base BaseLemmas OmapLemmas Content SpecArray SpecForm SpecSlice KRange KCore Core Convert Option KMerge Merge SpecMerge Getitem Partition SpecPartition
  PRange PCore PMerge PPartition PRepartition.
Local Open Scope string_scope. Local Open Scope list_scope. Local Open Scope Z_scope.

(** array[i] is the element of the concatenation, counted from the end if i is negative; anything else is an error *)
Theorem C34_getitem_at : forall p vs i, holds p vs ->
  match pgetitem_at p i with
  | Ok it => exists v, nthZ vs (if i <? 0 then i + zlen vs else i) = Some v /\ item_den it = Some v
  | Err _ => nthZ vs (if i <? 0 then i + zlen vs else i) = None
  | UB => False
  end.
Proof. intros p vs i (vss & H & <-). exact (pgetitem_at_ok (fun _ => true) p vss H i). Qed.
Print Assumptions C34_getitem_at.

(** array[start:stop:step] is a partitioned array of the elements that Python's slice selects from the concatenation, in order.
    The bounds on the length and on the step keep the arithmetic of the code within 64 bits. *)
Theorem C34_getitem_range : forall is64 p vs start stop step, holds p vs -> zlen vs < kSliceNone -> step <> 0 -> - 2 ^ 62 <= step <= 2 ^ 62 ->
  exists p' us, pgetitem_range is64 p start stop step = Ok p' /\ holds p' us /\
    omap (nthZ vs) (py_slice (opt64 start) (opt64 stop) step (zlen vs)) = Some us.
Proof. intros is64 p vs start stop step (vss & H & <-) HN Hs Hb. apply (pgetitem_range_ok is64 p vss H); [exact Hs| |exact HN]. unfold kSliceNone. lia. Qed.
Print Assumptions C34_getitem_range.

(** array[start:stop], without a step *)
Theorem C34_getitem_range_nostep : forall is64 p vs start stop, holds p vs -> zlen vs < kSliceNone ->
  exists p' us, pgetitem_range is64 p start stop kSliceNone = Ok p' /\ holds p' us /\
    omap (nthZ vs) (py_slice (opt64 start) (opt64 stop) 1 (zlen vs)) = Some us.
Proof. intros is64 p vs start stop (vss & H & <-) HN. apply (pgetitem_range_nostep is64 p vss H). exact HN. Qed.
Print Assumptions C34_getitem_range_nostep.

(** a step of zero is an error *)
Theorem C34_zero_step : forall is64 p vs start stop, holds p vs -> exists m, pgetitem_range is64 p start stop 0 = Err m.
Proof.
  intros is64 p vs start stop (vss & H & <-). unfold pgetitem_range. rewrite (plength_ok p vss H). cbn [bind]. destruct (regularize_rangeslice _ _ _ _ _ _) as [a b]. change (0 =? kSliceNone) with false. cbv iota.
  unfold pgetitem_range_nowrap. destruct (partitionid_index_at p a), (partitionid_index_at p b). eexists. reflexivity.
Qed.
Print Assumptions C34_zero_step.

(** repartitioning keeps the concatenation, up to the promotion of numbers when partitions of different types are joined.
    [ascending_stops]: the new partitions end in ascending order, the last one at the end of the array and no other one there (see
    C34_trailing_empty_refuted).
    Missing: partitions of types that do not merge (they are joined in a union), and partitions that contain unions. *)
Definition ascending_stops (n : Z) (stops : list Z) : Prop :=
  (forall i a b, nthZ (0 :: stops) i = Some a -> nthZ (0 :: stops) (i + 1) = Some b -> a <= b) /\ nthZ stops (zlen stops - 1) = Some n /\ Forall (fun s => s < n) (removelast stops).
Theorem C34_repartition_partial : forall rc refeq p vs stops, holds p vs -> ascending_stops (zlen vs) stops ->
  Forall tidy (partitions p) -> Forall (fun c => union_free (form_of c) = true) (partitions p) ->
  (forall a b, In a (partitions p) -> In b (partitions p) -> mergeable false a b = true) ->
  Forall (fun c => indexed_free c = true) (partitions p) \/ Forall (fun c => option_free (form_of c) = true) (partitions p) ->
  exists m, forall mfuel fuel, (m <= mfuel)%nat -> (m <= fuel)%nat ->
  exists p' vs', repartition rc (fun _ => false) refeq mfuel fuel p stops = Ok p' /\ pstops p' = stops /\ holds p' vs' /\ Forall2 (promotes rc) vs vs'.
Proof.
  intros rc refeq p vs stops (vss & H & <-) (S1 & S2 & S3) HT HU HM HO. exists (S (sumw (partitions p)) + 2 * length (partitions p) + 3)%nat. intros mfuel fuel Hm Hf.
  destruct (list_eq_dec Z.eq_dec stops (pstops p)) as [E|E].
  - exists p, (concat vss). unfold repartition. destruct (list_eq_dec Z.eq_dec stops (pstops p)); [|contradiction]. split; [reflexivity|]. split; [auto|]. split; [exists vss; auto|]. clear. induction (concat vss); constructor; [apply pr_refl|assumption].
  - apply (repartition_ok rc refeq mfuel p vss H HT HU HO HM); try assumption; lia.
Qed.
Print Assumptions C34_repartition_partial.

(** stops that are not those of an array of this length are an error *)
Theorem C34_wrong_length : forall rc narrow refeq mfuel fuel p vs stops n, holds p vs -> nthZ stops (zlen stops - 1) = Some n -> n <> zlen vs ->
  exists m, repartition rc narrow refeq mfuel fuel p stops = Err m.
Proof.
  intros rc narrow refeq mfuel fuel p vs stops n (vss & H & <-) Hl Hn. unfold repartition. pose proof (plength_ok p vss H) as PL. destruct (list_eq_dec Z.eq_dec stops (pstops p)) as [->|].
  - unfold plength, rd in PL. rewrite Hl in PL. injection PL as PL. contradiction.
  - rewrite PL. unfold rd at 1. rewrite Hl. cbn [bind]. destruct (Z.eqb_spec n (zlen (concat vss))); [contradiction|]. eexists. reflexivity.
Qed.
Print Assumptions C34_wrong_length.

(** ** Concrete cases *)
Definition C34_parts : parray :=
  PArray [ListOffset [0; 2; 2; 3] (Numpy DInt [1; 2; 3]); ListOffset [0] (Numpy DInt []); Regular 2 0 (Numpy DReal [5; 6; 7; 8]); IndexedOption [1; -1; 0] (ListA [0; 1] [1; 3] (Numpy DInt [9; 10; 11]))]
         [3; 3; 5; 8].
Definition C34_values : list value :=
  [VList [VInt 1; VInt 2]; VList []; VList [VInt 3]; VList [VReal 5; VReal 6]; VList [VReal 7; VReal 8]; VList [VInt 10; VInt 11]; VNone; VList [VInt 9]].
Lemma C34_ex : holds C34_parts C34_values.
Proof. eexists. split; [split; [vm_compute; reflexivity|]|]; [split; [discriminate|]|]; vm_compute; reflexivity. Qed.
Definition pvalues (r : res parray) : option (list Z * list value) :=
  match r with Ok p => option_map (fun l => (pstops p, concat l)) (omap den (partitions p)) | _ => None end.
Example C34_ex_down : pvalues (pgetitem_range (fun _ => true) C34_parts (-1) kSliceNone (-3)) = Some ([1; 2; 3], [VList [VInt 9]; VList [VReal 7; VReal 8]; VList []]).
Proof. vm_compute. reflexivity. Qed.
Example C34_ex_up : pvalues (pgetitem_range (fun _ => true) C34_parts 1 7 3) = Some ([1; 2], [VList []; VList [VReal 7; VReal 8]]).
Proof. vm_compute. reflexivity. Qed.
Example C34_ex_re : pvalues (repartition (fun z => z) (fun _ => false) (fun _ _ => false) 40 20 C34_parts [4; 4; 8]) =
  Some ([4; 4; 8], [VList [VReal 1; VReal 2]; VList []; VList [VReal 3]; VList [VReal 5; VReal 6]; VList [VReal 7; VReal 8]; VList [VReal 10; VReal 11]; VNone; VList [VReal 9]]).
Proof. vm_compute. reflexivity. Qed.
Example C34_ex_re_hyp : ascending_stops (zlen C34_values) [4; 4; 8] /\ Forall tidy (partitions C34_parts) /\ Forall (fun c => union_free (form_of c) = true) (partitions C34_parts) /\
  (forall a b, In a (partitions C34_parts) -> In b (partitions C34_parts) -> mergeable false a b = true) /\ Forall (fun c => indexed_free c = true) (partitions C34_parts).
Proof.
  split; [|repeat split; repeat constructor].
  - split; [|split; [reflexivity|repeat constructor; vm_compute; reflexivity]]. intros i a b Ha Hb. pose proof (nthZ_Some _ _ _ Ha) as Hi. change (zlen [0; 4; 4; 8]) with 4 in Hi.
    assert (C : i = 0 \/ i = 1 \/ i = 2 \/ i = 3) by lia. destruct C as [ -> | [ -> | [ -> | -> ]]]; vm_compute in Ha, Hb; congruence || (injection Ha as <-; injection Hb as <-; lia).
  - intros a b Ha Hb. cbn [partitions C34_parts In] in Ha, Hb. decompose [or] Ha; try contradiction; subst a; decompose [or] Hb; try contradiction; subst b; reflexivity.
Qed.

(** one more, empty, partition at the end: the loop needs a partition to take nothing from, and reads partitions_[numpartitions()] *)
Theorem C34_trailing_empty_refuted : exists p, holds p [VInt 1; VInt 2; VInt 3] /\
  forall rc narrow refeq mfuel fuel, repartition rc narrow refeq mfuel (S (S (S (S fuel)))) p [3; 3] = UB.
Proof.
  exists (PArray [Numpy DInt [1; 2; 3]] [3]). split; [|intros; reflexivity].
  eexists. split; [split; [vm_compute; reflexivity|]|]; [split; [discriminate|]|]; vm_compute; reflexivity.
Qed.
Print Assumptions C34_trailing_empty_refuted.
