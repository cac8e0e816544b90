(** C41: vectors of vectors written by ROOT are read as the lists they are. *)
From Coq Require Import String.
From Verif Require Import Base Content SpecArray Strided SpecStrided Uproot SpecUproot PUproot.
Local Open Scope string_scope.
Local Open Scope list_scope.
Local Open Scope Z_scope.

(** Each entry may stand anywhere in the data, with any version; only the places where entries begin are looked at. *)
Theorem C41_reads : forall t data bs byte_offsets entries,
  bytes_of data bs -> zlen bs < 2 ^ 31 -> zlen byte_offsets = zlen entries + 1 ->
  (forall i xss, nthZ entries i = Some xss ->
     Forall (Forall (holds t)) xss /\
     exists p version, nthZ byte_offsets i = Some p /\ stands_at bs p (entry_bytes t version xss) /\ zlen (entry_bytes t version xss) < 2 ^ 30) ->
  exists c, uproot_issue_90 (form_of t) data byte_offsets = Ok c /\ den c = Some (map (entry_value t) entries).
Proof.
  intros t data bs byte_offsets entries Hd Hl Ho He. destruct (impl_reads t data bs byte_offsets entries Hd Hl Ho He) as (c & Hc & Dc).
  exists c. split; [|exact Dc]. destruct t; exact Hc.
Qed.
Print Assumptions C41_reads.

Definition example_entries : list (list (list Z)) := [[[1; -2]; []; [3]]; []; [[2 ^ 31 - 1]]].
Definition example_bytes : list Z := [7] ++ entry_bytes RInt32 9 [[1; -2]; []; [3]] ++ [1; 2; 3] ++ entry_bytes RInt32 1 [] ++ entry_bytes RInt32 1 [[2 ^ 31 - 1]].
Definition example_data (bs : list Z) : ndarray := mkND (50 :: 60 :: bs ++ [70]) [zlen bs] [1] 2 1.
Lemma contiguous_bytes bs : bytes_of (example_data bs) bs.
Proof.
  split; [reflexivity|]. split; [reflexivity|]. split; [reflexivity|]. intros i b E. pose proof (BaseLemmas.nthZ_Some _ _ _ E) as Hi.
  unfold element, block, example_data. cbn [nd_mem nd_offset nd_strides nd_itemsize dot]. rewrite !BaseLemmas.zlen_cons, BaseLemmas.zlen_app. change (zlen [70]) with 1.
  destruct ((0 <=? 2 + (i * 1 + 0)) && (2 + (i * 1 + 0) + 1 <=? zlen bs + 1 + 1 + 1)) eqn:Eb; [|apply andb_false_iff in Eb; lia].
  f_equal. rewrite (BaseLemmas.slice_snoc_nth _ _ _ b); [rewrite BaseLemmas.slice_nil; reflexivity|lia|].
  rewrite !BaseLemmas.nthZ_cons. destruct (Z.eqb_spec (2 + (i * 1 + 0)) 0); [lia|]. destruct (Z.eqb_spec (2 + (i * 1 + 0) - 1) 0); [lia|].
  replace (2 + (i * 1 + 0) - 1 - 1) with i by lia. rewrite BaseLemmas.nthZ_app. destruct (Z.ltb_spec i (zlen bs)); [exact E|lia].
Qed.
Example C41_reads_example :
  (exists c, uproot_issue_90 (form_of RInt32) (example_data example_bytes) [1; 34; 40; 0] = Ok c /\ den c = Some (map (entry_value RInt32) example_entries)) /\
  uproot_issue_90 (form_of RInt32) (example_data example_bytes) [1; 34; 40; 0]
  = Ok (ListOffset [0; 3; 3; 4] (ListOffset [0; 2; 2; 3; 4] (Numpy DInt [1; -2; 3; 2 ^ 31 - 1]))).
Proof.
  split; [|vm_compute; reflexivity].
  apply (C41_reads RInt32 (example_data example_bytes) example_bytes); [apply contiguous_bytes|vm_compute; reflexivity|reflexivity|].
  intros i xss E. pose proof (BaseLemmas.nthZ_Some _ _ _ E) as Hi. change (zlen example_entries) with 3 in Hi.
  assert (i = 0 \/ i = 1 \/ i = 2) as [->|[->| ->]] by lia; injection E as <-.
  - split; [repeat constructor; cbn; lia|]. exists 1, 9. split; [reflexivity|]. split; [|vm_compute; reflexivity].
    exists [7], ([1; 2; 3] ++ entry_bytes RInt32 1 [] ++ entry_bytes RInt32 1 [[2 ^ 31 - 1]]). split; reflexivity.
  - split; [constructor|]. exists 34, 1. split; [reflexivity|]. split; [|vm_compute; reflexivity].
    exists ([7] ++ entry_bytes RInt32 9 [[1; -2]; []; [3]] ++ [1; 2; 3]), (entry_bytes RInt32 1 [[2 ^ 31 - 1]]). split; reflexivity.
  - split; [repeat constructor; cbn; lia|]. exists 40, 1. split; [reflexivity|]. split; [|vm_compute; reflexivity].
    exists ([7] ++ entry_bytes RInt32 9 [[1; -2]; []; [3]] ++ [1; 2; 3] ++ entry_bytes RInt32 1 []), []. split; reflexivity.
Qed.
(** floating point numbers: 1.0 is 0x3ff0000000000000 *)
Example C41_reads_float :
  exists c, uproot_issue_90 (form_of RFloat64) (example_data (entry_bytes RFloat64 9 [[0x3ff0000000000000]; []])) [0; 5] = Ok c /\
  den c = Some [VList [VList [VReal 0x3ff0000000000000]; VList []]].
Proof. eexists. split; vm_compute; reflexivity. Qed.

Theorem C41_other_forms : forall form data byte_offsets, (forall t, form <> form_of t) ->
  exists m, uproot_issue_90 form data byte_offsets = Err m.
Proof.
  intros form data byte_offsets H.
  destruct form as [[[f|dtype|]|dtype|]|dtype|]; try (eexists; reflexivity).
  cbn [uproot_issue_90]. destruct (String.eqb_spec dtype "int32") as [->|]; [exfalso; apply (H RInt32); reflexivity|].
  destruct (String.eqb_spec dtype "float64") as [->|]; [exfalso; apply (H RFloat64); reflexivity|]. eexists; reflexivity.
Qed.
Print Assumptions C41_other_forms.
Example C41_other_forms_example : exists form, forall t, form <> form_of t.
Proof. exists (FListOffset (FListOffset (FNumpy "int64"))). intros []; discriminate. Qed.

(** The data is not checked.  An array of bytes with a stride is read as if it had none: these are the bytes of one entry, every other byte of the buffer. *)
Theorem C41_strided_refuted : exists data bs,
  bs = entry_bytes RInt32 1 [[5]] /\ nd_shape data = [zlen bs] /\ wellformed data /\
  (forall i b, nthZ bs i = Some b -> element data [i] = Some [b]) /\
  forall c, uproot_issue_90 (form_of RInt32) data [0; 14] = Ok c -> den c <> Some [entry_value RInt32 [[5]]].
Proof.
  set (bs := entry_bytes RInt32 1 [[5]]).
  set (mem := concat (map (fun b => [b; 0]) bs)).
  assert (Hel : forall i b, nthZ bs i = Some b -> element (mkND mem [zlen bs] [2] 0 1) [i] = Some [b]).
  { intros i b E. pose proof (BaseLemmas.nthZ_Some _ _ _ E) as Hi. change (zlen bs) with 14 in Hi.
    assert (Hin : In i (zseq 0 14)) by (apply BaseLemmas.In_zseq; lia).
    change (zseq 0 14) with [0; 1; 2; 3; 4; 5; 6; 7; 8; 9; 10; 11; 12; 13] in Hin. cbn [In] in Hin.
    repeat (destruct Hin as [<-|Hin]; [vm_compute in E; injection E as <-; vm_compute; reflexivity|]). contradiction. }
  exists (mkND mem [zlen bs] [2] 0 1), bs. split; [reflexivity|]. split; [reflexivity|]. split; [|split; [exact Hel|]].
  - split; [reflexivity|]. split; [constructor; [vm_compute; discriminate|constructor]|]. split; [reflexivity|].
    intros idx Hi. inversion Hi as [|? i ? l Hi0 Hi1]; subst. inversion Hi1; subst.
    destruct (BaseLemmas.nthZ_lt bs i Hi0) as [b E]. rewrite (Hel i b E). discriminate.
  - intros c Hc. vm_compute in Hc. try discriminate Hc. injection Hc as <-. vm_compute. discriminate.
Qed.
Print Assumptions C41_strided_refuted.

(** truncated data: it is read beyond its end *)
Theorem C41_truncated_refuted : exists data bs, bytes_of data bs /\ uproot_issue_90 (form_of RInt32) data [0; zlen bs] = UB.
Proof.
  exists (mkND [64; 0; 0; 10; 0; 1; 0; 0; 0] [9] [1] 0 1), [64; 0; 0; 10; 0; 1; 0; 0; 0]. split; [|vm_compute; reflexivity].
  repeat split. intros i b E. pose proof (BaseLemmas.nthZ_Some _ _ _ E) as Hi. change (zlen [64; 0; 0; 10; 0; 1; 0; 0; 0]) with 9 in Hi.
  assert (Hin : In i (zseq 0 9)) by (apply BaseLemmas.In_zseq; lia). change (zseq 0 9) with [0; 1; 2; 3; 4; 5; 6; 7; 8] in Hin. cbn [In] in Hin.
  repeat (destruct Hin as [<-|Hin]; [vm_compute in E; injection E as <-; vm_compute; reflexivity|]). contradiction.
Qed.
Print Assumptions C41_truncated_refuted.

(** an inner vector of negative length: no exception, and the result is not an array *)
Theorem C41_negative_length_refuted : exists data bs c, bytes_of data bs /\
  uproot_issue_90 (form_of RInt32) data [0; zlen bs] = Ok c /\ den c = None.
Proof.
  exists (example_data (be 4 (2 ^ 30 + 6) ++ be 2 1 ++ be 4 (-1))), (be 4 (2 ^ 30 + 6) ++ be 2 1 ++ be 4 (-1)).
  eexists. split; [apply contiguous_bytes|]. split; vm_compute; reflexivity.
Qed.
Print Assumptions C41_negative_length_refuted.

(** without any offset memory is written out of bounds, whatever the data *)
Theorem C41_no_offsets_refuted : forall t data, uproot_issue_90 (form_of t) data [] = UB.
Proof. intros [] data; reflexivity. Qed.
Print Assumptions C41_no_offsets_refuted.
