(** C23 An ArrayBuilder rejects misnested calls and accepts well nested ones. *)
From Coq Require Import String.
From Verif Require Import Base BaseLemmas Content SpecArray Core Merge Builder SpecBuilder PBuilder PBuilderUnion PBuilderSpec PBuilderAll.
Local Open Scope string_scope.
Local Open Scope list_scope.
Local Open Scope Z_scope.

(** After calls that raised no error, end_list, index, end_tuple, field and end_record raise when the innermost open
    structure is not of their kind (or none is open). *)
Theorem C23_misnested_calls_raise : forall rc sizes ks b k es frs,
  zlen sizes <= 122 -> Forall (sized sizes) ks -> run rc new_builder ks = Ok b ->
  reading [] [] ks = Some (es, frs) -> misnested frs k ->
  exists msg, run rc new_builder (ks ++ [k]) = Err msg.
Proof.
  intros rc sizes ks b k es frs Hs Hz E R M. destruct (run_describes rc sizes Hs _ _ E Hz) as (es' & frs' & D).
  rewrite (describes_reading _ _ _ _ D) in R. injection R as -> ->. exact (describes_reject rc sizes Hs _ _ _ _ D (advance_misnested k frs es M)).
Qed.

(** So do all the other calls that are not well nested: data in a tuple or record before the first index or field, and
    the end of a tuple or record in which a slot or field was filled twice. *)
Theorem C23_calls_not_well_nested_raise : forall rc sizes ks b k es frs,
  zlen sizes <= 122 -> Forall (sized sizes) ks -> run rc new_builder ks = Ok b ->
  reading [] [] ks = Some (es, frs) -> advance es frs k = None ->
  exists msg, run rc new_builder (ks ++ [k]) = Err msg.
Proof.
  intros rc sizes ks b k es frs Hs Hz E R M. destruct (run_describes rc sizes Hs _ _ E Hz) as (es' & frs' & D).
  rewrite (describes_reading _ _ _ _ D) in R. injection R as -> ->. exact (describes_reject rc sizes Hs _ _ _ _ D M).
Qed.

(** Well nested calls do not raise.  Missing: an index has to be in the bounds of every open tuple, not only of the
    innermost one (see C23_nested_tuples_refuted), and sizes of tuples are not negative and not more than 122. *)
Theorem C23_well_nested_calls_succeed_partial : forall rc sizes ks es frs,
  zlen sizes <= 122 -> describes sizes ks es frs -> exists b, run rc new_builder ks = Ok b.
Proof. intros rc sizes ks es frs Hs D. destruct (describes_run rc sizes Hs _ _ _ D) as (b & E & _). eauto. Qed.

(** Without tuples there is nothing missing: a call raises exactly when it is not well nested. *)
Theorem C23_without_tuples : forall rc ks,
  Forall (fun k => match k with CBeginTuple _ => False | _ => True end) ks ->
  match reading [] [] ks with
  | Some _ => exists b, run rc new_builder ks = Ok b
  | None => exists msg, run rc new_builder ks = Err msg
  end.
Proof.
  intros rc ks HF. exact (reading_no_tuple rc ks HF [] [] [] (d_nil []) (Forall_nil _)).
Qed.

(** a well nested sequence, and calls that are not *)
Definition C23_calls := [CBeginList; CBeginRecord; CField "x"; CBeginTuple 2; CIndex 1; CBeginList].
Example C23_example :
  (exists b, run (fun z => z) new_builder C23_calls = Ok b)
  /\ Forall (sized [2]) C23_calls
  /\ (exists es frs, describes [2] C23_calls es frs /\ reading [] [] C23_calls = Some (es, frs)
      /\ misnested frs CEndTuple /\ misnested frs (CIndex 0) /\ misnested frs CEndRecord /\ misnested frs (CField "y")).
Proof.
  split; [eexists; vm_compute; reflexivity|]. split; [repeat constructor; cbn; lia|].
  eexists _, _. split; [|split; [vm_compute; reflexivity|repeat split]].
  apply (reads_describes [2] C23_calls [] [] []); [constructor|].
  do 6 (eexists _, _; split; [split; cbn; repeat (constructor; try lia); auto|split; [reflexivity|]]). split; reflexivity.
Qed.

(** ** Where the code differs *)
(** The bounds of an outer tuple are applied to the index of an inner one: ((1, 2),) cannot be written. *)
Theorem C23_nested_tuples_refuted :
  reading [] [] [CBeginTuple 1; CIndex 0; CBeginTuple 2; CIndex 0; CInt 1; CIndex 1; CInt 2; CEndTuple; CEndTuple]
    = Some ([ETuple 1 [(0, [ETuple 2 [(0, [EInt 1]); (1, [EInt 2])]])]], [])
  /\ forall rc, exists msg, run rc new_builder [CBeginTuple 1; CIndex 0; CBeginTuple 2; CIndex 0; CInt 1; CIndex 1; CInt 2; CEndTuple; CEndTuple] = Err msg.
Proof. split; [vm_compute; reflexivity|]. intros rc. eexists. vm_compute. reflexivity. Qed.
(** A negative index is not refused: the next call reads outside the contents. *)
Theorem C23_negative_index_refuted : forall rc, run rc new_builder [CBeginTuple 1; CIndex (-2); CInt 5] = UB.
Proof. reflexivity. Qed.
(** Neither is a negative number of fields. *)
Theorem C23_negative_size_refuted : forall rc, run rc new_builder [CBeginTuple (-1)] = UB.
Proof. reflexivity. Qed.
(** A place with more than 127 types: the type does not fit the 8 bits of a tag. *)
Theorem C23_many_types_refuted : forall rc, run rc new_builder (flat_map (fun n => [CBeginTuple n; CEndTuple]) (zseq 0 129)) = UB.
Proof. intros rc. vm_compute. reflexivity. Qed.

Print Assumptions C23_misnested_calls_raise.
Print Assumptions C23_calls_not_well_nested_raise.
Print Assumptions C23_well_nested_calls_succeed_partial.
Print Assumptions C23_without_tuples.
Print Assumptions C23_nested_tuples_refuted.
Print Assumptions C23_negative_index_refuted.
Print Assumptions C23_negative_size_refuted.
Print Assumptions C23_many_types_refuted.
