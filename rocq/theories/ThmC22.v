(** C22 An ArrayBuilder's snapshot shows the data that was appended. *)
From Coq Require Import String.
From Verif Require Import Base BaseLemmas Content SpecArray Core Merge Builder SpecBuilder PBuilder PBuilderUnion PBuilderSnap PBuilderSpec PBuilderAll.
Local Open Scope string_scope.
Local Open Scope list_scope.
Local Open Scope Z_scope.

(** [es] are complete data, appended one after the other: the snapshot's values are theirs.
    [refeq] is the test that two arrays are the same object; a tuple may have any of 122 sizes. *)
Theorem C22_snapshot_shows_data : forall rc refeq fuel sizes es,
  (forall a b, refeq a b = true -> a = b) -> zlen sizes <= 122 -> Forall (writable sizes []) es ->
  exists b c, run rc new_builder (flat_map calls es) = Ok b
    /\ snapshot rc refeq (S fuel) b = Ok c /\ den c = Some (values rc es).
Proof.
  intros rc refeq fuel sizes es Hr Hs Hw. pose proof (writable_describes sizes es Hw) as D.
  destruct (describes_run rc sizes Hs _ _ _ D) as (b & E & H). destruct (holds_shown rc sizes Hs refeq Hr fuel _ _ _ H) as (c & Ec & Dc & _).
  exists b, c. split; [exact E|]. split; [exact Ec|]. rewrite Dc. cbn [pending]. now rewrite app_nil_r.
Qed.

(** The same for any calls that raised no error, at any moment, with structures still open: the snapshot shows what is
    closed.  What is still open matters only for the types: a real number, or a key, in an open structure counts. *)
Theorem C22_snapshot_at_any_time : forall rc refeq fuel sizes ks b,
  (forall a b, refeq a b = true -> a = b) -> zlen sizes <= 122 -> Forall (sized sizes) ks ->
  run rc new_builder ks = Ok b ->
  exists es frs c, reading [] [] ks = Some (es, frs)
    /\ snapshot rc refeq (S fuel) b = Ok c /\ den c = Some (map (value_of rc (es ++ pending frs)) es).
Proof.
  intros rc refeq fuel sizes ks b Hr Hs Hz E. destruct (run_describes rc sizes Hs _ _ E Hz) as (es & frs & D).
  destruct (describes_run rc sizes Hs _ _ _ D) as (b' & E' & H). rewrite E in E'. injection E' as <-.
  destruct (holds_shown rc sizes Hs refeq Hr fuel _ _ _ H) as (c & Ec & Dc & _).
  exists es, frs, c. split; [eapply describes_reading; exact D|]. split; assumption.
Qed.

(** When nothing is open, the calls are exactly those that append the data. *)
Theorem C22_successful_calls_append_data : forall rc refeq fuel sizes ks b,
  (forall a b, refeq a b = true -> a = b) -> zlen sizes <= 122 -> Forall (sized sizes) ks ->
  run rc new_builder ks = Ok b ->
  forall es, reading [] [] ks = Some (es, []) ->
  ks = flat_map calls es /\ exists c, snapshot rc refeq (S fuel) b = Ok c /\ den c = Some (values rc es).
Proof.
  intros rc refeq fuel sizes ks b Hr Hs Hz E es R. destruct (run_describes rc sizes Hs _ _ E Hz) as (es' & frs & D).
  rewrite (describes_reading _ _ _ _ D) in R. injection R as -> ->. split; [rewrite <- (app_nil_r (flat_map calls es)); exact (describes_calls sizes _ _ _ D)|].
  destruct (describes_run rc sizes Hs _ _ _ D) as (b' & E' & H). rewrite E in E'. injection E' as <-.
  destruct (holds_shown rc sizes Hs refeq Hr fuel _ _ _ H) as (c & Ec & Dc & _). exists c. split; [exact Ec|]. rewrite Dc. cbn [pending]. now rewrite app_nil_r.
Qed.

(** the number of items is that of the data *)
Theorem C22_length : forall rc sizes ks b, zlen sizes <= 122 -> Forall (sized sizes) ks -> run rc new_builder ks = Ok b ->
  forall es frs, reading [] [] ks = Some (es, frs) -> blength b = zlen es.
Proof.
  intros rc sizes ks b Hs Hz E es frs R. destruct (run_describes rc sizes Hs _ _ E Hz) as (es' & frs' & D).
  rewrite (describes_reading _ _ _ _ D) in R. injection R as -> ->. destruct (describes_run rc sizes Hs _ _ _ D) as (b' & E' & H). rewrite E in E'. injection E' as <-.
  eapply holds_length. exact H.
Qed.

(** [1, None, [2, 3.5], {"x": 1, "y": (True, None)}, {"z": [{}]}, [], 7] *)
Definition C22_data : list entry :=
  [EInt 1; ENull; EList [EInt 2; EReal 35];
   ERecord [("x", [EInt 1]); ("y", [ETuple 2 [(0, [EBool true])]])];
   ERecord [("z", [EList [ERecord []]])]; EList []; EInt 7].
Example C22_example : Forall (writable [2] []) C22_data
  /\ exists b c, run (fun z => 10 * z) new_builder (flat_map calls C22_data) = Ok b
     /\ snapshot (fun z => 10 * z) (fun _ _ => false) 1 b = Ok c
     /\ den c = Some [VInt 1; VNone; VList [VReal 20; VReal 35];
                      VRec [("x", VInt 1); ("y", VTuple [VBool true; VNone]); ("z", VNone)];
                      VRec [("x", VNone); ("y", VNone); ("z", VList [VRec []])]; VList []; VInt 7].
Proof.
  split.
  - unfold C22_data. repeat (constructor; [cbn; repeat (split; try exact I; try lia; try reflexivity; auto); repeat constructor; lia|]). constructor.
  - eexists _, _. split; [vm_compute; reflexivity|]. split; vm_compute; reflexivity.
Qed.
(** with a list and a record open *)
Example C22_example_open :
  exists b, run (fun z => 10 * z) new_builder [CInt 1; CBeginList; CInt 2; CEndList; CBeginList; CBeginRecord; CField "x"; CReal 15] = Ok b
  /\ reading [] [] [CInt 1; CBeginList; CInt 2; CEndList; CBeginList; CBeginRecord; CField "x"; CReal 15]
     = Some ([EInt 1; EList [EInt 2]], [FList []; FRecord [] (Some ("x", [EReal 15]))]).
Proof. eexists. split; vm_compute; reflexivity. Qed.
Print Assumptions C22_snapshot_shows_data.
Print Assumptions C22_snapshot_at_any_time.
Print Assumptions C22_successful_calls_append_data.
Print Assumptions C22_length.
