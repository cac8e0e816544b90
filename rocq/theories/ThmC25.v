(** C25 A cleared ArrayBuilder starts again. *)
From Coq Require Import String.
From Verif Require Import Base BaseLemmas Content SpecArray Core Merge Builder SpecBuilder PBuilder PBuilderUnion PBuilderSnap PBuilderSpec PBuilderAll PBuilderClear.
Local Open Scope string_scope.
Local Open Scope list_scope.
Local Open Scope Z_scope.

(** [segs] are runs of calls, each followed by clear(); [ks] are the calls after the last clear.  The snapshot shows what
    [ks] appended, as in C22.
    Missing: what is cleared has no tuples, records (refuted below) and real numbers, and nothing was open (refuted
    below).  After real numbers the node stays one of real numbers, so that integers appended later are shown as real
    numbers (C25_reals_stay). *)
Theorem C25_clear_restarts_partial : forall rc refeq fuel sizes segs ks es frs,
  (forall a b, refeq a b = true -> a = b) -> zlen sizes <= 122 ->
  Forall (fun ks => Forall plain_call ks /\ exists es, describes sizes ks es []) segs ->
  describes sizes ks es frs ->
  exists b0 b c, restarts rc new_builder segs = Ok b0 /\ run rc b0 ks = Ok b
    /\ snapshot rc refeq (S fuel) b = Ok c /\ den c = Some (map (value_of rc (es ++ pending frs)) es).
Proof.
  intros rc refeq fuel sizes segs ks es frs Hr Hs HF D.
  destruct (restarts_ok rc sizes Hs segs HF new_builder) as (b0 & E0 & H0 & _); [apply (h_unknown rc sizes 0); lia|exact I|].
  destruct (holds_continues rc sizes Hs b0 ks es frs H0 D) as (b & E & H). destruct (holds_shown rc sizes Hs refeq Hr fuel _ _ _ H) as (c & Ec & Dc & _).
  exists b0, b, c. auto.
Qed.
(** clear() leaves no items, whatever was appended, as long as the outermost node is not a tuple or record *)
Theorem C25_cleared_length : forall b,
  match b with BTuple _ _ _ _ | BRecord _ _ _ _ _ _ => True | _ => blength (clear b) = 0 end.
Proof. destruct b; reflexivity || exact I. Qed.

Definition C25_first : list entry := [EInt 1; ENull; EList [EBool true; EList []]; EInt 5].
Definition C25_second : list entry := [EList [EInt 7; EReal 3]; ERecord [("x", [EInt 1])]; ENull].
Example C25_example :
  (forall s, (s = C25_first \/ s = [ENull]) -> Forall plain_call (flat_map calls s) /\ describes [] (flat_map calls s) s [])
  /\ describes [] (flat_map calls C25_second) C25_second []
  /\ exists b0 b c, restarts (fun z => 10 * z) new_builder [flat_map calls C25_first; flat_map calls [ENull]] = Ok b0
     /\ run (fun z => 10 * z) b0 (flat_map calls C25_second) = Ok b
     /\ snapshot (fun z => 10 * z) (fun _ _ => false) 1 b = Ok c
     /\ den c = Some [VList [VReal 70; VReal 3]; VRec [("x", VInt 1)]; VNone].
Proof.
  split; [|split].
  - intros s [->| ->]; (split; [repeat constructor|apply writable_describes; repeat constructor]).
  - apply writable_describes. repeat constructor.
  - eexists _, _, _. split; [vm_compute; reflexivity|]. split; [vm_compute; reflexivity|]. split; vm_compute; reflexivity.
Qed.

(** ** What the code does with the rest *)
(** after a real number: integers stay real *)
Theorem C25_reals_stay : forall rc refeq fuel x z,
  exists b0 b c, restarts rc new_builder [[CReal x]] = Ok b0 /\ run rc b0 [CInt z] = Ok b
    /\ snapshot rc refeq (S fuel) b = Ok c /\ den c = Some [VReal (rc z)].
Proof. intros. eexists _, _, _. split; [reflexivity|]. split; [reflexivity|]. split; reflexivity. Qed.
(** A cleared record forgets its keys and keeps their contents: the next snapshot reads keys that are not there. *)
Theorem C25_record_refuted : forall rc refeq fuel,
  exists b0 b, restarts rc new_builder [[CBeginRecord; CField "x"; CInt 1; CEndRecord]] = Ok b0
    /\ run rc b0 [CBeginRecord; CEndRecord] = Ok b /\ snapshot rc refeq (S fuel) b = UB.
Proof. intros. eexists _, _. split; [reflexivity|]. split; [reflexivity|]. reflexivity. Qed.
(** With the same key again there is one key and two contents: the second key is read outside the list. *)
Theorem C25_same_record_refuted : forall rc refeq fuel,
  exists b0 b, restarts rc new_builder [[CBeginRecord; CField "x"; CInt 1; CEndRecord]] = Ok b0
    /\ run rc b0 [CBeginRecord; CField "x"; CInt 2; CEndRecord] = Ok b /\ snapshot rc refeq (S fuel) b = UB.
Proof. intros. eexists _, _. split; [reflexivity|]. split; [reflexivity|]. reflexivity. Qed.
(** A cleared tuple or record has length -1: null() allocates an index of that length. *)
Theorem C25_null_after_tuple_refuted : forall rc,
  exists b0, restarts rc new_builder [[CBeginTuple 1; CIndex 0; CInt 1; CEndTuple]] = Ok b0 /\ run rc b0 [CNull] = UB.
Proof. intros. eexists. split; [reflexivity|]. reflexivity. Qed.
(** Next to another type, a cleared tuple gets its contents again, after the old ones, and begin_tuple does not open it:
    1, (2,), clear, (3,) raises. *)
Theorem C25_tuple_refuted : forall rc,
  exists b0, restarts rc new_builder [[CInt 1; CBeginTuple 1; CIndex 0; CInt 2; CEndTuple]] = Ok b0
    /\ exists msg, run rc b0 [CBeginTuple 1; CIndex 0; CInt 3; CEndTuple] = Err msg.
Proof. intros. eexists. split; [reflexivity|]. eexists. vm_compute. reflexivity. Qed.
(** clear() with a list open: it is still open afterwards. *)
Theorem C25_open_list_refuted : forall rc refeq fuel,
  exists b0 b c, restarts rc new_builder [[CBeginList; CInt 1]] = Ok b0 /\ run rc b0 [CInt 2; CEndList] = Ok b
    /\ snapshot rc refeq (S fuel) b = Ok c /\ den c = Some [VList [VInt 2]].
Proof. intros. eexists _, _, _. split; [reflexivity|]. split; [reflexivity|]. split; vm_compute; reflexivity. Qed.

Print Assumptions C25_clear_restarts_partial.
Print Assumptions C25_cleared_length.
Print Assumptions C25_reals_stay.
Print Assumptions C25_record_refuted.
Print Assumptions C25_same_record_refuted.
Print Assumptions C25_null_after_tuple_refuted.
Print Assumptions C25_tuple_refuted.
Print Assumptions C25_open_list_refuted.
