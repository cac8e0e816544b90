(** C43: LayoutBuilder makes the array of the values it was given.

    A LayoutBuilder is made from a Form: it writes a program in the Forth dialect of C35 and C36, compiles it and runs it until it pauses;
    every call then puts a number on the machine's stack, its bytes into the machine's input, and resumes.  snapshot() reads the outputs. *)
From Coq Require Import String.
From Verif Require Import Base SpecArray Content Forms Forth ForthParse LayoutBuild SpecLayout PLayoutProgram.
Local Open Scope string_scope.
Local Open Scope list_scope.
Local Open Scope Z_scope.

(** For every Form of numbers, lists and records of a modelled shape (records hold numbers and records of numbers, or numbers and single lists of
    such records; lists may nest to any depth around them), with up to 300 nodes and with keys that are words and distinct, and for all values of
    the Form, fewer than 2^31 at each level: the constructor returns, none of the calls that append the values throws, and the snapshot is an
    array with exactly these values, in order. *)
Theorem C43_snapshot_partial : forall f s initial first,
  shape_of f = Some s -> nest s = true -> nodes s <= 300 ->
  NoDup (fst (keys_in f first)) -> forallb plain_key (fst (keys_in f first)) = true -> 8 <= initial < 2^63 ->
  forall vs, Forall (of_shape s) vs -> few s vs ->
  exists trips, forall fuel, (trips <= fuel)%nat ->
  exists b0 b c, layout_builder f initial first fuel = Ok (Some (Done b0))
              /\ lcalls fuel (calls_all vs) b0 = Some (Done b)
              /\ snapshot b = Ok c /\ den c = Some vs.
Proof. exact layout_ok. Qed.
Print Assumptions C43_snapshot_partial.

Definition with_key (k : string) : meta := mkMeta false [] (Some k).
Definition no_key : meta := mkMeta false [] None.
Definition int_form (m : meta) : form := FNumpy m [] 8 "l" int64.
Definition bool_form (m : meta) : form := FNumpy m [] 1 "?" boolean.
Definition events : form :=
  FListOffset no_key i64 (FRecord (with_key "hit") (Some ["x"; "ok"; "ys"]) [int_form (with_key "x"); bool_form no_key; FListOffset no_key i32 (int_form no_key)]).
Definition hit (x : Z) (ok : bool) (ys : list Z) : value := VRec [("x", VInt x); ("ok", VBool ok); ("ys", VList (map VInt ys))].
Lemma hit_ok : forall x ok ys, - 2^63 <= x < 2^63 -> Forall (fun y => - 2^63 <= y < 2^63) ys -> of_shape (SRec (Some ["x"; "ok"; "ys"]) [SNum LInt; SNum LBool; SList i32 (SNum LInt)]) (hit x ok ys).
Proof.
  intros x ok ys Hx Hy. split; [ exists [VInt x; VBool ok; VList (map VInt ys)]; split; reflexivity | ]. split; [ exists x; split; [ reflexivity | exact Hx ] | ]. split; [ exists ok; reflexivity | ]. split; [ | exact I ].
  exists (map VInt ys). split; [ reflexivity | ]. induction Hy as [ | y ys H _ IH ]; [ exact I | ]. split; [ exists y; split; [ reflexivity | exact H ] | exact IH ].
Qed.
Example C43_snapshot_ex : exists s, shape_of events = Some s /\ nest s = true /\ nodes s <= 300
  /\ NoDup (fst (keys_in events 0)) /\ forallb plain_key (fst (keys_in events 0)) = true
  /\ (let vs := [VList [hit 1 true [2; 3]; hit (-4) false []]; VList []] in Forall (of_shape s) vs /\ few s vs
      /\ exists trips, forall fuel, (trips <= fuel)%nat -> exists b0 b c, layout_builder events 1024 0 fuel = Ok (Some (Done b0))
           /\ lcalls fuel [CBegin; CInt 1; CBool true; CBegin; CInt 2; CInt 3; CEnd; CInt (-4); CBool false; CBegin; CEnd; CEnd; CBegin; CEnd] b0 = Some (Done b)
           /\ snapshot b = Ok c /\ den c = Some vs).
Proof.
  eexists. split; [ reflexivity | ]. split; [ reflexivity | ]. split; [ vm_compute; discriminate | ].
  assert (ND : NoDup (fst (keys_in events 0))) by (vm_compute; repeat (constructor; [ cbn; intros H; repeat (destruct H as [ H | H ]; [ discriminate H | ]); exact H | ]); constructor).
  assert (PK : forallb plain_key (fst (keys_in events 0)) = true) by reflexivity.
  split; [ exact ND | ]. split; [ exact PK | ]. intros vs.
  assert (HV : Forall (of_shape (SList i64 (SRec (Some ["x"; "ok"; "ys"]) [SNum LInt; SNum LBool; SList i32 (SNum LInt)]))) vs).
  { repeat constructor.
    - exists [hit 1 true [2; 3]; hit (-4) false []]. split; [ reflexivity | ]. split; [ | split; [ | exact I ] ]; (apply hit_ok; [ lia | repeat constructor; lia ]).
    - exists []. split; [ reflexivity | exact I ]. }
  assert (HF : few (SList i64 (SRec (Some ["x"; "ok"; "ys"]) [SNum LInt; SNum LBool; SList i32 (SNum LInt)])) vs) by (vm_compute; auto 20).
  split; [ exact HV | ]. split; [ exact HF | ]. apply (C43_snapshot_partial events _ 1024 0 eq_refl eq_refl) with (vs := vs); try assumption; [ vm_compute; discriminate | lia ].
Qed.

(** ** What is not so *)

(** A history of calls on a new LayoutBuilder; 1000 trips of the machine are enough for all of these. *)
Definition history (f : form) (cs : list call) : option outcome :=
  match layout_builder f 64 0 1000 with Ok (Some (Done b)) => lcalls 1000 cs b | _ => None end.
Definition array_after (f : form) (cs : list call) : option content :=
  match history f cs with Some (Done b) => match snapshot b with Ok c => Some c | _ => None end | _ => None end.

(** No LayoutBuilder can be made for a list with starts and stops: its program is not in the language (a space is missing before the text of its error). *)
Theorem C43_list_array_refuted : forall initial first fuel,
  exists msg, layout_builder (FList (with_key "a") i64 i64 (int_form (with_key "b"))) initial first fuel = Err msg.
Proof. intros initial first fuel. eexists. vm_compute. reflexivity. Qed.
Print Assumptions C43_list_array_refuted.

(** A record's field that is a list of lists: {"x": 1, "y": [[2], [3]]} is refused in the middle. *)
Definition nested_field : form := FRecord (with_key "r") (Some ["x"; "y"]) [int_form (with_key "a"); FListOffset (with_key "b") i64 (FListOffset (with_key "c") i64 (int_form (with_key "d")))].
Theorem C43_lists_in_records_refuted :
  (exists s, shape_of nested_field = Some s /\ of_shape s (VRec [("x", VInt 1); ("y", VList [VList [VInt 2]; VList [VInt 3]])]))
  /\ exists msg b, history nested_field (calls_of (VRec [("x", VInt 1); ("y", VList [VList [VInt 2]; VList [VInt 3]])])) = Some (Threw msg b).
Proof.
  split.
  - eexists. split; [ reflexivity | ]. split; [ exists [VInt 1; VList [VList [VInt 2]; VList [VInt 3]]]; split; reflexivity | ]. split; [ exists 1; split; [ reflexivity | lia ] | ]. split; [ | exact I ].
    exists [VList [VInt 2]; VList [VInt 3]]. split; [ reflexivity | ]. split; [ | split; [ | exact I ] ]; [ exists [VInt 2] | exists [VInt 3] ]; (split; [ reflexivity | ]); (split; [ eexists; split; [ reflexivity | lia ] | exact I ]).
  - do 2 eexists. vm_compute. reflexivity.
Qed.
Print Assumptions C43_lists_in_records_refuted.

(** A record's field that is a record, before one that is a list: {"p": {"a": 1, "b": 2}, "y": [3]} is refused. *)
Definition record_field : form := FRecord (with_key "r") (Some ["p"; "y"]) [FRecord (with_key "q") (Some ["a"; "b"]) [int_form (with_key "a"); int_form (with_key "b")]; FListOffset (with_key "c") i64 (int_form (with_key "d"))].
Theorem C43_records_in_records_refuted :
  (exists s, shape_of record_field = Some s /\ of_shape s (VRec [("p", VRec [("a", VInt 1); ("b", VInt 2)]); ("y", VList [VInt 3])]))
  /\ forall b, history record_field (calls_of (VRec [("p", VRec [("a", VInt 1); ("b", VInt 2)]); ("y", VList [VInt 3])])) <> Some (Done b).
Proof.
  split.
  - eexists. split; [ reflexivity | ]. split; [ exists [VRec [("a", VInt 1); ("b", VInt 2)]; VList [VInt 3]]; split; reflexivity | ]. split.
    + split; [ exists [VInt 1; VInt 2]; split; reflexivity | ]. split; [ exists 1; split; [ reflexivity | lia ] | ]. split; [ exists 2; split; [ reflexivity | lia ] | exact I ].
    + split; [ | exact I ]. exists [VInt 3]. split; [ reflexivity | ]. split; [ exists 3; split; [ reflexivity | lia ] | exact I ].
  - intros b. vm_compute. discriminate.
Qed.
Print Assumptions C43_records_in_records_refuted.

(** A string in a record: {"x": 1, "y": "AB"} is refused, as the characters are sent to the first field. *)
Definition string_form : form := FListOffset (mkMeta false [("__array__", JString "string")] (Some "s")) i64 (FNumpy (mkMeta false [("__array__", JString "char")] (Some "c")) [] 1 "B" uint8).
Theorem C43_strings_in_records_refuted :
  (exists c, array_after string_form [CString [65; 66]; CString [67]] = Some c)
  /\ exists msg b, history (FRecord (with_key "r") (Some ["x"; "y"]) [int_form (with_key "a"); string_form]) [CInt 1; CString [65; 66]] = Some (Threw msg b).
Proof. split; [ eexists; vm_compute; reflexivity | do 2 eexists; vm_compute; reflexivity ]. Qed.
Print Assumptions C43_strings_in_records_refuted.

(** Around a list, an option without mask, a mask or a regular list loses the first list: of [1], [2, 3] only the second is left, and a mask is
    neither asked for nor returned. *)
Theorem C43_wrapped_lists_refuted : let l := FListOffset (with_key "l") i64 (int_form (with_key "d")) in let cs := calls_all [VList [VInt 1]; VList [VInt 2; VInt 3]] in
  Forall (fun f => exists c, array_after f cs = Some c /\ den c = Some [VList [VInt 2; VInt 3]])
    [FUnmasked (with_key "u") l; FByteMasked (with_key "u") i8 l true; FBitMasked (with_key "u") u8 l true true].
Proof. intros l cs. repeat constructor; eexists; (split; [ vm_compute; reflexivity | vm_compute; reflexivity ]). Qed.
Print Assumptions C43_wrapped_lists_refuted.

(** Two options, or an option and an indexed node, cannot be in one Form: both define the same words. *)
Theorem C43_two_options_refuted : forall initial first fuel, let i k := int_form (with_key k) in let o k c := FIndexedOption (with_key k) i64 c in
  (exists c, array_after (o "a" (i "b")) [CInt 1; CNull; CInt 2] = Some c /\ den c = Some [VInt 1; VNone; VInt 2])
  /\ Forall (fun f => exists msg, layout_builder f initial first fuel = Err msg)
       [o "a" (o "b" (i "c")); FRecord (with_key "r") None [o "a" (i "b"); o "c" (i "d")]; o "a" (FIndexed (with_key "b") i64 (i "c"))].
Proof. intros initial first fuel i o. split; [ eexists; split; [ vm_compute; reflexivity | vm_compute; reflexivity ] | ]. repeat constructor; eexists; vm_compute; reflexivity. Qed.
Print Assumptions C43_two_options_refuted.

(** Lists of optional lists: [[1], None] is not accepted. *)
Theorem C43_optional_lists_refuted : forall b,
  history (FListOffset (with_key "a") i64 (FIndexedOption (with_key "b") i64 (FListOffset (with_key "c") i64 (int_form (with_key "d"))))) (calls_of (VList [VList [VInt 1]; VNone])) <> Some (Done b).
Proof. intros b. vm_compute. discriminate. Qed.
Print Assumptions C43_optional_lists_refuted.

(** Regular lists within lists: of [[1, 2], [3, 4]] there is a snapshot, but the outer offsets count the numbers and the array is not valid. *)
Theorem C43_regular_in_lists_refuted :
  exists c, array_after (FListOffset (with_key "a") i64 (FRegular (with_key "b") (int_form (with_key "c")) 2)) [CBegin; CInt 1; CInt 2; CInt 3; CInt 4; CEnd] = Some c /\ den c = None.
Proof. eexists. split; [ vm_compute; reflexivity | ]. vm_compute. reflexivity. Qed.
Print Assumptions C43_regular_in_lists_refuted.

(** After a refusal the machine has stopped, but the next calls return as if they had appended something; then the snapshot throws. *)
Theorem C43_refused_refuted : let f := FListOffset (with_key "a") i64 (int_form (with_key "b")) in
  exists b0 msg b b' msg', layout_builder f 64 0 1000 = Ok (Some (Done b0)) /\ lcall 1000 (CInt 1) b0 = Some (Threw msg b)
  /\ lcalls 1000 [CInt 5; CInt 6] b = Some (Done b') /\ snapshot b' = Err msg'.
Proof. do 5 eexists. split; [ vm_compute; reflexivity | ]. split; [ vm_compute; reflexivity | ]. split; [ vm_compute; reflexivity | ]. vm_compute. reflexivity. Qed.
Print Assumptions C43_refused_refuted.

(** end_list without begin_list on a record is not refused but undefined (the last element of an empty vector), and so is every number if the
    initial size is less than 8. *)
Theorem C43_undefined_refuted : history record_field [CEnd] = Some Undefined
  /\ exists b, layout_builder (int_form (with_key "a")) 4 0 1000 = Ok (Some (Done b)) /\ lcall 1000 (CInt 1) b = Some Undefined.
Proof. split; [ vm_compute; reflexivity | ]. eexists. split; [ vm_compute; reflexivity | ]. vm_compute. reflexivity. Qed.
Print Assumptions C43_undefined_refuted.
