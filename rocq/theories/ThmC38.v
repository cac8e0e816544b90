(** C38: JSON shows the values of an array, and reading JSON gives the values of the documents.

    The specification (SpecJson.v) says which document shows a value, and which value a document describes; how the values of a
    list of data look is specified for ArrayBuilder (SpecBuilder.v).  [isnan], ..., [minus_infinity] stand for the floating point
    operations, [rc] for the conversion of integers to floating point, [reread] for what the parser makes of the digits printed
    for a number; nothing is assumed about them. *)
From Coq Require Import String DecimalString.
From Verif Require Import Base BaseLemmas OmapLemmas Content Core Merge Builder SpecArray SpecBuilder PCore PForm PValid Getitem Types SpecTypes Json SpecJson PJson PJson2 PJson3.
Local Open Scope string_scope.
Local Open Scope list_scope.
Local Open Scope Z_scope.

(** ** Writing *)
(** The JSON text of a valid array is that of its list of values. *)
Theorem C38_writes_the_values_partial isnan isinf signbit o fuel c vs :
  den c = Some vs -> Forall (showable isnan isinf signbit o) vs -> (vdepths vs < fuel)%nat ->
  tojson isnan isinf signbit fuel o c = Ok (text (document isnan isinf signbit o (VList vs))).
Proof. apply tojson_text. Qed.
Print Assumptions C38_writes_the_values_partial.

(** codes of real numbers, for the examples: 1000 is NaN, 1001 infinity, -1001 minus infinity, others are finite *)
Definition C38_isnan (r : Z) : bool := r =? 1000.
Definition C38_isinf (r : Z) : bool := Z.abs r =? 1001.
Definition C38_signbit (r : Z) : bool := r <? 0.
Definition C38_options : options := {| nan_string := Some "nan"; infinity_string := Some "inf"; minus_infinity_string := Some "-inf" |}.
Definition C38_plain : options := {| nan_string := None; infinity_string := None; minus_infinity_string := None |}.
Definition C38_array : content :=
  Record (Some ["x"; "y"]) 2
    [ListOffset [0; 2; 2] (Record None 2 [Numpy DInt [5; 6]; Numpy DReal [1000; 25]]);
     IndexedOption [-1; 0] (Numpy DReal [-1001])].
Example C38_writes_the_values_ex :
  den C38_array = Some [VRec [("x", VList [VTuple [VInt 5; VReal 1000]; VTuple [VInt 6; VReal 25]]); ("y", VNone)]; VRec [("x", VList []); ("y", VReal (-1001))]] /\
  tojson C38_isnan C38_isinf C38_signbit 9 C38_options C38_array =
    Ok (text (JList [JObject [("x", JList [JObject [("0", JInt 5); ("1", JString "nan")]; JObject [("0", JInt 6); ("1", JReal 25)]]); ("y", JNull)];
                     JObject [("x", JList []); ("y", JString "-inf")]])).
Proof. split; vm_compute; reflexivity. Qed.
Example C38_showable_ex : forall vs, den C38_array = Some vs -> Forall (showable C38_isnan C38_isinf C38_signbit C38_options) vs /\ (vdepths vs < 9)%nat.
Proof.
  intros vs H. rewrite (proj1 C38_writes_the_values_ex) in H. injection H as <-. split; [|vm_compute; repeat constructor].
  repeat constructor; cbn; unfold int64_range; repeat split; try lia; intros _; discriminate.
Qed.
(** Missing: unsigned integers of 2^63 and more are written as negative numbers (NumpyArray.cpp:4870-4872 casts to int64_t), *)
Theorem C38_writes_the_values_refuted_unsigned : exists c vs,
  den c = Some vs /\ tojson C38_isnan C38_isinf C38_signbit 9 C38_plain c <> Ok (text (document C38_isnan C38_isinf C38_signbit C38_plain (VList vs))).
Proof. exists (Numpy DInt [2 ^ 64 - 1]), [VInt (2 ^ 64 - 1)]. split; [reflexivity|]. vm_compute. discriminate. Qed.
Print Assumptions C38_writes_the_values_refuted_unsigned.
(** and without a string for NaN the text is no JSON: nothing stands between the comma and the bracket. *)
Theorem C38_writes_the_values_refuted_nan : exists c vs ts,
  den c = Some vs /\ tojson C38_isnan C38_isinf C38_signbit 9 C38_plain c = Ok ts /\ forall d, ts <> text d.
Proof.
  exists (Numpy DReal [25; 1000]), [VReal 25; VReal 1000], [TBeginList; TReal 25; TBroken; TEndList]. split; [reflexivity|]. split; [vm_compute; reflexivity|].
  assert (G : forall d, ~ In TBroken (text d)).
  { induction d using json_ind'; cbn; try (intros [E|[]]; discriminate); (intros [E|Hin]; [discriminate|]); apply in_app_or in Hin; destruct Hin as [Hin|[E|[]]]; try discriminate; apply in_flat_map in Hin; destruct Hin as (x & Hx & Hin);
      rewrite Forall_forall in H; [exact (H x Hx Hin)|]. destruct Hin as [E|Hin]; [discriminate|exact (H x Hx Hin)]. }
  intros d E. apply (G d). rewrite <- E. right. right. left. reflexivity.
Qed.
Print Assumptions C38_writes_the_values_refuted_nan.

(** ** Reading *)
(** Reading documents gives the values of the data they describe: one document gives its value, several their list. *)
Theorem C38_reads_the_documents_partial quiet_nan infinity minus_infinity o rc refeq fuel docs :
  (forall a b, refeq a b = true -> a = b) ->
  Forall (covered_document quiet_nan infinity minus_infinity o) docs -> Forall keys_once docs ->
  exists it, do_parse quiet_nan infinity minus_infinity rc refeq (S fuel) o (map text docs) White = Ok it /\
    item_den it = match values rc (map (datum quiet_nan infinity minus_infinity o) docs) with [v] => Some v | vs => Some (VList vs) end.
Proof. intros Hr. apply parse_ok. exact Hr. Qed.
Print Assumptions C38_reads_the_documents_partial.
Definition C38_refeq (a b : content) : bool := false.
Definition C38_docs : list json :=
  [JObject [("x", JInt 1); ("y", JList [JInt 2; JReal 35; JString "inf"])]; JObject [("y", JList []); ("z", JBool true)]; JNull; JObject [("x", JNull)]].
Example C38_reads_the_documents_ex : exists it,
  do_parse 1000 1001 (-1001) (fun z => z * 10) C38_refeq 9 C38_options (map text C38_docs) White = Ok it /\
  item_den it = Some (VList [VRec [("x", VInt 1); ("y", VList [VReal 20; VReal 35; VReal 1001]); ("z", VNone)]; VRec [("x", VNone); ("y", VList []); ("z", VBool true)];
                             VNone; VRec [("x", VNone); ("y", VNone); ("z", VNone)]]).
Proof. eexists. split; vm_compute; reflexivity. Qed.
Example C38_docs_covered : Forall (covered_document 1000 1001 (-1001) C38_options) C38_docs /\ Forall keys_once C38_docs.
Proof.
  split; repeat constructor; cbn; unfold int64_range; repeat split; try lia; try discriminate; repeat constructor; cbn; intuition discriminate.
Qed.
(** Missing: integers from 2^63 to 2^64 - 1 are read as negative numbers (json.cpp:690: builder_.integer((int64_t)x)). *)
Theorem C38_reads_the_documents_refuted_uint64 : exists z it,
  do_parse 1000 1001 (-1001) (fun z => z) C38_refeq 9 C38_plain [text (JList [JInt z])] White = Ok it /\ item_den it <> Some (VList [VInt z]) /\ item_den it = Some (VList [VInt (z - 2 ^ 64)]).
Proof. exists (2 ^ 64 - 1). eexists. split; [vm_compute; reflexivity|]. split; [vm_compute; discriminate|vm_compute; reflexivity]. Qed.
Print Assumptions C38_reads_the_documents_refuted_uint64.

(** ** Texts that are not documents *)
(** A text that ends with something the parser rejects raises an exception, if the parser has delivered some event of it or is
    not at the end of the text. *)
Theorem C38_rejected_text_raises_partial quiet_nan infinity minus_infinity o rc refeq fuel docs events at_end :
  events <> [] \/ at_end = false ->
  exists m, do_parse quiet_nan infinity minus_infinity rc refeq fuel o docs (Rejected events at_end) = Err m.
Proof. apply rejected_raises. Qed.
Print Assumptions C38_rejected_text_raises_partial.
Example C38_rejected_ex :
  do_parse 1000 1001 (-1001) (fun z => z) C38_refeq 9 C38_plain [[TInt 1]] (Rejected [TBeginList; TInt 2] true) = Err "incomplete JSON object at the end of the stream".
Proof. vm_compute. reflexivity. Qed.
(** Missing: a text cut within the first token of a document, for example the text of 1 followed by "tru", is accepted
    (json.cpp:783-795 looks at the events only). *)
Theorem C38_rejected_text_raises_refuted : exists docs it,
  docs <> [] /\ do_parse 1000 1001 (-1001) (fun z => z) C38_refeq 9 C38_plain docs (Rejected [] true) = Ok it.
Proof. exists [[TInt 1]]. eexists. split; [discriminate|]. vm_compute. reflexivity. Qed.
Print Assumptions C38_rejected_text_raises_refuted.

(** A document with a key twice in one object raises an exception. *)
Theorem C38_key_twice_raises quiet_nan infinity minus_infinity o rc refeq fuel docs r :
  Forall (covered_document quiet_nan infinity minus_infinity o) docs -> (exists d, In d docs /\ ~ keys_once d) ->
  exists m, do_parse quiet_nan infinity minus_infinity rc refeq fuel o (map text docs) r = Err m.
Proof. apply twice_raises. Qed.
Print Assumptions C38_key_twice_raises.
Definition C38_twice : json := JList [JObject [("x", JInt 1); ("y", JNull)]; JObject [("y", JInt 2); ("x", JInt 3); ("y", JInt 2)]].
Example C38_twice_ex : covered_document 1000 1001 (-1001) C38_plain C38_twice /\ ~ keys_once C38_twice.
Proof.
  split; [cbn; unfold int64_range; repeat split; lia|]. cbn. intros (_ & (HN & _) & _). inversion HN; subst. apply H1. right. left. reflexivity.
Qed.

(** ** There and back *)
(** An array without unions comes back from its own JSON text with the same values; tuples come back as records, real numbers
    as the parser reads their digits, and those that are not finite as the number their string stands for. *)
Theorem C38_round_trip_partial isnan isinf signbit quiet_nan infinity minus_infinity o reread rc refeq fuel fuel' c vs :
  (forall a b, refeq a b = true -> a = b) ->
  den c = Some vs -> faithful (type_of c) -> Forall (showable isnan isinf signbit o) vs -> (vdepths vs < fuel)%nat ->
  exists ts it, tojson isnan isinf signbit fuel o c = Ok ts /\
    do_parse quiet_nan infinity minus_infinity rc refeq (S fuel') o [map (reread_token reread) ts] White = Ok it /\
    item_den it = Some (VList (map (back isnan isinf signbit quiet_nan infinity minus_infinity o reread) vs)).
Proof. intros Hr. apply round_trip. exact Hr. Qed.
Print Assumptions C38_round_trip_partial.
(** With different strings for the numbers that are not finite they come back as what they were. *)
Theorem C38_special_numbers_come_back isnan isinf signbit quiet_nan infinity minus_infinity o reread a b c r :
  o = {| nan_string := Some a; infinity_string := Some b; minus_infinity_string := Some c |} -> NoDup [a; b; c] ->
  real_back isnan isinf signbit quiet_nan infinity minus_infinity o reread r =
    if isnan r then quiet_nan else if isinf r then (if signbit r then minus_infinity else infinity) else reread r.
Proof.
  intros -> HN. inversion HN as [|? ? N1 HN1]; subst. inversion HN1 as [|? ? N2 _]; subst. unfold real_back, special, named. cbn [nan_string infinity_string minus_infinity_string].
  destruct (isnan r); [now rewrite String.eqb_refl|]. destruct (isinf r); [|reflexivity]. destruct (signbit r).
  - destruct (String.eqb_spec c a) as [->|]; [exfalso; apply N1; cbn; auto|]. destruct (String.eqb_spec c b) as [->|]; [exfalso; apply N2; cbn; auto|]. now rewrite String.eqb_refl.
  - destruct (String.eqb_spec b a) as [->|]; [exfalso; apply N1; cbn; auto|]. now rewrite String.eqb_refl.
Qed.
Print Assumptions C38_special_numbers_come_back.
Example C38_round_trip_ex : faithful (type_of C38_array) /\ exists ts it,
  tojson C38_isnan C38_isinf C38_signbit 9 C38_options C38_array = Ok ts /\
  do_parse 1000 1001 (-1001) (fun z => z) C38_refeq 9 C38_options [ts] White = Ok it /\
  item_den it = Some (VList [VRec [("x", VList [VRec [("0", VInt 5); ("1", VReal 1000)]; VRec [("0", VInt 6); ("1", VReal 25)]]); ("y", VNone)]; VRec [("x", VList []); ("y", VReal (-1001))]]).
Proof.
  split; [cbn; repeat split; repeat constructor; cbn; intuition discriminate|]. do 2 eexists. repeat split; vm_compute; reflexivity.
Qed.
(** Missing: with the same string for NaN and infinity, infinity comes back as NaN; *)
Theorem C38_round_trip_refuted_strings : exists o ts it,
  tojson C38_isnan C38_isinf C38_signbit 9 o (Numpy DReal [1001]) = Ok ts /\
  do_parse 1000 1001 (-1001) (fun z => z) C38_refeq 9 o [ts] White = Ok it /\ item_den it = Some (VList [VReal 1000]).
Proof.
  exists {| nan_string := Some "null"; infinity_string := Some "null"; minus_infinity_string := Some "null" |}. do 2 eexists. repeat split; vm_compute; reflexivity.
Qed.
Print Assumptions C38_round_trip_refuted_strings.
(** the integers of a union of integers and real numbers come back as real numbers; *)
Theorem C38_round_trip_refuted_numbers : exists c ts it,
  den c = Some [VInt 1; VReal 25] /\
  tojson C38_isnan C38_isinf C38_signbit 9 C38_plain c = Ok ts /\
  do_parse 1000 1001 (-1001) (fun z => z * 10) C38_refeq 9 C38_plain [ts] White = Ok it /\ item_den it = Some (VList [VReal 10; VReal 25]).
Proof. exists (Union [0; 1] [0; 0] [Numpy DInt [1]; Numpy DReal [25]]). do 2 eexists. repeat split; vm_compute; reflexivity. Qed.
Print Assumptions C38_round_trip_refuted_numbers.
(** and records of a union come back with each other's fields. *)
Theorem C38_round_trip_refuted_records : exists c ts it,
  den c = Some [VRec [("x", VInt 1)]; VRec [("y", VInt 2)]] /\
  tojson C38_isnan C38_isinf C38_signbit 9 C38_plain c = Ok ts /\
  do_parse 1000 1001 (-1001) (fun z => z * 10) C38_refeq 9 C38_plain [ts] White = Ok it /\
  item_den it = Some (VList [VRec [("x", VInt 1); ("y", VNone)]; VRec [("x", VNone); ("y", VInt 2)]]).
Proof. exists (Union [0; 1] [0; 0] [Record (Some ["x"]) 1 [Numpy DInt [1]]; Record (Some ["y"]) 1 [Numpy DInt [2]]]). do 2 eexists. repeat split; vm_compute; reflexivity. Qed.
Print Assumptions C38_round_trip_refuted_records.
