(** C42: a Form survives JSON, and Forms compare as they should. *)
From Coq Require Import String Sorted.
From Verif Require Import Base Forms SpecForms PForms PForms2.
Local Open Scope Z_scope.
Local Open Scope list_scope.
Local Open Scope string_scope.

(** Every proper Form is written, verbose or not, and what was written is read as the same Form: class, widths, sizes, fields with their
    keys and order, parameters, identities and form key. *)
Theorem C42_round_trip_partial : forall truncate verbose f, proper f -> exists j, tojson truncate verbose f = Ok j /\ fromjson j = Ok f.
Proof. exact round. Qed.
Print Assumptions C42_round_trip_partial.

Definition point : form :=
  FListOffset (mkMeta false [("__doc__", JString "points"); ("n", JInt 3)] (Some "node0")) i64
    (FRecord (mkMeta true [("__record__", JString "point")] None) (Some ["x"; "y"])
       [FNumpy no_meta [] 8 "d" float64;
        FUnion no_meta i8 i32 [FIndexedOption no_meta i64 (FNumpy no_meta [2%Z; 3%Z] 4 "i" int32); FVirtual no_meta (Some (FRegular no_meta (FEmpty no_meta) 5)) true]]).
Example C42_round_trip_ex : proper point /\ (let* j := tojson (fun _ => None) false point in fromjson j) = Ok point.
Proof.
  split; [|vm_compute; reflexivity].
  assert (N : proper_meta no_meta) by (split; [constructor|split; [constructor|exact Logic.I]]).
  assert (F : forall s, existsb (Ascii.eqb Ascii.zero) (list_ascii_of_string s) = false -> nul_free s).
  { intros s H K. assert (E : existsb (Ascii.eqb Ascii.zero) (list_ascii_of_string s) = true) by (apply existsb_exists; exists Ascii.zero; split; [exact K|reflexivity]). congruence. }
  assert (Num : forall s dt, Forall (fun z => (- 2 ^ 31 <= z < 2 ^ 31)%Z) s -> dt <> NOT_PRIMITIVE -> proper (FNumpy no_meta s (dtype_to_itemsize dt) (dtype_to_format dt) dt)) by (intros; now constructor).
  apply p_listoffset; [|cbn; tauto|apply p_record; [|reflexivity| |]].
  - split; [|split]; cbn.
    + repeat constructor.
    + repeat constructor; cbn; try (apply F; reflexivity); discriminate.
    + apply F; reflexivity.
  - split; [|split]; cbn; [repeat constructor|repeat constructor; cbn; apply F; reflexivity|exact Logic.I].
  - repeat constructor; apply F; reflexivity.
  - constructor; [apply (Num [] float64); [constructor|discriminate]|]. constructor; [|constructor].
    apply p_union; [assumption|cbn; tauto|]. constructor; [|constructor; [|constructor]].
    + apply p_indexedoption; [assumption|cbn; tauto|]. apply (Num [2%Z; 3%Z] int32); [repeat constructor; discriminate|discriminate].
    + apply p_virtual; [assumption|]. apply p_regular; [assumption|now constructor|]. split; [discriminate|reflexivity].
Qed.

(** So different proper Forms are not written as the same JSON. *)
Theorem C42_no_confusion : forall truncate verbose f g j, proper f -> proper g -> tojson truncate verbose f = Ok j -> tojson truncate verbose g = Ok j -> f = g.
Proof.
  intros truncate verbose f g j F G Hf Hg. destruct (round truncate verbose f F) as (j1 & E1 & R1). destruct (round truncate verbose g G) as (j2 & E2 & R2). congruence.
Qed.
Print Assumptions C42_no_confusion.
Example C42_no_confusion_ex : tojson (fun _ => None) false point <> tojson (fun _ => None) false (FEmpty no_meta).
Proof. vm_compute. discriminate. Qed.

(** Any JSON value is read as a Form or refused, with a defined outcome, unless some object in it has the class "ListOffsetArray". *)
Theorem C42_reading_is_defined_partial : forall j, (forall j', inside j' j -> ~ generic_list j') -> (exists f, fromjson j = Ok f) \/ (exists e, fromjson j = Err e).
Proof.
  intros j H. pose proof (proj1 (reading_defined j H)) as D. unfold fromjson. destruct (self (decode j)); [left; eauto|right; eauto|congruence].
Qed.
Print Assumptions C42_reading_is_defined_partial.
Example C42_reading_is_defined_ex : let j := JObject [("class", JString "ListArray64"); ("content", JArray [JNull; JReal 3])] in
  (forall j', inside j' j -> ~ generic_list j') /\ exists e, fromjson j = Err e.
Proof.
  split; [|eexists; reflexivity]. intros j' H (l & s & -> & E & C).
  inversion H as [|? ? ? Hin Hi|? k x ? Hin Hi]; subst.
  - cbn in E. injection E as <-. discriminate C.
  - cbn in Hin. destruct Hin as [Hin|[Hin|[]]]; injection Hin as <- <-; inversion Hi as [|? y ? Hy Hz|]; subst. destruct Hy as [<-|[<-|[]]]; inversion Hz.
Qed.

(** That class, for which the width is in "offsets" as for the other classes without a width, is undefined behaviour: flags are read that
    nothing has assigned. *)
Theorem C42_generic_list_refuted : exists j, fromjson j = UB /\
  j = JObject [("class", JString "ListOffsetArray"); ("offsets", JString "i64"); ("content", JString "int64")] /\
  (exists f, fromjson (JObject [("class", JString "ListArray"); ("starts", JString "i64"); ("stops", JString "i64"); ("content", JString "int64")]) = Ok f).
Proof. eexists. split; [|split; [reflexivity|]]; [vm_compute; reflexivity|]. eexists. vm_compute. reflexivity. Qed.
Print Assumptions C42_generic_list_refuted.

(** Forms that are written and then refused: a size of 2^31, numbers in another byte order, lists whose starts and stops differ in width. *)
Theorem C42_round_trip_refuted : forall truncate,
  (exists j e, tojson truncate false (FRegular no_meta (FEmpty no_meta) (2 ^ 31)) = Ok j /\ fromjson j = Err e)
  /\ (exists j e, tojson truncate false (FNumpy no_meta [] 8 ">l" (format_to_dtype ">l" 8)) = Ok j /\ fromjson j = Err e)
  /\ (exists j e, tojson truncate false (FList no_meta i32 i64 (FEmpty no_meta)) = Ok j /\ fromjson j = Err e).
Proof. intros t. repeat split; do 2 eexists; (split; [vm_compute; reflexivity|vm_compute; reflexivity]). Qed.
Print Assumptions C42_round_trip_refuted.

(** A Form that is read as another one: the unit of a datetime is lost, and the two are not equal. *)
Theorem C42_units_refuted : forall truncate jeq, exists f j g, f = FNumpy no_meta [] 8 "M8[us]" datetime64 /\
  tojson truncate false f = Ok j /\ fromjson j = Ok g /\ form_equal jeq true true true f g = false.
Proof.
  intros t jeq. do 3 eexists. split; [reflexivity|]. split; [vm_compute; reflexivity|]. split; [vm_compute; reflexivity|].
  unfold form_equal. rewrite andb_comm. reflexivity.
Qed.
Print Assumptions C42_units_refuted.

(** Parameters: a real is written as an integer, whatever fraction it had; an integer of more than 32 bits cannot be written; text ends at
    a NUL. *)
Theorem C42_parameters_refuted :
  (forall truncate x z, truncate x = Some z ->
     (let* j := tojson truncate false (FEmpty (mkMeta false [("weight", JReal x)] None)) in fromjson j) = Ok (FEmpty (mkMeta false [("weight", JInt z)] None)))
  /\ (forall truncate, exists e, tojson truncate false (FEmpty (mkMeta false [("n", JInt (2 ^ 31))] None)) = Err e)
  /\ (forall truncate, let nul := String "a" (String Ascii.zero "b") in
     (let* j := tojson truncate false (FEmpty (mkMeta false [("k", JString nul)] None)) in fromjson j) = Ok (FEmpty (mkMeta false [("k", JString "a")] None))).
Proof.
  split; [|split].
  - intros t x z H. unfold tojson, tojson_part, finish, parameters_tojson. cbn [parameters]. change (zlen [("weight", JReal x)]) with 1%Z.
    cbn [orb negb Z.eqb copyjson]. rewrite H. vm_compute. reflexivity.
  - intros t. eexists. vm_compute. reflexivity.
  - intros t. vm_compute. reflexivity.
Qed.
Print Assumptions C42_parameters_refuted.
Example C42_parameters_ex : exists truncate : Z -> option Z, truncate 15%Z = Some 1%Z.
Proof. exists (fun x => Some (x / 10)%Z). reflexivity. Qed.

(** The name of a width is accepted when it is only the beginning of one, even empty. *)
Theorem C42_width_names_refuted : 
  fromjson (JObject [("class", JString "ByteMaskedArray"); ("mask", JString ""); ("content", JString "int64"); ("valid_when", JBool true)])
    = Ok (FByteMasked no_meta i8 (FNumpy no_meta [] 8 "l" int64) true)
  /\ fromjson (JObject [("class", JString "ListArray"); ("starts", JString "i6"); ("stops", JString "u3"); ("content", JString "int64")])
    = Ok (FList no_meta i64 u32 (FNumpy no_meta [] 8 "l" int64)).
Proof. split; vm_compute; reflexivity. Qed.
Print Assumptions C42_width_names_refuted.

(** Python's == says that two Forms are equal exactly if they are the same: of the same class, with the same widths, sizes and formats, the
    same fields in any order, and the same identities, form keys, __array__ and __record__. *)
Theorem C42_equal_is_the_same_partial : forall jeq a b, distinct a -> distinct b -> (form_equal jeq true true true a b = true <-> same jeq a b).
Proof. exact equal_same. Qed.
Print Assumptions C42_equal_is_the_same_partial.
Example C42_equal_is_the_same_ex : forall jeq, jeq JNull JNull = true ->
  let i := FNumpy no_meta [] 8 "l" int64 in let e := FEmpty no_meta in
  form_equal jeq true true true (FRecord no_meta (Some ["x"; "y"]) [i; e]) (FRecord no_meta (Some ["y"; "x"]) [e; i]) = true
  /\ form_equal jeq true true true (FRecord no_meta (Some ["x"; "y"]) [i; e]) (FRecord no_meta (Some ["x"; "y"]) [e; i]) = false.
Proof. intros jeq H. vm_compute. repeat rewrite H. split; reflexivity. Qed.

(** With any of the checks it is an equivalence, if rapidjson's comparison of values is one. *)
Theorem C42_equal_is_an_equivalence_partial : forall jeq, (forall a, jeq a a = true) -> (forall a b, jeq a b = true -> jeq b a = true) ->
  (forall a b c, jeq a b = true -> jeq b c = true -> jeq a c = true) ->
  forall check_identities check_parameters check_form_key, let equal := form_equal jeq check_identities check_parameters check_form_key in
  (forall a, distinct a -> equal a a = true)
  /\ (forall a b, distinct a -> distinct b -> equal a b = true -> equal b a = true)
  /\ (forall a b c, distinct a -> distinct b -> distinct c -> equal a b = true -> equal b c = true -> equal a c = true).
Proof.
  intros jeq R Sy T ci cp ck equal. split; [|split].
  - intros. now apply equal_refl.
  - intros. now apply equal_sym.
  - intros a b c A B C. now apply (equal_trans jeq ci cp ck T a b c).
Qed.
Print Assumptions C42_equal_is_an_equivalence_partial.
Example C42_equal_is_an_equivalence_ex : distinct point /\ (let jeq := fun a b => match a, b with JNull, JNull => true | JString a, JString b => a =? b | _, _ => false end in
  form_equal jeq true true true point point = true).
Proof.
  split; [|vm_compute; reflexivity]. unfold point. constructor. constructor; [|reflexivity|].
  - constructor; [intros [H|[]]; discriminate H|]. constructor; [intros []|constructor].
  - repeat constructor.
Qed.

(** A record with a key twice is not equal to itself, and the comparison is not symmetric. *)
Theorem C42_equal_refuted : forall jeq, (forall a, jeq a a = true) ->
  let i := FNumpy no_meta [] 8 "l" int64 in let d := FNumpy no_meta [] 8 "d" float64 in
  let r keys l := FRecord no_meta (Some keys) l in
  form_equal jeq true true true (r ["a"; "a"] [i; d]) (r ["a"; "a"] [i; d]) = false
  /\ form_equal jeq true true true (r ["a"; "a"] [i; i]) (r ["a"; "b"] [i; d]) = true
  /\ form_equal jeq true true true (r ["a"; "b"] [i; d]) (r ["a"; "a"] [i; i]) = false.
Proof. intros jeq H. specialize (H JNull). vm_compute. repeat rewrite H. repeat split; reflexivity. Qed.
Print Assumptions C42_equal_refuted.
