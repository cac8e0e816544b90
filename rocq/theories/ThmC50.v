(** C50: positions and names of fields. *)
From Verif Require Import Base BaseLemmas Content SpecArray SpecForm SpecGetitem Getitem Setitem SpecSetitem SpecFields Keys SpecKeys PKeys Fieldpos PFieldpos.
From Coq Require Import String.
From Coq Require Import List.
Import ListNotations.
Local Open Scope string_scope.
Local Open Scope list_scope.
Local Open Scope Z_scope.

(** numfields is the number of names *)
Theorem C50_numfields : forall c vs, den c = Some vs -> has_records (form_of c) = true -> numfields c = zlen (field_names (form_of c)).
Proof. intros c vs Hd HR. rewrite <- keys_form. apply numfields_names; [exact (den_fit c vs Hd)|exact HR]. Qed.
Print Assumptions C50_numfields.

(** also with unions; only where there are no names at all it may be -1 instead of 0 *)
Theorem C50_numfields_all : forall c vs, den c = Some vs -> numfields c = zlen (field_names (form_of c)) \/ numfields c = -1 /\ field_names (form_of c) = [].
Proof.
  intros c vs Hd. rewrite <- keys_form. apply den_fit in Hd. induction c using content_ind'; cbn [names_fit] in Hd; cbn [numfields]; try exact (IHc Hd); try (right; split; reflexivity).
  - left. symmetry. apply zlen_record_keys. exact Hd.
  - left. reflexivity.
Qed.
Print Assumptions C50_numfields_all.

(** key(i) is the name in place i, and an error after the last *)
Theorem C50_key_partial : forall c vs i, den c = Some vs -> has_records (form_of c) = true -> 0 <= i ->
  match nthZ (field_names (form_of c)) i with Some k => field_key i c = Ok k | None => exists e, field_key i c = Err e end.
Proof. intros c vs i Hd HR Hi. rewrite <- keys_form. apply key_names; [exact Hi|exact (den_fit c vs Hd)|exact HR]. Qed.
Print Assumptions C50_key_partial.

(** fieldindex of a name is a place where it is *)
Theorem C50_fieldindex : forall c vs key, den c = Some vs -> has_records (form_of c) = true -> In key (field_names (form_of c)) ->
  exists i, field_position key c = Ok i /\ nthZ (field_names (form_of c)) i = Some key.
Proof. intros c vs key Hd HR. rewrite <- keys_form. apply position_names; [exact (den_fit c vs Hd)|exact HR]. Qed.
Print Assumptions C50_fieldindex.

(** so key and fieldindex undo each other, one way for all names, the other if the names differ *)
Theorem C50_inverse : forall c vs, den c = Some vs -> has_records (form_of c) = true ->
  (forall key, In key (field_names (form_of c)) -> exists i, field_position key c = Ok i /\ field_key i c = Ok key) /\
  (NoDup (field_names (form_of c)) -> forall i, 0 <= i < numfields c -> exists key, field_key i c = Ok key /\ field_position key c = Ok i).
Proof.
  intros c vs Hd HR. split.
  - intros key Hin. destruct (C50_fieldindex c vs key Hd HR Hin) as (i & E & Hn). exists i. split; [exact E|]. pose proof (nthZ_Some _ _ _ Hn) as B. pose proof (C50_key_partial c vs i Hd HR ltac:(lia)) as K. rewrite Hn in K. exact K.
  - intros HN i Hi. rewrite (C50_numfields c vs Hd HR) in Hi. destruct (nthZ_lt _ _ Hi) as [key Hk]. exists key. pose proof (C50_key_partial c vs i Hd HR ltac:(lia)) as K. rewrite Hk in K. split; [exact K|].
    destruct (C50_fieldindex c vs key Hd HR) as (j & E & Hj). { unfold nthZ in Hk. destruct (i <? 0); [discriminate|]. exact (nth_error_In _ _ Hk). }
    rewrite E. f_equal. exact (nodup_nth _ _ _ _ HN Hj Hk).
Qed.
Print Assumptions C50_inverse.

(** a name has a place exactly if haskey is true, outside unions *)
Theorem C50_haskey : forall c key, has_records (form_of c) = true -> (haskey key c = true <-> exists i, field_position key c = Ok i).
Proof.
  intros c key. induction c using content_ind'; cbn [form_of has_records haskey field_position]; intros HR; try discriminate; auto.
  unfold record_haskey. destruct (fieldindex keys key (zlen cs)); split; intros HH; try discriminate; eauto; destruct HH; discriminate.
Qed.
Print Assumptions C50_haskey.

(** unions and arrays without records have neither places nor names in places *)
Theorem C50_refused : forall c key i, has_records (form_of c) = false -> (exists e, field_position key c = Err e) /\ (exists e, field_key i c = Err e).
Proof. intros c key i. induction c using content_ind'; cbn [form_of has_records field_position field_key]; intros HR; try discriminate; eauto. Qed.
Print Assumptions C50_refused.

(** ** what the code gets wrong *)
(** places below zero are not refused in tuples: their number is returned as a name *)
Theorem C50_key_refuted : forall len cs i, i < 0 -> exists s, field_key i (Record None len cs) = Ok s /\ ~ In s (field_names (form_of (Record None len cs))).
Proof.
  intros len cs i Hi. exists (int_to_string i). split.
  - cbn [field_key]. unfold record_key. destruct (Z.leb_spec (zlen cs) i); [pose proof (zlen_nonneg cs); lia|]. reflexivity.
  - cbn [form_of field_names]. intros Hin. apply in_map_iff in Hin. destruct Hin as (j & E & _). unfold int_to_string in E. destruct (Z.ltb_spec i 0); [|lia].
    pose proof (stoi_decimal j) as S. rewrite E in S. cbn [String.append] in S.
    assert (P : stoi (String "-" (to_string (Z.to_nat (- i)))) = Some (- - i)) by (change (option_map Z.opp (number (to_string (Z.to_nat (- i)))) = Some (- - i)); rewrite number_decimal; cbn [option_map]; f_equal; lia).
    rewrite S in P. injection P as P. lia.
Qed.
Print Assumptions C50_key_refuted.
Theorem C50_claim_refuted : ~ (forall c vs i k, den c = Some vs -> field_key i c = Ok k -> nthZ (field_names (form_of c)) i = Some k).
Proof. intros H. specialize (H (Record None 1 [Numpy DInt [5]]) _ (-1) "-1" eq_refl eq_refl). discriminate H. Qed.
Print Assumptions C50_claim_refuted.

(** ** the hypotheses can be met *)
Definition xyz : content := ListOffset [0; 1] (Record (Some ["x"; "y"; "z"]) 1 [Numpy DInt [1]; Numpy DInt [2]; Numpy DInt [3]]).
Example C50_ex : den xyz = Some [VList [VRec [("x", VInt 1); ("y", VInt 2); ("z", VInt 3)]]] /\ has_records (form_of xyz) = true /\ numfields xyz = 3 /\
  field_key 1 xyz = Ok "y" /\ field_position "y" xyz = Ok 1 /\ haskey "y" xyz = true /\ field_names (form_of xyz) = ["x"; "y"; "z"].
Proof. repeat split; reflexivity. Qed.
Example C50_ex_distinct : NoDup (field_names (form_of xyz)).
Proof. repeat constructor; cbn; intuition discriminate. Qed.
Example C50_ex_refused : has_records (form_of (Union [0] [0] [xyz])) = false /\ numfields (Union [0] [0] [xyz]) = 3.
Proof. split; reflexivity. Qed.
