(** Proofs about positions of fields. *)
From Verif Require Import Base BaseLemmas Content SpecArray SpecForm SpecOption PCore PField Getitem SpecGetitem Setitem SpecSetitem SpecFields Keys SpecKeys PKeys Fieldpos.
From Coq Require Import String.
From Coq Require Import List.
Import ListNotations.
Local Open Scope list_scope.
Local Open Scope Z_scope.

Lemma zlen_record_keys names cs : keys_ok names (zlen (cs : list content)) = true -> zlen (record_keys names (length cs)) = zlen cs.
Proof. destruct names as [ks|]; cbn [keys_ok record_keys]; intros H; [apply Z.eqb_eq; exact H|]. unfold zlen. rewrite map_length, seq_length. reflexivity. Qed.
Lemma numfields_names c : names_fit c -> has_records (form_of c) = true -> numfields c = zlen (keys c).
Proof.
  induction c using content_ind'; cbn [names_fit form_of has_records Keys.keys numfields]; intros HN HR; try discriminate; auto. symmetry. apply zlen_record_keys. exact HN.
Qed.
Lemma nth_tuple n : forall i, 0 <= i -> nthZ (map to_string (seq 0 n)) i = if i <? Z.of_nat n then Some (to_string (Z.to_nat i)) else None.
Proof.
  intros i Hi. destruct (Z.ltb_spec i (Z.of_nat n)).
  - rewrite nthZ_map. unfold nthZ. destruct (Z.ltb_spec i 0); [lia|]. rewrite (nth_error_nth' (seq 0 n) O) by (rewrite seq_length; lia). rewrite seq_nth by lia. reflexivity.
  - destruct (nthZ _ i) eqn:E; [|reflexivity]. apply nthZ_Some in E. unfold zlen in E. rewrite map_length, seq_length in E. lia.
Qed.
Lemma key_names i c : 0 <= i -> names_fit c -> has_records (form_of c) = true ->
  match nthZ (keys c) i with Some k => field_key i c = Ok k | None => exists e, field_key i c = Err e end.
Proof.
  intros Hi. induction c using content_ind'; cbn [names_fit form_of has_records Keys.keys field_key]; intros HN HR; try discriminate; try exact (IHc HN HR).
  pose proof (zlen_record_keys _ _ HN) as HL. unfold record_key. destruct (nthZ (record_keys keys (length cs)) i) as [k|] eqn:E.
  - pose proof (nthZ_Some _ _ _ E) as B. destruct (Z.leb_spec (zlen cs) i); [lia|]. destruct keys as [ks|]; cbn [record_keys] in E; [rewrite E; reflexivity|].
    rewrite nth_tuple in E by lia. destruct (i <? _); [|discriminate]. injection E as <-. unfold int_to_string. destruct (Z.ltb_spec i 0); [lia|reflexivity].
  - destruct (Z.leb_spec (zlen cs) i); [eauto|]. destruct (nthZ_lt (record_keys keys (length cs)) i ltac:(lia)) as [k Hk]. congruence.
Qed.
Lemma key_index_back ks key : forall k i, key_index ks key k = Some i -> k <= i /\ nthZ ks (i - k) = Some key.
Proof.
  induction ks as [|x ks IH]; cbn [key_index]; intros k i H; [discriminate|]. destruct (String.eqb_spec x key) as [->|].
  - injection H as <-. split; [lia|]. rewrite Z.sub_diag. reflexivity.
  - apply IH in H. destruct H as [B H]. split; [lia|]. unfold nthZ in *. destruct (Z.ltb_spec (i - (k + 1)) 0); [discriminate|]. destruct (Z.ltb_spec (i - k) 0); [lia|]. replace (Z.to_nat (i - k)) with (S (Z.to_nat (i - (k + 1)))) by lia. exact H.
Qed.
Lemma position_names key c : names_fit c -> has_records (form_of c) = true -> In key (keys c) -> exists i, field_position key c = Ok i /\ nthZ (keys c) i = Some key.
Proof.
  induction c using content_ind'; cbn [names_fit form_of has_records Keys.keys field_position]; intros HN HR Hin; try discriminate; auto.
  unfold fieldindex. destruct keys as [ks|]; cbn [record_keys] in *.
  - destruct (key_index_some ks key 0 Hin) as (j & Ej). rewrite Ej. apply key_index_back in Ej. rewrite Z.sub_0_r in Ej. exists j. tauto.
  - apply in_map_iff in Hin. destruct Hin as (j & <- & Hj). apply in_seq in Hj. change (to_string j) with (decimal j) at 1. rewrite stoi_decimal. unfold zlen. destruct (Z.leb_spec 0 (Z.of_nat j)); [|lia]. destruct (Z.ltb_spec (Z.of_nat j) (Z.of_nat (length cs))); [|lia]. exists (Z.of_nat j). split; [reflexivity|]. rewrite nth_tuple by lia. destruct (Z.ltb_spec (Z.of_nat j) (Z.of_nat (length cs))); [|lia]. rewrite Nat2Z.id. reflexivity.
Qed.
Lemma nodup_nth {A} (l : list A) i j x : NoDup l -> nthZ l i = Some x -> nthZ l j = Some x -> i = j.
Proof.
  unfold nthZ. intros HN Hi Hj. destruct (Z.ltb_spec i 0); [discriminate|]. destruct (Z.ltb_spec j 0); [discriminate|].
  assert (Z.to_nat i = Z.to_nat j); [|lia]. apply (proj1 (NoDup_nth_error l) HN); [apply nth_error_Some; congruence|congruence].
Qed.
Lemma number_decimal n : number (to_string n) = Some (Z.of_nat n).
Proof.
  pose proof (stoi_decimal n) as H. unfold decimal in H. fold (to_string n) in H. rewrite <- H. symmetry. unfold to_string. apply number_uint. intros E. pose proof (stoi_decimal n) as G. unfold decimal in G. rewrite E in G. discriminate G.
Qed.
