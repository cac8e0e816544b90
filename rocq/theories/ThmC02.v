(** C02: array[i] returns element i (or n+i), or raises; never undefined behaviour.
    [den c = Some vs] says that [c] is a valid array with the list of values [vs] (C05 derives it from
    validityerror); [item_den] is the value of what getitem_at hands out. *)
From Verif Require Import Base Content SpecArray Core PValid ExampleArrays.

Theorem C02_getitem_at : forall c vs i, den c = Some vs ->
  match nthZ vs (if i <? 0 then i + zlen vs else i) with
  | Some v => exists it, getitem_at c i = Ok it /\ item_den it = Some v
  | None => exists m, getitem_at c i = Err m
  end.
Proof.
  intros c vs i Hd. destruct (getitem_at_den c vs i Hd) as [(it & v & H1 & H2 & H3)|[H1 [m H2]]].
  - rewrite H2. eauto.
  - rewrite H1. eauto.
Qed.
Print Assumptions C02_getitem_at.
Example C02_getitem_at_ex :
  exists it, getitem_at ex_records (-1) = Ok it /\
  item_den it = Some (VList [VRec [("x", VInt 3); ("y", VList [VInt 20; VInt 30])]; VRec [("x", VInt 4); ("y", VNone)]; VRec [("x", VInt 5); ("y", VList [])]])%string.
Proof. eexists; split; vm_compute; reflexivity. Qed.
Example C02_getitem_at_ex2 : exists m, getitem_at ex_records 3 = Err m.
Proof. eexists; vm_compute; reflexivity. Qed.

(** The three cases in numbers. *)
Theorem C02_index_cases : forall c vs i, den c = Some vs ->
  (0 <= i < zlen vs -> exists it v, getitem_at c i = Ok it /\ item_den it = Some v /\ nthZ vs i = Some v) /\
  (- zlen vs <= i < 0 -> exists it v, getitem_at c i = Ok it /\ item_den it = Some v /\ nthZ vs (zlen vs + i) = Some v) /\
  (i < - zlen vs \/ zlen vs <= i -> exists m, getitem_at c i = Err m).
Proof.
  intros c vs i Hd. pose proof (C02_getitem_at c vs i Hd) as H. pose proof (zlen_nonneg vs). repeat split; intros Hi.
  - destruct (Z.ltb_spec i 0); [lia|]. destruct (nthZ_lt vs i) as [v Hv]; [lia|]. rewrite Hv in H. destruct H as (it & Ha & Hb). eauto.
  - destruct (Z.ltb_spec i 0); [|lia]. rewrite (Z.add_comm i) in H. destruct (nthZ_lt vs (zlen vs + i)) as [v Hv]; [lia|]. rewrite Hv in H.
    destruct H as (it & Ha & Hb). eauto.
  - destruct (nthZ vs (if i <? 0 then i + zlen vs else i)) as [v|] eqn:E; [|exact H]. apply nthZ_Some in E. destruct (Z.ltb_spec i 0); lia.
Qed.
Print Assumptions C02_index_cases.

(** Fields of a record handed out by getitem_at. *)
Theorem C02_record_field : forall keys len cs vs i v k,
  den (Record keys len cs) = Some vs -> nthZ vs i = Some v -> 0 <= k < zlen cs ->
  exists it w, record_field (Record keys len cs) i k = Ok it /\ item_den it = Some w /\
    exists row, v = mkrow keys row /\ zlen row = zlen cs /\ nthZ row k = Some w.
Proof. exact record_field_den. Qed.
Print Assumptions C02_record_field.
