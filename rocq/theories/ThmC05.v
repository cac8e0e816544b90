(** C05: a validated array is memory safe. *)
From Verif Require Import Base Content SpecArray SpecValid SpecSlice Core PValid ExampleArrays.

(** Running validityerror on an array accepted by the constructors neither fails nor misbehaves. *)
Theorem C05_validity_check_safe : forall c, built c -> exists r, validityerror c = Ok r.
Proof. exact validity_total. Qed.
Print Assumptions C05_validity_check_safe.
Example C05_validity_check_safe_ex : built (ListA [0; 5] [2; 3] (Indexed [7] Empty)) /\
  exists m, validityerror (ListA [0; 5] [2; 3] (Indexed [7] Empty)) = Ok (Some m).
Proof. split; [cbn; auto|eexists; vm_compute; reflexivity]. Qed.

(** If it reports nothing the array has a list of values, of the length that length() reports,
    and reading every element recursively returns exactly it. *)
Theorem C05_valid_to_list : forall c, built c -> validityerror c = Ok None ->
  exists vs, den c = Some vs /\ length_ c = zlen vs /\ exists fuel, tolist fuel c = Ok vs.
Proof.
  intros c HB HV. destruct (valid_den c HB HV) as [vs Hd]. exists vs. split; [exact Hd|]. split; [now apply den_length|].
  eexists. now apply tolist_den.
Qed.
Print Assumptions C05_valid_to_list.
Example C05_valid_to_list_ex : built ex_records /\ validityerror ex_records = Ok None /\ tolist 9 ex_records = Ok ex_records_values.
Proof. split; [cbn; repeat split; lia|split; vm_compute; reflexivity]. Qed.
Example C05_valid_to_list_ex2 : built ex_union /\ validityerror ex_union = Ok None /\ tolist 9 ex_union = Ok ex_union_values.
Proof. split; [cbn; repeat split; vm_compute; congruence|split; vm_compute; reflexivity]. Qed.

(** Indexing with any integer and slicing with any bounds never misbehave. *)
Theorem C05_valid_safe : forall c, built c -> validityerror c = Ok None ->
  (forall i, getitem_at c i <> UB) /\ (forall start stop, exists c', getitem_range c start stop = Ok c') /\
  exists vs, den c = Some vs /\ forall idx lazy, (forall i, In i idx -> 0 <= i < zlen vs) -> exists c', carry c idx lazy = Ok c'.
Proof.
  intros c HB HV. destruct (valid_den c HB HV) as [vs Hd]. split; [|split].
  - intros i. destruct (getitem_at_den c vs i Hd) as [(it & v & H & _)|[_ [m H]]]; rewrite H; discriminate.
  - intros start stop. pose proof (zlen_nonneg vs) as Hn. pose proof (den_length _ _ Hd) as HL.
    pose proof (regularize_step1 start stop (zlen vs) Hn) as HR. unfold getitem_range. rewrite HL.
    destruct (regularize_rangeslice start stop true (negb (start =? kSliceNone)) (negb (stop =? kSliceNone)) (zlen vs)) as [a b].
    destruct HR as (Ha & Hb & _). destruct (range_den c vs a b Hd Ha Hb) as (c' & Hc' & _).
    destruct c; eauto. cbn [den] in Hd. destruct (den c); [|discriminate]. destruct (Z.leb_spec (zlen starts) (zlen stops)); [|discriminate].
    cbn [length_] in HL. destruct (Z.ltb_spec (zlen stops) b); [lia|eauto].
  - exists vs. split; [exact Hd|]. intros idx lazy Hr. destruct (omap_nthZ_total vs idx Hr) as [vs' Hv].
    destruct (carry_den c vs idx vs' lazy Hd Hv) as (c' & H1 & _). eauto.
Qed.
Print Assumptions C05_valid_safe.

(** Conversely every meaningful array without forgotten simplifications is accepted. *)
Theorem C05_validity_complete : forall c vs, den c = Some vs -> simplified c -> validityerror c = Ok None.
Proof. exact den_valid. Qed.
Print Assumptions C05_validity_complete.
