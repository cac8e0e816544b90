(** C49: the names of fields. *)
From Verif Require Import Base BaseLemmas Content SpecArray SpecForm SpecGetitem Core Getitem PField Setitem SpecSetitem SpecFields Keys SpecKeys PKeys.
From Coq Require Import String.
From Coq Require Import List.
Import ListNotations.
Local Open Scope string_scope.
Local Open Scope list_scope.
Local Open Scope Z_scope.

(** ak.fields: the names of the outermost records, in order; those of a union are the ones that all its types have.  For every array, valid or not *)
Theorem C49_names : forall c, keys c = field_names (form_of c).
Proof. exact keys_form. Qed.
Print Assumptions C49_names.

(** a name is listed for a union if and only if it is listed for every one of its contents *)
Theorem C49_union : forall tags index cs key, In key (keys (Union tags index cs)) <-> cs <> [] /\ forall c, In c cs -> In key (keys c).
Proof.
  intros tags index cs key. cbn [keys]. destruct cs as [|c cs]; cbn [map]; [split; [intros []|intros [H _]; congruence]|]. rewrite union_fold, filter_In, forallb_forall. split.
  - intros [H1 H2]. split; [discriminate|]. intros d [<-|Hd]; [exact H1|]. specialize (H2 (keys d) (in_map keys cs d Hd)). apply existsb_exists in H2. destruct H2 as (k & Hk & E). apply String.eqb_eq in E. subst k. exact Hk.
  - intros [_ H]. split; [apply H; left; reflexivity|]. intros names Hn. apply in_map_iff in Hn. destruct Hn as (d & <- & Hd). apply in_existsb, H. right; exact Hd.
Qed.
Print Assumptions C49_union.

(** every name that is listed can be read, from every record *)
Theorem C49_readable_partial : forall c vs key, den c = Some vs -> has_records (form_of c) = true -> In key (keys c) ->
  exists f ws, getitem_field key c = Ok f /\ den f = Some ws /\ Forall2 (fun v w => proj key v = Some w) vs ws.
Proof.
  intros c vs key Hd HR Hin. pose proof (listed_has_field key c (den_fit c vs Hd) HR Hin) as Hf. destruct (field_den key c vs Hf Hd) as (f & ws & E & Hw & Hd'). exists f, ws. split; [exact E|]. split; [exact Hd'|]. apply F2_omap. exact Hw.
Qed.
Print Assumptions C49_readable_partial.

(** haskey is true for all names that are listed, and for all that can be read *)
Theorem C49_haskey : forall c key, (In key (keys c) -> haskey key c = true) /\ (forall f, getitem_field key c = Ok f -> haskey key c = true).
Proof. intros c key. split; [apply listed_haskey|apply field_haskey]. Qed.
Print Assumptions C49_haskey.

(** outside unions haskey is true for exactly the texts that can be read, and what is read has an element for each element of the array *)
Theorem C49_haskey_reads : forall c vs key, den c = Some vs -> has_records (form_of c) = true ->
  (haskey key c = true <-> exists f ws, getitem_field key c = Ok f /\ den f = Some ws /\ zlen ws = zlen vs).
Proof. intros c vs key Hd HR. split; [apply (haskey_read key c vs Hd HR)|]. intros (f & ws & E & _). exact (field_haskey key c f E). Qed.
Print Assumptions C49_haskey_reads.

(** in a union haskey is true for the names that are listed only *)
Theorem C49_union_haskey : forall tags index cs key, haskey key (Union tags index cs) = true <-> In key (keys (Union tags index cs)).
Proof.
  intros tags index cs key. split; [|apply listed_haskey]. cbn [haskey]. intros H. apply existsb_exists in H. destruct H as (k & Hk & E). apply String.eqb_eq in E. subst k. exact Hk.
Qed.
Print Assumptions C49_union_haskey.

(** ** what the code gets wrong *)
(** In records with names every text that begins with the number of a field counts as a name: haskey is true although nothing of that name is listed. *)
Theorem C49_haskey_refuted : forall names len cs key i, existsb (String.eqb key) names = false -> stoi key = Some i -> 0 <= i < zlen cs ->
  haskey key (Record (Some names) len cs) = true /\ ~ In key (keys (Record (Some names) len cs)).
Proof.
  intros names len cs key i Hk Hs Hi. split.
  - cbn [haskey]. unfold record_haskey, fieldindex. rewrite Hs. destruct (key_index names key 0); [reflexivity|]. destruct (Z.leb_spec 0 i); [|lia]. destruct (Z.ltb_spec i (zlen cs)); [reflexivity|lia].
  - cbn [keys record_keys]. intros Hin. apply in_existsb in Hin. congruence.
Qed.
Print Assumptions C49_haskey_refuted.
(** one such name, 1st, in records of x and y *)
Definition xy (n : Z) : content := Record (Some ["x"; "y"]) 1 [Numpy DInt [n]; Numpy DInt [n + 1]].
Theorem C49_claim_refuted : ~ (forall c key vs, den c = Some vs -> (haskey key c = true <-> In key (keys c))).
Proof.
  intros H. destruct (H (xy 3) "1st" _ eq_refl) as [H1 _]. specialize (H1 eq_refl). cbn in H1. destruct H1 as [H1|[H1|[]]]; discriminate.
Qed.
Print Assumptions C49_claim_refuted.

(** ** concrete cases *)
Definition nest : content := ListOffset [0;2;2] (IndexedOption [0;-1] (xy 3)).
Definition tup : content := Record None 1 (map (fun n => Numpy DInt [n]) (zseq 0 12)).
Definition yz : content := Record (Some ["z"; "y"]) 1 [Numpy DInt [5]; Numpy DInt [6]].
Example C49_ex_hyps : den nest = Some [VList [VRec [("x", VInt 3); ("y", VInt 4)]; VNone]; VList []] /\ has_records (form_of nest) = true /\ keys nest = ["x"; "y"].
Proof. repeat split; vm_compute; reflexivity. Qed.
Example C49_ex_tuple : keys tup = ["0";"1";"2";"3";"4";"5";"6";"7";"8";"9";"10";"11"] /\ has_records (form_of tup) = true /\ getitem_field "11" tup = Ok (Numpy DInt [11]).
Proof. repeat split; vm_compute; reflexivity. Qed.
Example C49_ex_union : keys (Union [0;1] [0;0] [nest; yz]) = ["y"] /\ haskey "y" (Union [0;1] [0;0] [nest; yz]) = true.
Proof. split; reflexivity. Qed.
Example C49_ex_refuted : existsb (String.eqb "1st") ["x"; "y"] = false /\ stoi "1st" = Some 1.
Proof. split; reflexivity. Qed.
(** haskey_reads: a number is read as the place of a column, here below a list *)
Example C49_ex_reads : let c := ListOffset [0; 1] (xy 3) in
  den c = Some [VList [VRec [("x", VInt 3); ("y", VInt 4)]]] /\ has_records (form_of c) = true /\ haskey "1st" c = true /\ getitem_field "1st" c = Ok (ListOffset [0; 1] (Numpy DInt [4])).
Proof. repeat split; reflexivity. Qed.
