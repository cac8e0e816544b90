(** C19, continued: several fields at once, array[["x", "y"]]. *)
From Verif Require Import Base BaseLemmas OmapLemmas LoopLemmas Content SpecArray SpecForm SpecSlice SpecGetitem KRange Core Getitem
  PCore PRange PValid PCarry PList PForm PNat PAxis PFillna PAt PGetitem1 PField Fields SpecFields PFields PGetitem2 PGetitem ExampleArrays ThmC02 ThmC03 ThmC19.
From Coq Require Import String.
From Coq Require Import List.
Import ListNotations.
Local Open Scope string_scope.
Local Open Scope list_scope.
Local Open Scope Z_scope.

(** array[["x", "y"]] has, at the place of every record, the record of its fields x and y, in that order *)
Theorem C19_fields : forall c vs keys, den c = Some vs -> has_records (form_of c) = true -> has_fields keys (form_of c) = true ->
  exists f ws, getitem_fields keys c = Ok f /\ den f = Some ws /\ Forall2 (fun v w => select keys v = Some w) vs ws.
Proof.
  intros c vs keys Hd Hr Hf. destruct (fields_den keys c vs Hr Hf Hd) as (f & ws & E & Hw & Hd'). exists f, ws. split; [exact E|]. split; [exact Hd'|]. apply F2_omap. exact Hw.
Qed.
Print Assumptions C19_fields.

(** array[["x", "y"]]["x"] is array["x"] *)
Theorem C19_fields_field : forall c vs keys key, den c = Some vs -> has_named (form_of c) = true -> has_fields keys (form_of c) = true -> In key keys ->
  exists s f f' ws, getitem_fields keys c = Ok s /\ getitem_field key s = Ok f /\ getitem_field key c = Ok f' /\ den f = Some ws /\ den f' = Some ws.
Proof.
  intros c vs keys key Hd Hn Hf Hin.
  assert (Hr : has_records (form_of c) = true) by (clear - Hn; induction (form_of c); cbn [has_named has_records] in *; auto; discriminate).
  destruct (fields_den keys c vs Hr Hf Hd) as (s & us & E & Hu & Ds). pose proof (fields_has_field keys key c s E Hn Hin) as Hs.
  destruct (field_den key s us Hs Ds) as (f & ws & E1 & W1 & D1).
  assert (Hk : has_field key (form_of c) = true) by (unfold has_fields in Hf; rewrite forallb_forall in Hf; auto).
  destruct (field_den key c vs Hk Hd) as (f' & ws' & E2 & W2 & D2). exists s, f, f', ws. repeat split; auto. rewrite D2. f_equal.
  pose proof (den_named c vs Hn Hd) as HN. clear - Hu W1 W2 HN Hin. revert us ws ws' Hu W1 W2.
  induction HN as [|v vs Nv _ IH]; cbn [omap]; intros us ws ws' Hu W1 W2; [injection Hu as <-; cbn [omap] in W1; congruence|].
  destruct (select keys v) as [u|] eqn:Eu; [|discriminate]. destruct (omap (select keys) vs) as [us'|]; [|discriminate]. injection Hu as <-. cbn [omap] in W1.
  rewrite (proj_select keys key v Hin Nv u Eu) in W1. destruct (proj key v) as [x|]; [|discriminate].
  destruct (omap (proj key) us') as [t|] eqn:E1; [|discriminate]. destruct (omap (proj key) vs) as [t'|]; [|discriminate]. injection W1 as <-. injection W2 as <-. f_equal. exact (IH us' t t' eq_refl E1 eq_refl).
Qed.
Print Assumptions C19_fields_field.

Lemma picks_select keys vs ws ps us : omap (select keys) vs = Some ws -> omap (nthZ vs) ps = Some us -> exists us', omap (select keys) us = Some us' /\ omap (nthZ ws) ps = Some us'.
Proof.
  intros Hw Hu. pose proof (omap_pos (nthZ vs) (select keys) (nthZ ws) ps) as G. rewrite Hu in G. apply G. intros p _. destruct (nthZ vs p) as [v|] eqn:Ev.
  - destruct (omap_at _ _ _ _ _ Hw Ev) as (w & A & B). eauto.
  - destruct (nthZ ws p) as [w|] eqn:Ew; [|reflexivity]. apply nthZ_Some in Ew. apply omap_zlen in Hw. destruct (nthZ_lt vs p ltac:(lia)) as (v & Hv). congruence.
Qed.

(** array[["x", "y"]][start:stop] and array[start:stop][["x", "y"]] *)
Theorem C19_fields_range : forall c vs keys start stop, den c = Some vs -> has_records (form_of c) = true -> has_fields keys (form_of c) = true ->
  exists f f' c' f'' ws, getitem_fields keys c = Ok f /\ getitem_range f start stop = Ok f' /\
    getitem_range c start stop = Ok c' /\ getitem_fields keys c' = Ok f'' /\ den f' = Some ws /\ den f'' = Some ws.
Proof.
  intros c vs keys start stop Hd Hr Hf. destruct (fields_den keys c vs Hr Hf Hd) as (f & ws & E & Hw & Hd').
  destruct (C03_getitem_range c vs start stop Hd) as (c' & vs' & E1 & D1 & P1). destruct (C03_getitem_range f ws start stop Hd') as (f' & ws' & E2 & D2 & P2).
  assert (Hfc : form_of c' = form_of c). { unfold getitem_range in E1. destruct (regularize_rangeslice _ _ _ _ _ _) as [a b]. assert (E1' : c' = c \/ getitem_range_nowrap c a b = Ok c') by (destruct c; auto; try (left; congruence); destruct (_ <? _) in E1; [discriminate|auto]).
    destruct E1' as [->|E1']; [reflexivity|]. apply range_same in E1'. destruct E1'; congruence. }
  destruct (fields_den keys c' vs') as (f'' & ws'' & E3 & W3 & D3); [rewrite Hfc; exact Hr|rewrite Hfc; exact Hf|exact D1|].
  exists f, f', c', f'', ws'. repeat split; auto. rewrite D3. f_equal. rewrite (omap_zlen _ _ _ Hw) in P2.
  apply omap_picks in P1, P2. destruct (picks_select _ _ _ _ _ Hw P1) as (us & U1 & U2). congruence.
Qed.
Print Assumptions C19_fields_range.

(** array[["x", "y"]] and lists of positions *)
Theorem C19_fields_carry : forall c vs keys nc us, den c = Some vs -> has_records (form_of c) = true -> has_fields keys (form_of c) = true -> omap (nthZ vs) nc = Some us ->
  exists f f' c' f'' ws, getitem_fields keys c = Ok f /\ carry f nc true = Ok f' /\ carry c nc true = Ok c' /\ getitem_fields keys c' = Ok f'' /\ den f' = Some ws /\ den f'' = Some ws.
Proof.
  intros c vs keys nc us Hd Hr Hf Hn. destruct (fields_den keys c vs Hr Hf Hd) as (f & ws & E & Hw & Hd').
  destruct (carry_den c vs nc us true Hd Hn) as (c' & E1 & D1). assert (Hfc : form_of c' = form_of c) by (apply carry_same in E1; destruct E1; congruence).
  destruct (fields_den keys c' us) as (f'' & ws'' & E3 & W3 & D3); [rewrite Hfc; exact Hr|rewrite Hfc; exact Hf|exact D1|].
  destruct (picks_select _ _ _ _ _ Hw Hn) as (us' & U1 & U2). destruct (carry_den f ws nc us' true Hd' U2) as (f' & E2 & D2). exists f, f', c', f'', us'. repeat split; auto. congruence.
Qed.
Print Assumptions C19_fields_carry.

(** a name that no record has is an error, not another field, unless it is a number *)
Theorem C19_fields_refused : forall names len cs keys key, In key keys -> existsb (String.eqb key) names = false -> stoi key = None ->
  forall r, getitem_fields keys (Record (Some names) len cs) <> Ok r.
Proof.
  intros names len cs keys key Hin Hk Hs r E. cbn [getitem_fields] in E. binv E. clear E. revert a E0. induction keys as [|k keys IH]; [destruct Hin|]. cbn [mapres]. intros a E0. binv E0. binv E0.
  destruct Hin as [->|Hin]; [|exact (IH Hin _ E1)]. unfold record_column, fieldindex in E. assert (G : forall i, key_index names key i = None).
  { clear - Hk. induction names as [|n names IH]; intros i; cbn [key_index existsb] in *; [reflexivity|]. rewrite String.eqb_sym in Hk. destruct (String.eqb n key); [discriminate|]. apply IH. exact Hk. }
  rewrite G, Hs in E. discriminate.
Qed.
Print Assumptions C19_fields_refused.

(** ** concrete cases *)
Definition points3 : content :=
  ListOffset [0;2;2;3] (IndexedOption [1;-1;0] (Record (Some ["x"; "y"; "z"]) 2 [Numpy DInt [1;2;3]; ListOffset [0;1;3;3] (Numpy DInt [10;20;30]); Numpy DReal [7;8]])).
Example C19_ex_fields_hyps : has_records (form_of points3) = true /\ has_named (form_of points3) = true /\ has_fields ["z"; "x"] (form_of points3) = true.
Proof. repeat split; reflexivity. Qed.
Example C19_ex_fields : exists f, getitem_fields ["z"; "x"] points3 = Ok f /\
  den f = Some [VList [VRec [("z", VReal 8); ("x", VInt 2)]; VNone]; VList []; VList [VRec [("z", VReal 7); ("x", VInt 1)]]].
Proof. eexists. split; vm_compute; reflexivity. Qed.
Example C19_ex_fields_none : exists f, getitem_fields [] points3 = Ok f /\ den f = Some [VList [VRec []; VNone]; VList []; VList [VRec []]].
Proof. eexists. split; vm_compute; reflexivity. Qed.
Example C19_ex_fields_tuple : exists f, getitem_fields ["1"; "0"] (Record None 2 [Numpy DInt [1;2;3]; Numpy DReal [7;8]]) = Ok f /\ den f = Some [VTuple [VReal 7; VInt 1]; VTuple [VReal 8; VInt 2]].
Proof. eexists. split; vm_compute; reflexivity. Qed.
Example C19_ex_fields_refused : In "w" ["x"; "w"] /\ existsb (String.eqb "w") ["x"; "y"] = false /\ stoi "w" = None.
Proof. repeat split; [right; left|..]; reflexivity. Qed.

(** a selection renames a field when its key is a number that no record has: array[["1"]] of records with x and y *)
Theorem C19_fields_absent_key_refuted : has_fields ["1"] (form_of points) = false /\
  exists f, getitem_fields ["1"] points = Ok f /\
    den f = Some [VList [VRec [("1", VList [VInt 10])]; VRec [("1", VList [VInt 20; VInt 30])]]; VList []; VList [VRec [("1", VList [])]]].
Proof. split; [reflexivity|]. eexists. split; vm_compute; reflexivity. Qed.
Print Assumptions C19_fields_absent_key_refuted.
