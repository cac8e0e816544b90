(** C48: a new field for every record. *)
From Verif Require Import Base BaseLemmas OmapLemmas Content SpecArray SpecForm SpecGetitem Core Getitem PCore PForm PGetitem1 PField Setitem SpecSetitem PSetitem.
From Coq Require Import String.
From Coq Require Import List.
Import ListNotations.
Local Open Scope string_scope.
Local Open Scope list_scope.
Local Open Scope Z_scope.

(** setitem_field("x", what): every record has one more field, the last, named x, with the value of what at the place of the record *)
Theorem C48_key : forall key what names len cs vs ws, den (Record names len cs) = Some vs -> den what = Some ws -> zlen ws = zlen vs ->
  exists r, setitem_key key what (Record names len cs) = Ok r /\ den r = Some (map (fun vx => add_field key (fst vx) (snd vx)) (combine vs ws)).
Proof. intros key what names len cs vs ws Hd Hd' Hz. destruct (setitem_key_den key what names len cs vs ws Hd Hd' Hz) as [E D]. eauto. Qed.
Print Assumptions C48_key.

(** setitem_field(n, what): the new field is at position n *)
Theorem C48_at : forall n what names len cs vs ws, 0 <= n -> den (Record names len cs) = Some vs -> den what = Some ws -> zlen ws = zlen vs ->
  exists r, setitem_at n what (Record names len cs) = Ok r /\ den r = Some (map (fun vx => insert_field (Z.to_nat n) (fst vx) (snd vx)) (combine vs ws)).
Proof. intros. eapply setitem_at_den; eassumption. Qed.
Print Assumptions C48_at.

(** an array of another length is refused, and so is a negative position *)
Theorem C48_refused : forall key n what names len cs vs ws, den (Record names len cs) = Some vs -> den what = Some ws -> zlen ws <> zlen vs \/ n < 0 ->
  (zlen ws <> zlen vs -> exists e, setitem_key key what (Record names len cs) = Err e) /\ exists e, setitem_at n what (Record names len cs) = Err e.
Proof.
  intros key n what names len cs vs ws Hd Hd' H. destruct (record_cols _ _ _ _ Hd) as (_ & _ & _ & _ & Hz & _). cbn [setitem_key setitem_at]. rewrite (den_length _ _ Hd'), <- Hz. split.
  - intros Hne. destruct (Z.eqb_spec (zlen ws) (zlen vs)); [contradiction|]. eexists; reflexivity.
  - destruct (Z.ltb_spec n 0); [eexists; reflexivity|]. destruct (Z.eqb_spec (zlen ws) (zlen vs)); [lia|]. eexists; reflexivity.
Qed.
Print Assumptions C48_refused.

Lemma find_app_key (fs : list (string * value)) key x k : option_map snd (find (fun kx => String.eqb (fst kx) k) (fs ++ [(key, x)])) =
  match find (fun kx => String.eqb (fst kx) k) fs with Some y => Some (snd y) | None => if String.eqb key k then Some x else None end.
Proof. induction fs as [|y fs IH]; cbn [app find fst]; [destruct (String.eqb key k); reflexivity|]. destruct (String.eqb (fst y) k); [reflexivity|exact IH]. Qed.
Lemma find_absent ks (vals : list value) k : existsb (String.eqb k) ks = false -> find (fun kx => String.eqb (fst kx) k) (combine ks vals) = None.
Proof.
  revert vals; induction ks as [|y ks IH]; intros vals H; [reflexivity|]. destruct vals as [|v vals]; [reflexivity|]. cbn [existsb combine find fst] in *. rewrite String.eqb_sym in H. destruct (String.eqb y k); [discriminate|]. apply IH. exact H.
Qed.
Lemma find_present ks (vals : list value) k : zlen ks = zlen vals -> existsb (String.eqb k) ks = true -> find (fun kx => String.eqb (fst kx) k) (combine ks vals) <> None.
Proof.
  intros Hl He. destruct (key_index_find ks k 0 vals Hl He) as (j & _ & Hj & E). destruct (find _ _); [discriminate|]. cbn [option_map] in E. destruct (nthZ_lt vals j ltac:(lia)). congruence.
Qed.
(** the values of an array of records with names *)
Lemma record_rows ks len cs vs : den (Record (Some ks) len cs) = Some vs -> Forall (fun v => exists vals, v = VRec (combine ks vals) /\ zlen ks = zlen vals) vs.
Proof.
  intros Hd. destruct (record_cols _ _ _ _ Hd) as (vss & Hc & _ & Hk & _ & Hr). cbn [keys_ok] in Hk. apply Z.eqb_eq in Hk. pose proof (omap_zlen _ _ _ Hc) as Hz. clear Hc Hd. revert vs Hr.
  induction (zseq 0 len) as [|i is IH]; cbn [omap]; intros vs Hr; [injection Hr as <-; constructor|]. destruct (omap _ vss) as [row|] eqn:Er; [|discriminate]. cbn [option_map] in Hr. destruct (omap _ is); [|discriminate]. injection Hr as <-.
  constructor; [|auto]. exists row. split; [reflexivity|]. rewrite (omap_zlen _ _ _ Er). lia.
Qed.
Lemma has_field_more ks key len cs what k : zlen ks = zlen cs -> existsb (String.eqb k) (ks ++ [key]) = true -> has_field k (form_of (Record (Some (ks ++ [key])) len (cs ++ [what]))) = true.
Proof. intros Hz He. cbn [form_of has_field]. rewrite zlen_map, !zlen_app, Hz, Z.eqb_refl. exact He. Qed.
Lemma omap_combine (f : value -> option value) (h : value * value -> value) (sel : value * value -> value) vs : forall ws,
  zlen ws = zlen vs -> (forall v w, In v vs -> f (h (v, w)) = Some (sel (v, w))) -> omap f (map h (combine vs ws)) = Some (map sel (combine vs ws)).
Proof.
  induction vs as [|v vs IH]; intros ws Hz H; [reflexivity|]. destruct ws as [|w ws]; [reflexivity|]. rewrite !zlen_cons in Hz. cbn [combine map omap]. rewrite (H v w (or_introl eq_refl)), IH; [reflexivity|lia|]. intros v' w' Hin. apply H. right; exact Hin.
Qed.
Lemma map_snd_combine {A B} (a : list A) (b : list B) : zlen b = zlen a -> map snd (combine a b) = b.
Proof. revert b; induction a as [|x a IH]; intros [|y b] H; rewrite ?zlen_cons, ?zlen_nil in H; try reflexivity; [exfalso; change (zlen (@nil A)) with 0 in H; pose proof (zlen_nonneg b); lia|]. cbn [combine map snd]. now rewrite IH by lia. Qed.

(** what is read back: array.setitem_field("x", what)["x"] is what, if there was no x *)
Theorem C48_read_back_partial : forall key what ks len cs vs ws, den (Record (Some ks) len cs) = Some vs -> den what = Some ws -> zlen ws = zlen vs -> existsb (String.eqb key) ks = false ->
  exists r f, setitem_key key what (Record (Some ks) len cs) = Ok r /\ getitem_field key r = Ok f /\ den f = Some ws.
Proof.
  intros key what ks len cs vs ws Hd Hd' Hz Hk. destruct (setitem_key_den key what (Some ks) len cs vs ws Hd Hd' Hz) as [E D]. cbn [names_of] in E, D.
  destruct (record_cols _ _ _ _ Hd) as (_ & _ & _ & Hks & _ & _). cbn [keys_ok] in Hks. apply Z.eqb_eq in Hks. pose proof (record_rows _ _ _ _ Hd) as HR. rewrite Forall_forall in HR.
  destruct (field_den key _ _ (has_field_more ks key len cs what key Hks ltac:(rewrite existsb_app; cbn [existsb]; rewrite String.eqb_refl; apply orb_true_r)) D) as (f & us & F & P & DF).
  exists (Record (Some (ks ++ [key])) len (cs ++ [what])), f. split; [exact E|]. split; [exact F|]. rewrite DF. rewrite <- P. rewrite (omap_combine _ _ snd vs ws Hz); [f_equal; apply map_snd_combine; exact Hz|].
  intros v w Hv. destruct (HR v Hv) as (vals & -> & Hl). cbn [fst snd add_field proj]. rewrite find_app_key, find_absent by exact Hk. now rewrite String.eqb_refl.
Qed.
Print Assumptions C48_read_back_partial.

(** the other fields are as they were *)
Theorem C48_others : forall key k what ks len cs vs ws, den (Record (Some ks) len cs) = Some vs -> den what = Some ws -> zlen ws = zlen vs -> existsb (String.eqb k) ks = true ->
  exists r f f' us, setitem_key key what (Record (Some ks) len cs) = Ok r /\ getitem_field k r = Ok f /\ getitem_field k (Record (Some ks) len cs) = Ok f' /\ den f = Some us /\ den f' = Some us.
Proof.
  intros key k what ks len cs vs ws Hd Hd' Hz Hk. destruct (setitem_key_den key what (Some ks) len cs vs ws Hd Hd' Hz) as [E D]. cbn [names_of] in E, D.
  destruct (record_cols _ _ _ _ Hd) as (_ & _ & _ & Hks & _ & _). cbn [keys_ok] in Hks. apply Z.eqb_eq in Hks. pose proof (record_rows _ _ _ _ Hd) as HR. rewrite Forall_forall in HR.
  destruct (field_den k _ _ (has_field_more ks key len cs what k Hks ltac:(rewrite existsb_app, Hk; reflexivity)) D) as (f & us & F & P & DF).
  destruct (field_den k (Record (Some ks) len cs) vs) as (f' & us' & F' & P' & DF'); [cbn [form_of has_field]; rewrite zlen_map, Hks, Z.eqb_refl; exact Hk|exact Hd|].
  exists (Record (Some (ks ++ [key])) len (cs ++ [what])), f, f', us. repeat split; auto. rewrite DF'. rewrite <- P, <- P'. clear - HR Hz Hk.
  revert ws Hz. induction vs as [|v vs IH]; intros ws Hz; [reflexivity|]. destruct ws as [|w ws]; [rewrite zlen_cons in Hz; change (zlen (@nil value)) with 0 in Hz; pose proof (zlen_nonneg vs); lia|].
  rewrite !zlen_cons in Hz. cbn [combine map omap fst snd]. rewrite <- (IH (fun v' Hv' => HR v' (or_intror Hv')) ws ltac:(lia)).
  destruct (HR v (or_introl eq_refl)) as (vals & -> & Hl). cbn [add_field proj]. rewrite find_app_key. pose proof (find_present ks vals k Hl Hk) as HP. destruct (find _ _); [reflexivity|contradiction].
Qed.
Print Assumptions C48_others.

(** ** what the code gets wrong *)
(** If there was a field x, setitem_field("x", what) adds a second one, and array["x"] is still the old one, whatever is assigned. *)
Theorem C48_existing_key_refuted : forall key what ks len cs vs ws, den (Record (Some ks) len cs) = Some vs -> den what = Some ws -> zlen ws = zlen vs -> existsb (String.eqb key) ks = true ->
  exists r f f' us, setitem_key key what (Record (Some ks) len cs) = Ok r /\ getitem_field key r = Ok f /\ getitem_field key (Record (Some ks) len cs) = Ok f' /\ den f = Some us /\ den f' = Some us.
Proof. intros. eapply C48_others; eassumption. Qed.
Print Assumptions C48_existing_key_refuted.
Theorem C48_claim_refuted : ~ (forall key what ks len cs vs ws, den (Record (Some ks) len cs) = Some vs -> den what = Some ws -> zlen ws = zlen vs ->
  exists r f, setitem_key key what (Record (Some ks) len cs) = Ok r /\ getitem_field key r = Ok f /\ den f = Some ws).
Proof.
  intros H. destruct (H "x" (Numpy DInt [5]) ["x"] 1 [Numpy DInt [3]] [VRec [("x", VInt 3)]] [VInt 5] eq_refl eq_refl eq_refl) as (r & f & E & F & D).
  vm_compute in E. injection E as <-. vm_compute in F. injection F as <-. vm_compute in D. discriminate.
Qed.
Print Assumptions C48_claim_refuted.
(** A new field at position n takes the name n, and hides a later field of that name: records with a field 0 *)
Theorem C48_number_refuted : exists r f, setitem_at 0 (Numpy DInt [5]) (Record (Some ["x"; "0"]) 1 [Numpy DInt [3]; Numpy DInt [4]]) = Ok r /\
  getitem_field "0" r = Ok f /\ den f = Some [VInt 5] /\ den r = Some [VRec [("0", VInt 5); ("x", VInt 3); ("0", VInt 4)]].
Proof. do 2 eexists. split; [vm_compute; reflexivity|]. repeat split; vm_compute; reflexivity. Qed.
Print Assumptions C48_number_refuted.

(** ** concrete cases *)
Definition pts : content := Record (Some ["x"; "y"]) 2 [Numpy DInt [1;2;3]; ListOffset [0;1;3] (Numpy DInt [10;20;30])].
Definition newf : content := IndexedOption [1;-1] (Numpy DReal [7;8]).
Example C48_ex_hyps : den pts = Some [VRec [("x", VInt 1); ("y", VList [VInt 10])]; VRec [("x", VInt 2); ("y", VList [VInt 20; VInt 30])]] /\ den newf = Some [VReal 8; VNone] /\
  existsb (String.eqb "z") ["x"; "y"] = false /\ existsb (String.eqb "y") ["x"; "y"] = true.
Proof. repeat split; vm_compute; reflexivity. Qed.
Example C48_ex_key : exists r, setitem_key "z" newf pts = Ok r /\
  den r = Some [VRec [("x", VInt 1); ("y", VList [VInt 10]); ("z", VReal 8)]; VRec [("x", VInt 2); ("y", VList [VInt 20; VInt 30]); ("z", VNone)]].
Proof. eexists. split; vm_compute; reflexivity. Qed.
Example C48_ex_at : exists r, setitem_at 1 newf pts = Ok r /\
  den r = Some [VRec [("x", VInt 1); ("1", VReal 8); ("y", VList [VInt 10])]; VRec [("x", VInt 2); ("1", VNone); ("y", VList [VInt 20; VInt 30])]].
Proof. eexists. split; vm_compute; reflexivity. Qed.
Example C48_ex_tuple : exists r, setitem_key "z" newf (Record None 2 [Numpy DInt [1;2;3]]) = Ok r /\ den r = Some [VRec [("0", VInt 1); ("z", VReal 8)]; VRec [("0", VInt 2); ("z", VNone)]].
Proof. eexists. split; vm_compute; reflexivity. Qed.
