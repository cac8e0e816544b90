(** The word of a shape, run by the machine under a LayoutBuilder: it takes the commands of one value and appends it to the outputs *)
From Coq Require Import String.
From Verif Require Import Base BaseLemmas SpecArray Content Forms Forth PForthOut PForthRun PForthStep PForthRead PForthRead2 SpecForthRun PForthLoop LayoutBuild SpecLayout PLayoutVm.
Local Open Scope list_scope.
Local Open Scope Z_scope.

Section ShapeInd.
  Variable P : shape -> Prop.
  Hypothesis HN : forall l, P (SNum l).
  Hypothesis HL : forall w c, P c -> P (SList w c).
  Hypothesis HR : forall ks cs, Forall P cs -> P (SRec ks cs).
  Fixpoint shape_ind' (s : shape) : P s :=
    match s with
    | SNum l => HN l
    | SList w c => HL w c (shape_ind' c)
    | SRec ks cs => HR ks cs ((fix go (cs : list shape) : Forall P cs :=
                                 match cs with [] => Forall_nil _ | c :: cs => Forall_cons _ (shape_ind' c) (go cs) end) cs)
    end.
End ShapeInd.

(** ** What the machine is given *)
Definition cmd : Type := (list Z * Z)%type.
Definition leaf_state (l : leaf) : Z := match l with LInt => 0 | LReal => 1 | LBool => 4 end.
Definition leaf_format (l : leaf) : Z := match l with LInt => 40 | LReal => 104 | LBool => 8 end.
Definition leaf_type (l : leaf) : odtype := match l with LInt => OInt true 64 | LReal => OFloat 64 | LBool => OBool end.
Definition off_type (w : iform) : odtype := match w with i32 => OInt true 32 | u32 => OInt false 32 | _ => OInt true 64 end.
Definition code_of (v : value) : Z := match v with VInt z => z | VReal z => z | VBool b => Z.b2z b | _ => 0 end.
Definition bytes_of (v : value) : list Z := match v with VBool b => [Z.b2z b] | _ => le_bytes 8 (code_of v) end.

Fixpoint cmds_of (s : shape) (v : value) : list cmd :=
  match s with
  | SNum l => [(bytes_of v, leaf_state l)]
  | SList _ c => ([], 2) :: concat (map (cmds_of c) (items_of v)) ++ [([], 3)]
  | SRec _ cs => (fix go (cs : list shape) (vs : list value) : list cmd :=
                    match cs, vs with c :: cs, v :: vs => cmds_of c v ++ go cs vs | _, _ => [] end) cs (fields_of v)
  end.
Fixpoint cmds_fields (cs : list shape) (vs : list value) : list cmd :=
  match cs, vs with c :: cs, v :: vs => cmds_of c v ++ cmds_fields cs vs | _, _ => [] end.
Lemma cmds_rec : forall ks cs v, cmds_of (SRec ks cs) v = cmds_fields cs (fields_of v).
Proof. intros ks cs v. cbn [cmds_of]. generalize (fields_of v). induction cs; intros [ | x vs ]; cbn; [ reflexivity .. | ]. rewrite IHcs. reflexivity. Qed.

Fixpoint all_of (P : value -> Prop) (vs : list value) : Prop := match vs with [] => True | v :: vs => P v /\ all_of P vs end.
Fixpoint of_fields (cs : list shape) (vs : list value) : Prop :=
  match cs, vs with [], [] => True | c :: cs, v :: vs => of_shape c v /\ of_fields cs vs | _, _ => False end.
Lemma of_list : forall w c v, of_shape (SList w c) v <-> exists vs, v = VList vs /\ Forall (of_shape c) vs.
Proof.
  intros w c v. cbn [of_shape]. split; intros (vs & E & H); exists vs; (split; [ exact E | ]); clear E.
  - induction vs; constructor; [ apply H | apply IHvs, H ].
  - induction H; [ exact I | split; assumption ].
Qed.
Lemma of_rec : forall ks cs v, of_shape (SRec ks cs) v -> of_fields cs (fields_of v).
Proof. intros ks cs v [ _ H ]. revert H. generalize (fields_of v). induction cs; intros [ | x vs ] H; cbn in *; assumption. Qed.

(** ** The program *)
Fixpoint rec_code (bs : list Z) : list Z :=
  match bs with [] => [] | b :: bs => (66 + b) :: match bs with [] => [] | _ => 2 :: rec_code bs end end.
Fixpoint size (s : shape) : Z :=
  match s with
  | SNum _ => 1
  | SList _ c => 1 + size c
  | SRec _ cs => fold_right Z.add 0 (map size cs)
  end.
Fixpoint height (s : shape) : Z :=
  match s with
  | SNum _ => 0
  | SList _ c => 1 + height c
  | SRec _ cs => 1 + fold_right Z.max 0 (map height cs)
  end.
Fixpoint word (m : machine) (s : shape) (b k : Z) : Prop :=
  match s with
  | SNum l => exists b1 b2, code_seg m b [0; leaf_state l; 51; 4; 66 + b1; 66 + b2]
                            /\ code_seg m b1 [0; 0; 17; 0; Z.lnot (leaf_format l + 1); 0; k]
  | SList _ c => exists b1 b2 b3 b4 cb, (0 <= b2 /\ 0 <= b4 /\ 0 <= cb)
        /\ code_seg m b [0; 2; 52; 3; 66 + b1; 0; 0; 66 + b2; 7]
        /\ code_seg m b2 [2; 32; 0; 3; 51; 4; 66 + b3; 66 + b4] /\ code_seg m b3 [33; 20; k; 10; 2] /\ code_seg m b4 [66 + cb; 46]
        /\ word m c cb (k + 1)
  | SRec _ cs => exists bs, code_seg m b (rec_code bs) /\ cs <> [] /\
        (fix go (cs : list shape) (bs : list Z) (k : Z) : Prop :=
           match cs, bs with
           | [], [] => True
           | c :: cs, b :: bs => 0 <= b /\ word m c b k /\ go cs bs (k + size c)
           | _, _ => False
           end) cs bs k
  end.
Fixpoint words (m : machine) (cs : list shape) (bs : list Z) (k : Z) : Prop :=
  match cs, bs with
  | [], [] => True
  | c :: cs, b :: bs => 0 <= b /\ word m c b k /\ words m cs bs (k + size c)
  | _, _ => False
  end.
Lemma word_rec : forall m ks cs b k, word m (SRec ks cs) b k <-> exists bs, code_seg m b (rec_code bs) /\ cs <> [] /\ words m cs bs k.
Proof.
  intros m ks cs b k. cbn [word].
  assert (E : forall bs k, (fix go (cs : list shape) (bs : list Z) (k : Z) : Prop :=
           match cs, bs with
           | [], [] => True
           | c :: cs, b :: bs => 0 <= b /\ word m c b k /\ go cs bs (k + size c)
           | _, _ => False
           end) cs bs k <-> words m cs bs k).
  { induction cs as [ | c cs IH ]; intros [ | x bs ] k'; cbn [words]; try tauto. rewrite IH. tauto. }
  split; intros (bs & A & B & H); exists bs; (split; [ exact A | ]); (split; [ exact B | ]); apply E; exact H.
Qed.
Lemma size_pos : forall s, 0 <= size s.
Proof.
  induction s using shape_ind'; cbn [size]; [ lia | lia | ]. induction H; cbn [map fold_right]; lia.
Qed.

(** ** The outputs *)
Definition totals (us : list value) : list Z := map (fun i => zlen (concat (map items_of (firstn i us)))) (seq 0 (S (List.length us))).
Lemma totals_snoc : forall us v, totals (us ++ [v]) = totals us ++ [zlen (concat (map items_of us)) + zlen (items_of v)].
Proof.
  intros us v. unfold totals. rewrite app_length. cbn [List.length]. replace (S (List.length us + 1)) with (S (List.length us) + 1)%nat by lia.
  rewrite seq_app, map_app. f_equal.
  - apply map_ext_in. intros i Hi. apply in_seq in Hi. rewrite firstn_app. replace (i - List.length us)%nat with 0%nat by lia. cbn [firstn]. rewrite app_nil_r. reflexivity.
  - cbn [seq map Nat.add]. rewrite firstn_all2 by (rewrite app_length; cbn; lia). rewrite map_app, concat_app, zlen_app. cbn [map concat]. rewrite app_nil_r. reflexivity.
Qed.
Lemma totals_last : forall us, exists base, totals us = base ++ [zlen (concat (map items_of us))].
Proof.
  intros us. unfold totals. rewrite seq_S, map_app. cbn [Nat.add map]. rewrite firstn_all. eexists. reflexivity.
Qed.

Definition buf (os : list outbuf) (k : Z) (t : odtype) (vs : list Z) : Prop :=
  exists b, nthZ os k = Some b /\ otype b = t /\ 0 < reserved b /\ good b vs.
Fixpoint holds (s : shape) (k : Z) (us : list value) (os : list outbuf) : Prop :=
  match s with
  | SNum l => buf os k (leaf_type l) (map code_of us)
  | SList w c => buf os k (off_type w) (totals us) /\ holds c (k + 1) (concat (map items_of us)) os
  | SRec _ cs => (fix go (cs : list shape) (j : nat) (k : Z) : Prop :=
                    match cs with [] => True | c :: cs => holds c k (map (field_of j) us) os /\ go cs (S j) (k + size c) end) cs 0%nat k
  end.
Fixpoint holds_f (cs : list shape) (j : nat) (k : Z) (us : list value) (os : list outbuf) : Prop :=
  match cs with [] => True | c :: cs => holds c k (map (field_of j) us) os /\ holds_f cs (S j) (k + size c) us os end.
Lemma holds_rec : forall ks cs k us os, holds (SRec ks cs) k us os <-> holds_f cs 0 k us os.
Proof.
  intros ks cs k us os. cbn [holds]. generalize 0%nat. revert k. induction cs; intros k j; cbn; [ tauto | ]. rewrite IHcs. tauto.
Qed.

Lemma buf_frame : forall os os' k t vs, buf os k t vs -> nthZ os' k = nthZ os k -> buf os' k t vs.
Proof. intros os os' k t vs (b & A & B) E. exists b. rewrite E. auto. Qed.
Lemma holds_frame : forall s k us os os', holds s k us os -> (forall o, k <= o < k + size s -> nthZ os' o = nthZ os o) -> holds s k us os'.
Proof.
  induction s using shape_ind'; intros k us os os' H1 E; cbn [size] in E.
  - cbn [holds] in *. eapply buf_frame; [ exact H1 | apply E; lia ].
  - pose proof (size_pos s). cbn [holds] in *. destruct H1 as [ A B ]. split.
    + eapply buf_frame; [ exact A | apply E; lia ].
    + eapply IHs; [ exact B | intros o Ho; apply E; lia ].
  - apply holds_rec. apply holds_rec in H1. revert H1 E. generalize 0%nat. revert k. induction H as [ | c cs Hc _ IH ]; intros k j H1 E; cbn [holds_f] in *; [ exact I | ].
    cbn [map fold_right] in E. destruct H1 as [ A B ].
    assert (0 <= fold_right Z.add 0 (map size cs)) by (clear; induction cs as [ | x cs IH ]; cbn; [ lia | pose proof (size_pos x); lia ]). pose proof (size_pos c). split.
    + eapply Hc; [ exact A | intros o Ho; apply E; lia ].
    + apply IH; [ exact B | intros o Ho; apply E; lia ].
Qed.

(** ** Commands are taken at the pauses *)
Definition inok (is : list inbuf) : Prop := exists d pos, is = [mkIn d pos] /\ 8 <= zlen d < 2^63.
Definition fed (c : cmd) (is : list inbuf) : Prop := exists rest pos, is = [mkIn (fst c ++ rest) pos] /\ 8 <= zlen (fst c ++ rest) < 2^63.
Definition feed_ins (bytes : list Z) (is : list inbuf) : list inbuf :=
  match is with [b] => [mkIn (bytes ++ slice (zlen bytes) (zlen (idata b)) (idata b)) (ipos b)] | _ => is end.
Definition feed (c : cmd) (k : cfg) : cfg := mkCfg (snd c :: k_stk k) (k_vars k) (feed_ins (fst c) (k_ins k)) (k_outs k) (k_frames k).

Lemma fed_inok : forall c is, fed c is -> inok is.
Proof. intros c is (r & p & E & H). exists (fst c ++ r), p. auto. Qed.
Lemma feed_fed : forall c is, inok is -> zlen (fst c) <= 8 -> fed c (feed_ins (fst c) is).
Proof.
  intros c is (d & p & -> & H) L. cbn [feed_ins idata ipos]. exists (slice (zlen (fst c)) (zlen d) d), p. split; [ reflexivity | ].
  rewrite zlen_app, zlen_slice by (pose proof (zlen_nonneg (fst c)); lia). lia.
Qed.

Inductive runs (m : machine) : list cmd -> cfg -> cfg -> Prop :=
| runs_done : forall k k', steps m k k' -> runs m [] k k'
| runs_next : forall c cs k k1 k2 k', steps m k k1 -> k_frames k1 <> [] -> pauses m k1 k2 -> zlen (k_stk k2) < m_stackmax m -> inok (k_ins k2) -> zlen (fst c) <= 8 ->
    runs m cs (feed c k2) k' -> runs m (c :: cs) k k'.
Lemma runs_pre : forall m cs k k1 k', steps m k k1 -> runs m cs k1 k' -> runs m cs k k'.
Proof.
  intros m cs k k1 k' H R. destruct R; [ constructor; eapply steps_trans; eassumption | ]. eapply runs_next; [ eapply steps_trans; eassumption | eassumption .. ].
Qed.
Lemma runs_app : forall m cs cs' k k1 k', runs m cs k k1 -> runs m cs' k1 k' -> runs m (cs ++ cs') k k'.
Proof.
  intros m cs cs' k k1 k' H. induction H; intros R; cbn [app]; [ eapply runs_pre; eauto | ]. eapply runs_next; eauto.
Qed.
Lemma runs_post : forall m cs k k1 k', runs m cs k k1 -> steps m k1 k' -> runs m cs k k'.
Proof. intros m cs k k1 k' H S1. rewrite <- (app_nil_r cs). eapply runs_app; [ exact H | constructor; exact S1 ]. Qed.

(** ** Numbers *)
Lemma le_bytes_len : forall n v, zlen (le_bytes n v) = Z.of_nat n.
Proof. induction n; intros v; [ reflexivity | ]. cbn [le_bytes]. rewrite zlen_cons, IHn. lia. Qed.
Lemma le_bytes_value : forall n v, le_unsigned (le_bytes n v) = v mod 256 ^ Z.of_nat n.
Proof.
  induction n; intros v; [ rewrite Z.mod_1_r; reflexivity | ]. cbn [le_bytes le_unsigned]. rewrite IHn, Nat2Z.inj_succ, Z.pow_succ_r by lia.
  rewrite Z.rem_mul_r by lia. reflexivity.
Qed.
Lemma wrapS64 : forall z, - 2^63 <= z < 2^63 -> wrapS 64 (z mod 2^64) = z.
Proof.
  intros z H. unfold wrapS. change (2 ^ (64 - 1)) with (2^63). rewrite Zplus_mod_idemp_l, Z.mod_small by lia. lia.
Qed.
Lemma wrapS_id : forall z, - 2^63 <= z < 2^63 -> wrapS 64 z = z.
Proof. intros z H. unfold wrapS. change (2 ^ (64 - 1)) with (2^63). rewrite Z.mod_small by lia. lia. Qed.

Record vm_ok (m : machine) : Prop := mkVm {
  vm_width : m_width m = 32; vm_stack : m_stackmax m = 1024; vm_rec : m_recmax m = 1024; vm_grow : growing m;
  vm_f2o : forall bs, m_f2o m (OFloat 64) bs = Some (le_unsigned bs) }.

Definition leaf_fmt (l : leaf) : fmt := match l with LInt => FInt true 8 | LReal => FFloat 8 | LBool => FBool end.
Lemma leaf_fmt_ok : forall l, fmt_of (leaf_format l) = Some (leaf_fmt l).
Proof. intros [ | | ]; reflexivity. Qed.
Lemma leaf_in : forall l, In (leaf_format l) [8; 40; 104].
Proof. intros [ | | ]; cbn; auto. Qed.
Lemma leaf_bytes : forall l v, of_shape (SNum l) v -> zlen (bytes_of v) = fmt_size (leaf_fmt l).
Proof. intros [ | | ] v (z & H); [ destruct H as [ -> _ ] .. | subst v ]; cbn [bytes_of leaf_fmt fmt_size]; rewrite ?le_bytes_len; reflexivity. Qed.
Lemma leaf_item : forall m l v, vm_ok m -> of_shape (SNum l) v -> item_to_out m (leaf_type l) (leaf_fmt l) false (bytes_of v) = Some (code_of v).
Proof.
  intros m [ | | ] v V (z & H).
  - destruct H as [ -> H ]. unfold item_to_out, item_int, leaf_fmt, leaf_type, cast_out, bytes_of, code_of. rewrite le_bytes_value. change (256 ^ Z.of_nat 8) with (2^64).
    change (8 * 8) with 64. rewrite wrapS64 by exact H. rewrite wrapS_id by exact H. reflexivity.
  - destruct H as [ -> H ]. unfold item_to_out, leaf_fmt, leaf_type, bytes_of, code_of. rewrite (vm_f2o m V), le_bytes_value. change (256 ^ Z.of_nat 8) with (2^64). rewrite Z.mod_small by lia. reflexivity.
  - subst v. destruct z; reflexivity.
Qed.
Lemma cmd_small : forall l v, of_shape (SNum l) v -> zlen (bytes_of v) <= 8.
Proof. intros l v H. rewrite (leaf_bytes _ _ H). destruct l; cbn; lia. Qed.
