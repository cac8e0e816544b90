(** What one instruction of the Forth machine may change.  "Control" is the call stack, the loop stack, the targets,
    the ready flag and the error; the data are the stack, variables, inputs, outputs and counters. *)
From Verif Require Import Base BaseLemmas Forth.
Local Open Scope list_scope.
Local Open Scope Z_scope.

Definition ctl (s : state) := (frames s, targets s, dos s, ready s, err s).

Definition execution_error (e : ferror) : Prop :=
  match e with e_none | e_not_ready | e_is_done | e_user_halt => False | _ => True end.

(** the instructions which jump *)
Definition control_code (c : Z) : bool :=
  (c =? 1) || (c =? 2) || (c =? 3) || (c =? 4) || (c =? 5) || (c =? 6) || (c =? 7) || (c =? 8) || (c =? 9) || (c =? 10)
  || (BOUND_DICTIONARY <=? c).

(** the operands of the others *)
Definition operands (c : Z) : Z :=
  if c <? 0 then 1 + Z.b2z (Z.testbit (Z.lnot c) 0) + Z.b2z (Z.land (Z.lnot c) 248 =? READ_NBIT)
  else if (c =? 0) || (11 <=? c) && (c <=? 25) then 1 else 0.

(** normal end, or an error reported at most k operands further *)
Definition ends (k : Z) (s : state) (r : xres) : Prop :=
  match r with
  | XNext s' => ctl s' = ctl (where_add k s)
  | XRet s' => execution_error (err s') /\ exists j, 0 <= j <= k /\ ctl s' = ctl (set_err (err s') (where_add j s))
  | XExit _ => False
  | XBad _ => True
  end.

Lemma where_add_0 : forall s, where_add 0 s = s.
Proof. intros s; unfold where_add. destruct s as [ a b c d e f g h i j k l ]; cbn. destruct f as [ | [ w p ] r ]; [ reflexivity | rewrite Z.add_0_r; reflexivity ]. Qed.

Lemma where_add_plus : forall a b s, where_add a (where_add b s) = where_add (b + a) s.
Proof. intros x y s; unfold where_add. destruct s as [ a b c d e f g h i j k l ]; cbn. destruct f as [ | [ w p ] r ]; [ reflexivity | cbn; rewrite Z.add_assoc; reflexivity ]. Qed.

Lemma ctl_where_add : forall k s s', ctl s = ctl s' -> ctl (where_add k s) = ctl (where_add k s').
Proof.
  intros k s s' E. unfold ctl in E. injection E as A B C D E. unfold ctl, where_add. rewrite A.
  destruct (frames s') as [ | [ w p ] r ] eqn:F; cbn; congruence.
Qed.

Lemma ctl_set_err : forall e s s', ctl s = ctl s' -> ctl (set_err e s) = ctl (set_err e s').
Proof. intros e s s' E. unfold ctl in *. cbn. congruence. Qed.

Lemma set_err_where_add : forall e k s, set_err e (where_add k s) = where_add k (set_err e s).
Proof. intros e k s; unfold where_add; cbn. destruct (frames s) as [ | [ ] ]; reflexivity. Qed.

Lemma ends_ctl : forall k s s' r, ctl s = ctl s' -> ends k s r -> ends k s' r.
Proof.
  intros k s s' r E. destruct r as [ t | t | t | b ]; cbn; [ | | tauto | tauto ].
  - intros ->. apply ctl_where_add, E.
  - intros (X & j & J & C). split; [ exact X | ]. exists j. split; [ exact J | ]. rewrite C. apply ctl_set_err, ctl_where_add, E.
Qed.

Lemma fail_ends : forall k e s, 0 <= k -> execution_error e -> ends k s (fail e s).
Proof. intros k e s K E. cbn. split; [ exact E | ]. exists 0. split; [ lia | ]. rewrite where_add_0. reflexivity. Qed.

Lemma operand_ends : forall k m s f, 0 <= k -> (forall v s', ends k s' (f v s')) -> ends (k + 1) s (operand m s f).
Proof.
  intros k m s f K H. unfold operand. destruct (bytecode_get m s) as [ v | ]; [ | exact I ].
  specialize (H v (where_add 1 s)). destruct (f v (where_add 1 s)) as [ t | t | t | b ]; cbn in *; [ | | tauto | tauto ].
  - rewrite where_add_plus in H. rewrite H. f_equal. f_equal; lia.
  - destruct H as (X & j & J & C). split; [ exact X | ]. exists (1 + j). split; [ lia | ].
    rewrite where_add_plus in C. exact C.
Qed.

Lemma pop_ends : forall k s f, 0 <= k -> (forall x s', ends k s' (f x s')) -> ends k s (pop_or_fail s f).
Proof.
  intros k s f K H. unfold pop_or_fail. destruct (stack_cannot_pop s); [ apply fail_ends; [ exact K | exact I ] | ].
  unfold stack_pop. destruct (stk s) as [ | x r ]; [ exact I | ].
  apply (ends_ctl k (set_stk r s)); [ destruct s; reflexivity | apply H ].
Qed.

Lemma push_ends : forall k m v s f, 0 <= k -> (forall s', ends k s' (f s')) -> ends k s (stack_push m v s f).
Proof.
  intros k m v s f K H. unfold stack_push. destruct (_ <? _); [ | exact I ].
  apply (ends_ctl k (set_stk (v :: stk s) s)); [ destruct s; reflexivity | apply H ].
Qed.

Lemma push_or_fail_ends : forall k m v s f, 0 <= k -> (forall s', ends k s' (f s')) -> ends k s (push_or_fail m v s f).
Proof.
  intros k m v s f K H. unfold push_or_fail. destruct (stack_cannot_push m s); [ apply fail_ends; [ exact K | exact I ] | ].
  apply push_ends; assumption.
Qed.

Lemma read_ends : forall k i n s f, 0 <= k -> (forall p s', ends k s' (f p s')) -> ends k s (read_ i n s f).
Proof.
  intros k i n s f K H. unfold read_. destruct (nthZ (ins s) i) as [ b | ]; [ | exact I ]. cbn zeta.
  destruct (negb _); [ exact I | ]. destruct (_ <? _); [ apply fail_ends; [ exact K | exact I ] | ].
  eapply ends_ctl; [ | apply H ]. destruct s; reflexivity.
Qed.

Lemma out_ends : forall k i f s g, 0 <= k -> (forall s', ends k s' (g s')) -> ends k s (with_out i f s g).
Proof.
  intros k i f s g K H. unfold with_out. destruct (nthZ (outs s) i) as [ b | ]; [ | exact I ].
  destruct (f b); [ | apply fail_ends; [ exact K | exact I ] | exact I ].
  eapply ends_ctl; [ | apply H ]. destruct s; reflexivity.
Qed.

Lemma emit_ends : forall k m dst a b s f, 0 <= k -> (forall s', ends k s' (f s')) -> ends k s (emit m dst a b s f).
Proof.
  intros k m dst a b s f K H. unfold emit. destruct dst; [ apply out_ends | apply push_or_fail_ends ]; assumption.
Qed.

Lemma varint_bytes_ends : forall fuel k i sh r s f, 0 <= k -> (forall v s', ends k s' (f v s')) -> ends k s (varint_bytes fuel i sh r s f).
Proof.
  induction fuel as [ | fuel IH ]; intros k i sh r s f K H; [ exact I | ]. cbn [varint_bytes].
  apply read_ends; [ exact K | ]. intros p s'. destruct (_ =? _); [ apply fail_ends; [ exact K | exact I ] | ].
  destruct (byte_at i p s'); [ | exact I ]. cbn zeta. destruct (Z.testbit _ _); [ apply IH; assumption | apply H ].
Qed.

Lemma varint_items_ends : forall n k m zz i dst s f, 0 <= k -> (forall s', ends k s' (f s')) -> ends k s (varint_items m n zz i dst s f).
Proof.
  induction n as [ | n IH ]; intros k m zz i dst s f K H; [ apply H | ]. cbn [varint_items].
  apply varint_bytes_ends; [ exact K | ]. intros v s'. destruct zz; cbn zeta; apply emit_ends; auto.
Qed.

Lemma nbit_byte_ends : forall k flip i s f, 0 <= k -> (forall v s', ends k s' (f v s')) -> ends k s (nbit_byte flip i s f).
Proof.
  intros k flip i s f K H. unfold nbit_byte. apply read_ends; [ exact K | ]. intros p s'.
  destruct (byte_at i p s'); [ | exact I ]. destruct flip; [ | apply H ]. destruct (bitswap _); [ apply H | exact I ].
Qed.

Lemma nbit_loop_ends : forall fuel k m flip w i dst l r items data s f, 0 <= k -> (forall s', ends k s' (f s')) ->
  ends k s (nbit_loop fuel m flip w i dst l r items data s f).
Proof.
  induction fuel as [ | fuel IH ]; intros k m flip w i dst l r items data s f K H; cbn [nbit_loop];
    (destruct (items =? 0); [ apply H | ]); [ exact I | ].
  destruct (8 <=? r); [ apply IH; assumption | ]. destruct (w <=? l - r); [ cbn zeta; apply emit_ends; auto | ].
  apply nbit_byte_ends; [ exact K | ]. intros v s'. destruct (64 <=? l); [ exact I | apply IH; assumption ].
Qed.

Lemma read_nbit_ends : forall k m flip w i dst n s f, 0 <= k -> (forall s', ends k s' (f s')) -> ends k s (read_nbit m flip w i dst n s f).
Proof.
  intros k m flip w i dst n s f K H. unfold read_nbit. destruct (_ || _); [ exact I | ]. destruct (n =? 0); [ apply H | ].
  apply nbit_byte_ends; [ exact K | ]. intros v s'. apply nbit_loop_ends; assumption.
Qed.

Lemma push_items_ends : forall items k m fm be s f, 0 <= k -> (forall s', ends k s' (f s')) -> ends k s (push_items m fm be items s f).
Proof.
  induction items as [ | x t IH ]; intros k m fm be s f K H; [ apply H | ]. cbn [push_items].
  destruct (item_to_stack m fm be x); [ | exact I ]. apply push_or_fail_ends; auto.
Qed.

Lemma read_to_stack_ends : forall k m fm be i n s f, 0 <= k -> (forall s', ends k s' (f s')) -> ends k s (read_to_stack m fm be i n s f).
Proof.
  intros k m fm be i n s f K H. unfold read_to_stack. destruct (negb _); [ exact I | ].
  apply read_ends; [ exact K | ]. intros p s'. destruct (items_at _ _ _ _ _); [ apply push_items_ends; assumption | exact I ].
Qed.

Lemma read_direct_ends : forall k m fm be i o n s f, 0 <= k -> (forall s', ends k s' (f s')) -> ends k s (read_direct m fm be i o n s f).
Proof.
  intros k m fm be i o n s f K H. unfold read_direct. destruct (negb _); [ exact I | ].
  apply read_ends; [ exact K | ]. intros p s'. destruct (n <? 0).
  - destruct (_ && _); [ exact I | apply out_ends; assumption ].
  - destruct (items_at _ _ _ _ _); [ apply out_ends; assumption | exact I ].
Qed.

Lemma next_ends : forall s, ends 0 s (XNext s).
Proof. intros s. cbn. rewrite where_add_0. reflexivity. Qed.

Lemma next_set : forall s t, ctl t = ctl s -> ends 0 s (XNext t).
Proof. intros s t E. cbn. rewrite where_add_0. exact E. Qed.

Lemma exec_read_ends : forall m c s, ends (operands c) s (exec_read m c s) \/ 0 <= c.
Proof.
  intros m c s. destruct (Z.leb_spec 0 c); [ auto | left ]. unfold exec_read, operands. rewrite (proj2 (Z.ltb_lt c 0)) by lia.
  cbn zeta. set (fl := Z.lnot c).
  replace (1 + Z.b2z (Z.testbit fl 0) + Z.b2z (Z.land fl 248 =? READ_NBIT))
    with (Z.b2z (Z.testbit fl 0) + Z.b2z (Z.land fl 248 =? READ_NBIT) + 1) by lia.
  assert (P1 : 0 <= Z.b2z (Z.testbit fl 0) <= 1) by (destruct (Z.testbit fl 0); cbn; lia).
  assert (D : forall s, ends 0 s (XNext (count_read s))) by (intros t; apply next_set; destruct t; reflexivity).
  assert (D2 : forall s, ends 0 s (XNext (count_read (count_write s)))) by (intros t; apply next_set; destruct t; reflexivity).
  apply operand_ends. { destruct (_ =? READ_NBIT); cbn; lia. }
  intros i s1.
  set (B := fun num_items s => if (Z.land fl 248 =? READ_VARINT) || (Z.land fl 248 =? READ_ZIGZAG) then _ else _).
  assert (HB : forall n s, ends (Z.b2z (Z.testbit fl 0) + Z.b2z (Z.land fl 248 =? READ_NBIT)) s (B n s)).
  { intros n s2. unfold B.
    destruct ((Z.land fl 248 =? READ_VARINT) || (Z.land fl 248 =? READ_ZIGZAG)) eqn:V.
    { assert ((Z.land fl 248 =? READ_NBIT) = false) as ->.
      { apply Z.eqb_neq. intros E. rewrite E in V. discriminate V. }
      destruct (Z.testbit fl 0); cbn [Z.b2z].
      - apply (operand_ends 0); [ lia | ]. intros o s3. apply varint_items_ends; [ lia | exact D ].
      - apply varint_items_ends; [ lia | exact D ]. }
    destruct (Z.land fl 248 =? READ_NBIT).
    { destruct (Z.testbit fl 0); cbn [Z.b2z].
      - apply (operand_ends 1); [ lia | ]. intros w s3. apply (operand_ends 0); [ lia | ]. intros o s4. apply read_nbit_ends; [ lia | exact D ].
      - apply (operand_ends 0); [ lia | ]. intros w s3. apply read_nbit_ends; [ lia | exact D ]. }
    destruct (Z.testbit fl 0); cbn [Z.b2z].
    - apply (operand_ends 0); [ lia | ]. intros o s3. destruct (fmt_of _); [ apply read_direct_ends; [ lia | exact D2 ] | apply D2 ].
    - destruct (fmt_of _); [ apply read_to_stack_ends; [ lia | exact D ] | apply D ]. }
  destruct (Z.testbit fl 1).
  - apply pop_ends; [ destruct (_ =? READ_NBIT); cbn; lia | ]. intros x s2. apply HB.
  - apply HB.
Qed.

Ltac ends_leaf :=
  first [ exact I
        | apply fail_ends; [ lia | exact I ]
        | apply next_set; match goal with |- ctl _ = ctl ?s => destruct s; reflexivity end ].

Ltac ends_step :=
  repeat first
    [ ends_leaf
    | apply push_ends; [ lia | intros ]
    | apply push_or_fail_ends; [ lia | intros ]
    | apply pop_ends; [ lia | intros ]
    | apply out_ends; [ lia | intros ]
    | match goal with |- ends _ _ (match ?x with _ => _ end) => destruct x end
    | match goal with |- ends _ _ (if ?x then _ else _) => destruct x end ].

Lemma unary_ends : forall m f s, (forall a k, (forall v, ends 0 s (k v)) -> ends 0 s (f a k)) -> ends 0 s (unary m f s).
Proof.
  intros m f s H. unfold unary. destruct (stack_cannot_pop s); [ ends_leaf | ]. destruct (stk s) as [ | x r ]; [ ends_leaf | ].
  apply H. intros v. ends_leaf.
Qed.
Lemma binary_ends : forall m f s, (forall a b k, (forall v, ends 0 s (k v)) -> ends 0 s (f a b k)) -> ends 0 s (binary m f s).
Proof.
  intros m f s H. unfold binary. destruct (stack_cannot_pop2 s); [ ends_leaf | ]. destruct (stk s) as [ | x [ | y r ] ]; [ ends_leaf | ends_leaf | ].
  apply H. intros v. ends_leaf.
Qed.
Lemma arith_ends : forall m s v k, (forall v, ends 0 s (k v)) -> ends 0 s (arith m v k).
Proof. intros m s v k H. unfold arith. destruct (fits _ _); [ apply H | exact I ]. Qed.
Lemma div_ends : forall m s a b k, (forall v, ends 0 s (k v)) -> ends 0 s (div_ m a b k).
Proof. intros. unfold div_. apply arith_ends; intros. apply arith_ends; intros. auto. Qed.
Lemma mod_ends : forall m s a b k, (forall v, ends 0 s (k v)) -> ends 0 s (mod_ m a b k).
Proof. intros. unfold mod_. apply arith_ends; intros. apply arith_ends; intros. auto. Qed.
Lemma divide_ends : forall m f s, (forall a b k, (forall v, ends 0 s (k v)) -> ends 0 s (f a b k)) -> ends 0 s (divide m f s).
Proof.
  intros m f s H. unfold divide. destruct (stack_cannot_pop2 s); [ ends_leaf | ]. destruct (stk s) as [ | y [ | x r ] ]; [ ends_leaf | ends_leaf | ].
  destruct (y =? 0).
  - apply (ends_ctl 0 (set_stk (x :: r) s)); [ destruct s; reflexivity | ends_leaf ].
  - apply H. intros v. ends_leaf.
Qed.

(** an instruction which does not jump *)
Lemma exec_data : forall m single c s, control_code c = false -> ends (operands c) s (exec m single c s).
Proof.
  intros m single c s H. unfold exec. destruct (Z.ltb_spec c 0) as [ N | N ].
  { destruct (exec_read_ends m c s); [ assumption | lia ]. }
  unfold control_code in H. apply orb_false_iff in H. destruct H as [ H B ].
  repeat (apply orb_false_iff in H; destruct H as [ H ? ]).
  rewrite B. rewrite Z.leb_gt in B. unfold BOUND_DICTIONARY in B. rewrite !Z.eqb_neq in *.
  assert (C : c = 0 \/ 11 <= c <= 65) by lia.
  unfold operands. rewrite (proj2 (Z.ltb_ge c 0)) by lia.
  destruct C as [ -> | C ].
  { apply (operand_ends 0); [ lia | ]. intros v s'. ends_step. }
  assert (I : In c (map (fun n => Z.of_nat n + 11) (seq 0 55))).
  { apply in_map_iff. exists (Z.to_nat (c - 11)). split; [ lia | apply in_seq; lia ]. }
  clear - I. cbn [map seq] in I.
  repeat (destruct I as [ <- | I ]; [ | ]); [ .. | destruct I ].
  all: match goal with |- ends ?k _ (exec_code _ _ ?c _) => let k' := eval vm_compute in k in let c' := eval vm_compute in c in change k with k'; change c with c'; cbn [exec_code] end.
  all: repeat match goal with |- ends 1 _ (operand _ _ _) => apply (operand_ends 0); [ lia | ]; intros end.
  all: try solve [ ends_step ].
  all: try solve [ apply unary_ends; intros; first [ apply arith_ends; assumption | auto ] ].
  all: try solve [ apply binary_ends; intros; first [ apply arith_ends; assumption | auto ] ].
  - apply pop_ends; [ lia | ]. intros. destruct (nthZ _ _); [ | exact I ]. apply arith_ends. intros. ends_leaf.
  - apply pop_ends; [ lia | ]. intros. unfold seek_. ends_step. 
  - apply pop_ends; [ lia | ]. intros. unfold skip_. ends_step.
  - destruct (stack_cannot_pop2 s); [ ends_leaf | ]. destruct (stack_cannot_push m s); [ ends_leaf | ].
    destruct (stk s) as [ | y [ | x r ] ]; [ ends_leaf | ends_leaf | ].
    apply (ends_ctl 0 (set_stk (x :: y :: r) s)); [ destruct s; reflexivity | ends_step ].
  - apply divide_ends. intros. apply div_ends. assumption.
  - apply divide_ends. intros. apply mod_ends. assumption.
  - destruct (stack_cannot_pop2 s); [ ends_leaf | ]. destruct (stk s) as [ | y [ | x r ] ]; [ ends_leaf | ends_leaf | ].
    destruct (y =? 0); [ ends_leaf | ]. apply div_ends. intros. apply mod_ends. intros. ends_leaf.
  - apply binary_ends. intros. unfold lshift_. destruct (_ && _); [ auto | exact I ].
  - apply binary_ends. intros. unfold rshift_. destruct (_ && _); [ auto | exact I ].
Qed.
