(** Lemmas for C32: what the reading instructions of the Forth machine decode *)
From Verif Require Import Base BaseLemmas Forth SpecForth PForthOut.
Local Open Scope list_scope.
Local Open Scope Z_scope.

(** ** Plumbing *)
Lemma upd_upd : forall {A} (l : list A) n x y, upd (upd l n x) n y = upd l n y.
Proof. induction l as [ | h t IH ]; intros [ | n ] x y; cbn; try reflexivity. f_equal; apply IH. Qed.

Lemma set_in_in : forall i a b s, set_in i a (set_in i b s) = set_in i a s.
Proof. intros. unfold set_in, set_ins. cbn. rewrite upd_upd. reflexivity. Qed.

Lemma set_out_out : forall i a b s, set_out i a (set_out i b s) = set_out i a s.
Proof. intros. unfold set_out, set_outs. cbn. rewrite upd_upd. reflexivity. Qed.

Lemma in_set_in : forall i a s b, nthZ (ins s) i = Some b -> nthZ (ins (set_in i a s)) i = Some a.
Proof.
  intros i a s b H. unfold set_in, set_ins; cbn [ins].
  apply nthZ_Some in H. rewrite nthZ_upd by lia. rewrite Z2Nat.id by lia. rewrite Z.eqb_refl. reflexivity.
Qed.

Lemma out_set_out : forall i a s b, nthZ (outs s) i = Some b -> nthZ (outs (set_out i a s)) i = Some a.
Proof.
  intros i a s b H. unfold set_out, set_outs; cbn [outs].
  apply nthZ_Some in H. rewrite nthZ_upd by lia. rewrite Z2Nat.id by lia. rewrite Z.eqb_refl. reflexivity.
Qed.

Lemma fits64 : forall n, 0 <= n < 2^63 -> fits 64 n = true.
Proof. intros n H. unfold fits. change (2^(64-1)) with (2^63). rewrite andb_true_iff, Z.leb_le, Z.ltb_lt. lia. Qed.

Lemma read_ok : forall i n s k data pos, nthZ (ins s) i = Some (mkIn data pos) -> 0 <= pos -> 0 <= n ->
  pos + n <= zlen data -> zlen data < 2^63 ->
  read_ i n s k = k pos (set_in i (mkIn data (pos + n)) s).
Proof.
  intros i n s k data pos H Hp Hn Hl H63. unfold read_. rewrite H. cbn [ipos idata]. rewrite fits64 by lia. cbn [negb].
  destruct (Z.ltb_spec (zlen data) (pos + n)); [ lia | reflexivity ].
Qed.

Lemma read_beyond : forall i n s k data pos, nthZ (ins s) i = Some (mkIn data pos) -> 0 <= pos -> 0 <= n ->
  zlen data < pos + n -> pos + n < 2^63 -> read_ i n s k = XRet (set_err e_read_beyond s).
Proof.
  intros i n s k data pos H Hp Hn Hl H63. unfold read_. rewrite H. cbn [ipos idata]. rewrite fits64 by lia. cbn [negb].
  destruct (Z.ltb_spec (zlen data) (pos + n)); [ reflexivity | lia ].
Qed.

Lemma byte_ok : forall i s data pos q p b, nthZ (ins s) i = Some (mkIn data pos) -> nthZ data p = Some b ->
  byte_at i p (set_in i (mkIn data q) s) = Some b.
Proof. intros i s data pos q p b H Hb. unfold byte_at. rewrite (in_set_in _ _ _ _ H). exact Hb. Qed.

(** ** Variable-length integers *)
Lemma varint_nonneg : forall bs v, varint bs v -> 0 <= v < 2 ^ (7 * zlen bs).
Proof.
  induction 1 as [ b H | b bs v H _ IH ].
  - change (zlen [b]) with 1. change (2 ^ (7 * 1)) with 128. lia.
  - rewrite zlen_cons. pose proof (zlen_nonneg bs). replace (7 * (zlen bs + 1)) with (7 * zlen bs + 7) by lia.
    rewrite Z.pow_add_r by lia. change (2 ^ 7) with 128. lia.
Qed.

Lemma land127 : forall b, Z.land b 127 = b mod 128.
Proof. intros. change 127 with (Z.ones 7). rewrite Z.land_ones by lia. reflexivity. Qed.

Lemma bits_small : forall a n k, 0 <= n <= k -> 0 <= a < 2 ^ n -> Z.testbit a k = false.
Proof.
  intros a n k Hn Ha. destruct (Z.eq_dec a 0) as [ -> | ]; [ apply Z.bits_0 | ].
  apply Z.bits_above_log2; [ lia | ]. apply Z.lt_le_trans with n; [ apply Z.log2_lt_pow2; lia | lia ].
Qed.

Lemma lor_add : forall a b n, 0 <= n -> 0 <= a < 2 ^ n -> Z.lor a (b * 2 ^ n) = a + b * 2 ^ n.
Proof.
  intros a b n Hn Ha.
  assert (D : Z.land a (b * 2 ^ n) = 0).
  { apply Z.bits_inj'. intros k Hk. rewrite Z.land_spec, Z.bits_0.
    rewrite <- Z.shiftl_mul_pow2, Z.shiftl_spec by lia. destruct (Z.ltb_spec k n).
    + rewrite (Z.testbit_neg_r b) by lia. apply andb_false_r.
    + rewrite (bits_small a n k) by lia. reflexivity. }
  rewrite <- Z.lxor_lor by exact D. symmetry. apply Z.add_nocarry_lxor, D.
Qed.

Lemma testbit7 : forall b, 0 <= b < 256 -> Z.testbit b 7 = (128 <=? b).
Proof.
  intros b Hb. rewrite Z.testbit_eqb by lia. change (2 ^ 7) with 128.
  destruct (Z.leb_spec 128 b).
  - replace (b / 128) with 1 by (apply Z.div_unique with (b - 128); lia). reflexivity.
  - rewrite Z.div_small by lia. reflexivity.
Qed.

Lemma nthZ_at : forall {A} (a : list A) x r, nthZ (a ++ x :: r) (zlen a) = Some x.
Proof. intros. rewrite nthZ_app, Z.ltb_irrefl, Z.sub_diag. reflexivity. Qed.

Lemma varint_bytes_ok : forall bs v, varint bs v -> forall fuel i j result s k pre rest,
  nthZ (ins s) i = Some (mkIn (pre ++ bs ++ rest) (zlen pre)) -> zlen (pre ++ bs ++ rest) < 2^63 ->
  0 <= j -> j + zlen bs <= 9 -> 0 <= result < 2 ^ (7 * j) -> (List.length bs <= fuel)%nat ->
  varint_bytes fuel i (7 * j) result s k =
  k (result + v * 2 ^ (7 * j)) (set_in i (mkIn (pre ++ bs ++ rest) (zlen pre + zlen bs)) s).
Proof.
  induction 1 as [ b H | b bs v H Hv IH ]; intros fuel i j result s k pre rest Hi H63 Hj Hl Hr Hf;
    (destruct fuel as [ | fuel ]; [ cbn in Hf; lia | ]); cbn [varint_bytes app] in *; rewrite zlen_cons in *;
    pose proof (zlen_nonneg pre); pose proof (zlen_nonneg rest); rewrite ?zlen_app, ?zlen_cons, ?zlen_app in H63.
  - change (zlen (@nil Z)) with 0 in *.
    rewrite (read_ok i 1 s _ _ _ Hi) by (rewrite ?zlen_app, ?zlen_cons; lia).
    destruct (Z.eqb_spec (7 * j) (7 * 9)); [ lia | ].
    rewrite (byte_ok _ _ _ _ _ _ b Hi) by apply nthZ_at.
    rewrite testbit7 by lia. destruct (Z.leb_spec 128 b); [ lia | ].
    rewrite land127, Z.mod_small, Z.shiftl_mul_pow2, lor_add by lia. reflexivity.
  - pose proof (zlen_nonneg bs).
    rewrite (read_ok i 1 s _ _ _ Hi) by (rewrite ?zlen_app, ?zlen_cons, ?zlen_app; lia).
    destruct (Z.eqb_spec (7 * j) (7 * 9)).
    { exfalso. inversion Hv; subst; rewrite ?zlen_cons in *; change (zlen (@nil Z)) with 0 in *.
      - lia. - match goal with H : varint ?l _ |- _ => pose proof (zlen_nonneg l) end. lia. }
    rewrite (byte_ok _ _ _ _ _ _ (b + 128) Hi) by apply nthZ_at.
    rewrite testbit7 by lia. destruct (Z.leb_spec 128 (b + 128)); [ | lia ].
    rewrite land127. replace ((b + 128) mod 128) with b by (apply Z.mod_unique with 1; lia).
    rewrite Z.shiftl_mul_pow2, lor_add by lia.
    replace (7 * j + 7) with (7 * (j + 1)) by lia.
    assert (P : 2 ^ (7 * (j + 1)) = 128 * 2 ^ (7 * j)).
    { replace (7 * (j + 1)) with (7 + 7 * j) by lia. rewrite Z.pow_add_r by lia. reflexivity. }
    assert (E : pre ++ (b + 128) :: bs ++ rest = (pre ++ [b + 128]) ++ bs ++ rest) by (rewrite <- app_assoc; reflexivity).
    rewrite (IH fuel i (j + 1) _ _ k (pre ++ [b + 128]) rest).
    + rewrite set_in_in, <- E. f_equal; [ rewrite P; lia | ]. do 2 f_equal. rewrite zlen_app. change (zlen [b + 128]) with 1. lia.
    + rewrite (in_set_in _ _ _ _ Hi), E. do 2 f_equal. rewrite zlen_app. reflexivity.
    + rewrite !zlen_app. change (zlen [b + 128]) with 1. lia.
    + lia.
    + lia.
    + rewrite P. nia.
    + cbn in Hf. lia.
Qed.

(** ** Where decoded values go *)
(** before: there is room for n values *)
Definition room (m : machine) (dst : option Z) (n : Z) (base : list Z) (s : state) : Prop :=
  match dst with
  | None => zlen (stk s) + n <= m_stackmax m
  | Some o => growing m /\ exists b, nthZ (outs s) o = Some b /\ good b base /\ 0 < reserved b
  end.
(** after: the values [vs] have been pushed, or appended to an output which held [base] *)
Definition put (m : machine) (dst : option Z) (base vs : list Z) (s s' : state) : Prop :=
  match dst with
  | None => s' = set_stk (rev (map (wrapS (m_width m)) vs) ++ stk s) s
  | Some o => exists b b', nthZ (outs s) o = Some b /\ s' = set_out o b' s /\ otype b' = otype b
                /\ good b' (base ++ map (cast_out m (otype b)) vs) /\ 0 < reserved b'
  end.

Lemma set_outs_id : forall o b s, nthZ (outs s) o = Some b -> set_out o b s = s.
Proof.
  intros o b s H. unfold set_out. assert (upd (outs s) (Z.to_nat o) b = outs s) as ->; [ | destruct s; reflexivity ].
  unfold nthZ in H. destruct (o <? 0); [ discriminate | ]. revert H. generalize (Z.to_nat o). induction (outs s) as [ | h t IH ];
    intros [ | n ] H; cbn in *; try discriminate; [ congruence | f_equal; auto ].
Qed.

Lemma put_nil : forall m dst base s, room m dst 0 base s -> put m dst base [] s s.
Proof.
  intros m [ o | ] base s H; cbn in *.
  - destruct H as (G & b & Hb & Hg & R). exists b, b. rewrite set_outs_id, app_nil_r by assumption. auto.
  - destruct s; reflexivity.
Qed.

(** one more value *)
Lemma emit_ok : forall m dst n base v1 v2 s k, room m dst (n + 1) base s -> 0 <= n ->
  (dst <> None -> v1 = v2) ->
  exists s', emit m dst v1 v2 s k = k s' /\ put m dst base [v1] s s'
    /\ exists base', room m dst n base' s' /\
         (forall vs s'', put m dst base' vs s' s'' -> put m dst base (v1 :: vs) s s'').
Proof.
  intros m [ o | ] n base v1 v2 s k H Hn Hv; cbn in *.
  - rewrite <- Hv by discriminate. destruct H as (G & b & Hb & Hg & R).
    destruct (write_one_ok m b base (cast_out m (otype b) v1) G R Hg) as (b' & E & Hg' & R' & T).
    exists (set_out o b' s). unfold with_out. rewrite Hb, E. split; [ reflexivity | ]. split; [ | exists (base ++ [cast_out m (otype b) v1]); split ].
    + exists b, b'. auto.
    + split; [ assumption | ]. exists b'. split; [ apply (out_set_out _ _ _ _ Hb) | auto ].
    + intros vs s'' (b1 & b2 & A & -> & C & D & F). rewrite (out_set_out _ _ _ _ Hb) in A. injection A as <-.
      exists b, b2. rewrite set_out_out, <- T. rewrite <- app_assoc in D. rewrite <- T in D. repeat split; try assumption; try congruence; apply D.
  - unfold push_or_fail, stack_cannot_push, stack_push.
    destruct (Z.eqb_spec (zlen (stk s)) (m_stackmax m)); [ lia | ]. destruct (Z.ltb_spec (zlen (stk s)) (m_stackmax m)); [ | lia ].
    eexists; split; [ reflexivity | ]. split; [ reflexivity | ]. exists []. split.
    + unfold set_stk; cbn [stk]. rewrite zlen_cons. lia.
    + intros vs s'' ->. unfold set_stk; cbn. rewrite <- app_assoc. reflexivity.
Qed.

Lemma set_in_id : forall i b s, nthZ (ins s) i = Some b -> set_in i b s = s.
Proof.
  intros i b s H. unfold set_in. assert (upd (ins s) (Z.to_nat i) b = ins s) as ->; [ | destruct s; reflexivity ].
  unfold nthZ in H. destruct (i <? 0); [ discriminate | ]. revert H. generalize (Z.to_nat i). induction (ins s) as [ | h t IH ];
    intros [ | n ] H; cbn in *; try discriminate; [ congruence | f_equal; auto ].
Qed.

(** the same, while the position of an input moves on *)
Lemma emit_in_ok : forall m dst n base v1 v2 i a s k, room m dst (n + 1) base s -> 0 <= n -> (dst <> None -> v1 = v2) ->
  exists s2, emit m dst v1 v2 (set_in i a s) k = k s2 /\ ins s2 = ins (set_in i a s)
    /\ exists base2, room m dst n base2 s2 /\
         (forall fin vs s', put m dst base2 vs (set_in i fin s2) s' -> put m dst base (v1 :: vs) (set_in i fin s) s').
Proof.
  intros m dst n base v1 v2 i a s k R Hn Hv.
  destruct (emit_ok m dst n base v1 v2 (set_in i a s) k) as (s2 & E & P & base2 & R2 & C); [ destruct dst; exact R | exact Hn | exact Hv | ].
  exists s2. split; [ exact E | ]. split.
  { destruct dst; cbn in P; [ destruct P as (b1 & b2 & _ & -> & _); reflexivity | subst; reflexivity ]. }
  exists base2. split; [ exact R2 | ]. intros fin vs s' P'. clear - P P' C.
  destruct dst as [ o | ]; cbn in *.
  - destruct P as (b & b' & A & -> & T & Gd & R). destruct P' as (b1 & b2 & A1 & -> & T1 & G1 & R3).
    specialize (C vs (set_out o b2 (set_out o b' (set_in i a s)))).
    assert (X : exists b3 b4, nthZ (outs s) o = Some b3
               /\ set_out o b2 (set_out o b' (set_in i a s)) = set_out o b4 (set_in i a s)
               /\ otype b4 = otype b3 /\ good b4 (base ++ cast_out m (otype b3) v1 :: map (cast_out m (otype b3)) vs) /\ 0 < reserved b4).
    { apply C. exists b1, b2. repeat split; try assumption; apply G1. }
    destruct X as (b3 & b4 & Y1 & Y2 & Y3 & Y4 & Y5). rewrite set_out_out in Y2.
    assert (b2 = b4).
    { apply (f_equal (fun s => nthZ (outs s) o)) in Y2. rewrite !(out_set_out _ _ _ b) in Y2 by exact A. congruence. }
    subst b4. exists b3, b2. split; [ exact Y1 | ]. split; [ | auto ].
    unfold set_in, set_out, set_outs, set_ins; cbn. rewrite !upd_upd. reflexivity.
  - subst s2. subst s'. unfold set_in, set_stk, set_ins; cbn. rewrite upd_upd, <- !app_assoc. reflexivity.
Qed.

(** what a decoded varint stands for *)
Definition stands (zz : bool) (e : list Z) (v : Z) : Prop := varint e (if zz then zigzag v else v).

Lemma zigzag_decode : forall v, Z.lxor (Z.shiftr (zigzag v) 1) (- Z.land (zigzag v) 1) = v.
Proof.
  intros v. replace (Z.land (zigzag v) 1) with (zigzag v mod 2) by (symmetry; apply (Z.land_ones _ 1); lia).
  rewrite Z.shiftr_div_pow2 by lia. change (2 ^ 1) with 2. unfold zigzag. destruct (Z.leb_spec 0 v).
  - replace (2 * v / 2) with v by (apply Z.div_unique with 0; lia).
    replace (2 * v mod 2) with 0 by (apply Z.mod_unique with v; lia). cbn [Z.opp]. apply Z.lxor_0_r.
  - replace ((-2 * v - 1) / 2) with (- v - 1) by (apply Z.div_unique with 1; lia).
    replace ((-2 * v - 1) mod 2) with 1 by (apply Z.mod_unique with (- v - 1); lia).
    change (- 1) with (-1). rewrite Z.lxor_m1_r. unfold Z.lnot. lia.
Qed.

Lemma varint_items_ok : forall m zz encs vs, Forall2 (stands zz) encs vs -> Forall (fun e => zlen e <= 9) encs ->
  forall i dst base s k pre rest,
  (zz = true -> dst <> None -> Forall (fun v => wrapS (m_width m) v = v) vs) ->
  nthZ (ins s) i = Some (mkIn (pre ++ concat encs ++ rest) (zlen pre)) -> zlen (pre ++ concat encs ++ rest) < 2^63 ->
  room m dst (zlen vs) base s ->
  exists s', varint_items m (List.length vs) zz i dst s k = k s'
    /\ put m dst base vs (set_in i (mkIn (pre ++ concat encs ++ rest) (zlen pre + zlen (concat encs))) s) s'.
Proof.
  intros m zz encs vs F2. induction F2 as [ | e v encs vs He F2 IH ]; intros H9 i dst base s k pre rest Hzz Hi H63 Hroom.
  - cbn [List.length varint_items]. exists s. split; [ reflexivity | ]. cbn [concat]. change (zlen (@nil Z)) with 0. rewrite Z.add_0_r.
    rewrite set_in_id by exact Hi. apply put_nil; exact Hroom.
  - apply Forall_cons_iff in H9. destruct H9 as [ H9e H9 ]. cbn [List.length varint_items concat] in *.
    rewrite zlen_cons in Hroom. pose proof (zlen_nonneg vs) as Hz. rewrite <- app_assoc in *.
    set (data := pre ++ e ++ concat encs ++ rest) in *.
    set (val := if zz then zigzag v else v) in *.
    assert (L : (List.length e <= 10)%nat) by (unfold zlen in H9e; lia).
    rewrite (varint_bytes_ok e val He 10 i 0 0 s _ pre (concat encs ++ rest) Hi H63) by (try lia; cbn; lia).
    rewrite Z.mul_0_r, Z.pow_0_r, Z.mul_1_r, Z.add_0_l. fold data.
    set (cur := mkIn data (zlen pre + zlen e)).
    assert (exists vout, (dst <> None -> v = vout)
      /\ (if zz then emit m dst (Z.lxor (Z.shiftr val 1) (- Z.land val 1))
                      (wrapS (m_width m) (Z.lxor (Z.shiftr val 1) (- Z.land val 1))) (set_in i cur s)
                      (fun s => varint_items m (List.length vs) zz i dst s k)
          else emit m dst val val (set_in i cur s) (fun s => varint_items m (List.length vs) zz i dst s k))
         = emit m dst v vout (set_in i cur s) (fun s => varint_items m (List.length vs) zz i dst s k)) as (vout & V & ->).
    { unfold val. destruct zz.
      - rewrite zigzag_decode. exists (wrapS (m_width m) v). split; [ | reflexivity ].
        intros N. specialize (Hzz eq_refl N). apply Forall_cons_iff in Hzz. symmetry; apply Hzz.
      - exists v. split; reflexivity. }
    destruct (emit_in_ok m dst (zlen vs) base v vout i cur s (fun s => varint_items m (List.length vs) zz i dst s k) Hroom Hz V)
      as (s2 & -> & I2 & base2 & R2 & C2).
    assert (Hi2 : nthZ (ins s2) i = Some (mkIn ((pre ++ e) ++ concat encs ++ rest) (zlen (pre ++ e)))).
    { rewrite I2, (in_set_in _ _ _ _ Hi). unfold cur, data. rewrite <- app_assoc, zlen_app. reflexivity. }
    assert (Hzz' : zz = true -> dst <> None -> Forall (fun v => wrapS (m_width m) v = v) vs).
    { intros A B. specialize (Hzz A B). apply Forall_cons_iff in Hzz. apply Hzz. }
    destruct (IH H9 i dst base2 s2 k (pre ++ e) rest Hzz' Hi2) as (s' & E & P); [ rewrite <- app_assoc; exact H63 | exact R2 | ].
    exists s'. split; [ exact E | ]. rewrite <- app_assoc in P. rewrite !zlen_app in *. fold data in P.
    rewrite Z.add_assoc. apply C2, P.
Qed.

(** ** Fields of bits *)
Lemma bitswap_mirror : forall b, is_byte b -> bitswap b = Some (mirror b).
Proof.
  intros b Hb. unfold is_byte in Hb.
  assert (A : forallb (fun b => match bitswap b with Some x => x =? mirror b | None => false end) (map Z.of_nat (seq 0 256)) = true)
    by (vm_compute; reflexivity).
  rewrite forallb_forall in A. specialize (A b).
  destruct (bitswap b).
  - f_equal. apply Z.eqb_eq, A. apply in_map_iff. exists (Z.to_nat b). split; [ lia | ]. apply in_seq. lia.
  - discriminate A. apply in_map_iff. exists (Z.to_nat b). split; [ lia | ]. apply in_seq. lia.
Qed.

Lemma mirror_byte : forall b, is_byte b -> is_byte (mirror b).
Proof.
  intros b Hb. unfold is_byte in *.
  assert (A : forallb (fun b => (0 <=? mirror b) && (mirror b <? 256)) (map Z.of_nat (seq 0 256)) = true) by (vm_compute; reflexivity).
  rewrite forallb_forall in A. specialize (A b).
  rewrite andb_true_iff, Z.leb_le, Z.ltb_lt in A. apply A.
  apply in_map_iff. exists (Z.to_nat b). split; [ lia | ]. apply in_seq. lia.
Qed.

Definition seen (flip : bool) (b : Z) : Z := if flip then mirror b else b.

Lemma nbit_byte_ok : forall flip i s k pre b rest, is_byte b ->
  nthZ (ins s) i = Some (mkIn (pre ++ b :: rest) (zlen pre)) -> zlen (pre ++ b :: rest) < 2^63 ->
  nbit_byte flip i s k = k (seen flip b) (set_in i (mkIn (pre ++ b :: rest) (zlen pre + 1)) s).
Proof.
  intros flip i s k pre b rest Hb Hi H63. unfold nbit_byte. pose proof (zlen_nonneg pre). pose proof (zlen_nonneg rest).
  rewrite zlen_app, zlen_cons in H63.
  rewrite (read_ok i 1 s _ _ _ Hi) by (rewrite ?zlen_app, ?zlen_cons; lia).
  rewrite (byte_ok _ _ _ _ _ _ b Hi) by apply nthZ_at.
  unfold seen. destruct flip; [ rewrite (bitswap_mirror b Hb) | ]; reflexivity.
Qed.

Lemma little_app : forall a b, little (a ++ b) = little a + 2 ^ (8 * zlen a) * little b.
Proof.
  induction a as [ | x a IH ]; intros b; cbn [little app].
  - change (8 * zlen (@nil Z)) with 0. rewrite Z.pow_0_r. lia.
  - rewrite zlen_cons, IH. pose proof (zlen_nonneg a). replace (8 * (zlen a + 1)) with (8 + 8 * zlen a) by lia.
    rewrite Z.pow_add_r by lia. change (2 ^ 8) with 256. lia.
Qed.

Lemma little_bound : forall a, Forall is_byte a -> 0 <= little a < 2 ^ (8 * zlen a).
Proof.
  induction 1 as [ | x a Hx _ IH ]; cbn [little].
  - change (8 * zlen (@nil Z)) with 0. rewrite Z.pow_0_r. lia.
  - rewrite zlen_cons. pose proof (zlen_nonneg a). replace (8 * (zlen a + 1)) with (8 + 8 * zlen a) by lia.
    rewrite Z.pow_add_r by lia. change (2 ^ 8) with 256. unfold is_byte in Hx. lia.
Qed.

Lemma field_prefix : forall w d a b, 0 <= w -> 0 <= d -> w * (d + 1) <= 8 * zlen a ->
  field w d (little (a ++ b)) = field w d (little a).
Proof.
  intros w d a b Hw Hd L. unfold field. rewrite little_app.
  assert (E : 8 * zlen a = w * d + (w + (8 * zlen a - w * (d + 1)))) by lia.
  rewrite E. rewrite !Z.pow_add_r by nia.
  replace (little a + 2 ^ (w * d) * (2 ^ w * 2 ^ (8 * zlen a - w * (d + 1))) * little b)
    with (little a + (2 ^ w * 2 ^ (8 * zlen a - w * (d + 1)) * little b) * 2 ^ (w * d)) by ring.
  assert (0 < 2 ^ (w * d)) by (apply Z.pow_pos_nonneg; nia). assert (0 < 2 ^ w) by (apply Z.pow_pos_nonneg; lia).
  rewrite Z.div_add by lia.
  replace (2 ^ w * 2 ^ (8 * zlen a - w * (d + 1)) * little b) with ((2 ^ (8 * zlen a - w * (d + 1)) * little b) * 2 ^ w) by ring.
  rewrite Z.mod_add by lia. reflexivity.
Qed.

Lemma wrapS_small : forall W v, 32 <= W -> 0 <= v < 2 ^ 30 -> wrapS W v = v.
Proof.
  intros W v HW Hv. unfold wrapS.
  assert (2 ^ 30 <= 2 ^ (W - 1)) by (apply Z.pow_le_mono_r; lia).
  assert (E : 2 ^ W = 2 * 2 ^ (W - 1)) by (rewrite <- Z.pow_succ_r by lia; f_equal; lia).
  rewrite Z.mod_small by lia. lia.
Qed.

Lemma nbit_loop_ok : forall m flip w i dst k, 32 <= m_width m -> 1 <= w <= 30 ->
  forall fuel n d todo B pre rest base l r data s,
  nthZ (ins s) i = Some (mkIn (pre ++ todo ++ rest) (zlen pre)) -> zlen (pre ++ todo ++ rest) < 2^63 ->
  Forall is_byte B -> Forall is_byte todo -> 0 <= d -> 0 <= n ->
  0 <= r <= l -> l <= 8 * zlen B -> w * d = 8 * zlen B - l + r -> data = little B / 2 ^ (8 * zlen B - l) ->
  l <= 60 -> w * (d + n) <= 8 * (zlen B + zlen todo) < w * (d + n) + 8 ->
  17 * zlen todo + 2 * (l - r) + r + 1 <= Z.of_nat fuel ->
  room m dst n base s ->
  exists s', nbit_loop fuel m flip w i dst l r n data s k = k s'
    /\ put m dst base (map (fun j => field w j (little (B ++ map (seen flip) todo))) (zseq d (d + n)))
         (set_in i (mkIn (pre ++ todo ++ rest) (zlen pre + zlen todo)) s) s'.
Proof.
  intros m flip w i dst k HW Hw. induction fuel as [ | fuel IH ];
    intros n d todo B pre rest base l r data s Hi H63 HB Ht Hd Hn Hrl HlB Hwd Hdata Hl60 Hbits Hfuel Hroom.
  { pose proof (zlen_nonneg todo). lia. }
  pose proof (zlen_nonneg todo) as Zt. pose proof (zlen_nonneg B) as ZB. pose proof (zlen_nonneg pre) as Zp. pose proof (zlen_nonneg rest) as Zr.
  cbn [nbit_loop]. destruct (Z.eqb_spec n 0) as [ -> | Hn0 ].
  { assert (zlen todo = 0) by lia. assert (todo = []) as -> by (destruct todo; [ reflexivity | rewrite zlen_cons in *; pose proof (zlen_nonneg todo); lia ]).
    exists s. split; [ reflexivity | ]. change (zlen (@nil Z)) with 0. rewrite !Z.add_0_r, set_in_id by exact Hi.
    rewrite zseq_nil by lia. apply put_nil, Hroom. }
  pose proof (little_bound B HB) as LB.
  set (e := 8 * zlen B - l) in *.
  assert (He : 0 <= e) by (unfold e; lia).
  assert (P8 : 8 * zlen B = e + l) by (unfold e; lia).
  assert (P8' : 2 ^ (8 * zlen B) = 2 ^ e * 2 ^ l) by (rewrite P8; apply Z.pow_add_r; lia).
  assert (Pe : 0 < 2 ^ e) by (apply Z.pow_pos_nonneg; lia).
  assert (Dl : 0 <= data < 2 ^ l).
  { subst data. split; [ apply Z.div_pos; lia | apply Z.div_lt_upper_bound; lia ]. }
  destruct (Z.leb_spec 8 r).
  - (* drop a byte *)
    apply IH; try assumption; try lia.
    + rewrite Z.shiftr_div_pow2 by lia. subst data. rewrite Z.div_div by (try apply Z.pow_pos_nonneg; try apply Z.pow_nonzero; lia).
      rewrite <- Z.pow_add_r by lia. f_equal. f_equal. unfold e. lia.
  - destruct (Z.leb_spec w (l - r)).
    + (* one item *)
      set (tmp := Z.land (Z.shiftr data r) (Z.ones w)).
      assert (Et : tmp = field w d (little B)).
      { unfold tmp, field. rewrite Z.land_ones, Z.shiftr_div_pow2 by lia. subst data.
        rewrite Z.div_div by (try apply Z.pow_pos_nonneg; try apply Z.pow_nonzero; lia).
        rewrite <- Z.pow_add_r by lia. rewrite Hwd. unfold e. reflexivity. }
      assert (Ef : field w d (little (B ++ map (seen flip) todo)) = tmp).
      { rewrite Et. apply field_prefix; [ lia | lia | unfold e in *; lia ]. }
      assert (Bt : 0 <= tmp < 2 ^ 30).
      { unfold tmp. rewrite Z.land_ones by lia. assert (0 < 2 ^ w) by (apply Z.pow_pos_nonneg; lia).
        pose proof (Z.mod_pos_bound (Z.shiftr data r) (2 ^ w) ltac:(lia)).
        assert (2 ^ w <= 2 ^ 30) by (apply Z.pow_le_mono_r; lia). lia. }
      destruct (emit_in_ok m dst (n - 1) base tmp (wrapS (m_width m) tmp) i (mkIn (pre ++ todo ++ rest) (zlen pre)) s
                  (fun s => nbit_loop fuel m flip w i dst l (r + w) (n - 1) data s k))
        as (s2 & E & I2 & base2 & R2 & C2).
      { replace (n - 1 + 1) with n by lia. exact Hroom. }
      { lia. }
      { intros _. symmetry. apply wrapS_small; assumption. }
      rewrite set_in_id in E by exact Hi. rewrite E. rewrite set_in_id in I2 by exact Hi.
      destruct (IH (n - 1) (d + 1) todo B pre rest base2 l (r + w) data s2) as (s' & E' & P'); try assumption; try lia.
      * rewrite I2. exact Hi.
      * exists s'. split; [ exact E' | ]. rewrite (zseq_cons d (d + n)) by lia. cbn [map]. rewrite Ef.
        replace (d + n) with (d + 1 + (n - 1)) by lia. apply C2, P'.
    + (* one more byte *)
      destruct todo as [ | b todo ].
      { exfalso. change (zlen (@nil Z)) with 0 in *. nia. }
      apply Forall_cons_iff in Ht. destruct Ht as [ Hb Ht ]. rewrite zlen_cons in *. cbn [app map] in *.
      rewrite (nbit_byte_ok flip i s _ pre b (todo ++ rest) Hb Hi H63).
      destruct (Z.leb_spec 64 l); [ lia | ].
      assert (Hb' : is_byte (seen flip b)) by (unfold seen; destruct flip; [ apply mirror_byte | ]; assumption).
      assert (W : wrapU 64 (Z.shiftl (seen flip b) l) = seen flip b * 2 ^ l).
      { rewrite Z.shiftl_mul_pow2 by lia. unfold wrapU. apply Z.mod_small. unfold is_byte in Hb'.
        assert (2 ^ l <= 2 ^ 37) by (apply Z.pow_le_mono_r; lia).
        assert (0 < 2 ^ l) by (apply Z.pow_pos_nonneg; lia). change (2 ^ 64) with (2 ^ 27 * 2 ^ 37).
        assert (256 <= 2 ^ 27) by (vm_compute; discriminate). nia. }
      rewrite W, lor_add by lia.
      destruct (IH n d todo (B ++ [seen flip b]) (pre ++ [b]) rest base (l + 8) r (data + seen flip b * 2 ^ l)
                  (set_in i (mkIn (pre ++ b :: todo ++ rest) (zlen pre + 1)) s)) as (s' & E' & P'); try assumption; try lia.
      * rewrite (in_set_in _ _ _ _ Hi), <- app_assoc, zlen_app. reflexivity.
      * rewrite <- app_assoc. exact H63.
      * apply Forall_app. split; [ exact HB | constructor; [ exact Hb' | constructor ] ].
      * rewrite zlen_app. change (zlen [seen flip b]) with 1. lia.
      * rewrite zlen_app. change (zlen [seen flip b]) with 1. unfold e in *. lia.
      * rewrite zlen_app. change (zlen [seen flip b]) with 1.
        replace (8 * (zlen B + 1) - (l + 8)) with e by (unfold e; lia).
        rewrite little_app. cbn [little]. rewrite Z.mul_0_r, Z.add_0_r, P8'.
        replace (little B + 2 ^ e * 2 ^ l * seen flip b) with (little B + (seen flip b * 2 ^ l) * 2 ^ e) by ring.
        rewrite Z.div_add by lia. rewrite <- Hdata. reflexivity.
      * rewrite zlen_app. change (zlen [seen flip b]) with 1. lia.
      * exists s'. split; [ exact E' | ]. rewrite <- !app_assoc in P'. cbn [app] in P'. rewrite set_in_in, zlen_app in P'.
        change (zlen [b]) with 1 in P'. replace (zlen pre + 1 + zlen todo) with (zlen pre + (zlen todo + 1)) in P' by lia. exact P'.
Qed.
