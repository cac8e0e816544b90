(** C32: reading words decode what was encoded.  In all theorems the instruction is that of the word [w] after the
    name of input number i; [s] is any state about to execute it (its operands come next in the bytecode), the input
    holds [pre ++ (the encoded items) ++ rest] and its position is after [pre]. *)
From Verif Require Import Base BaseLemmas Forth ForthParse SpecForth PForthOut PForthRead PForthRead2.
Local Open Scope string_scope.
Local Open Scope list_scope.
Local Open Scope Z_scope.

(** [vals] on the stack, the last one on top *)
Definition pushed (vals st : list Z) : list Z := rev vals ++ st.

(** ** varint-> and zigzag-> *)
Theorem C32_varint_to_stack : forall (rep zz : bool) m, exists flags,
  parser_word ((if rep then "#" else "") ++ (if zz then "zigzag->" else "varint->"))%string = Ok (Some (flags, 0)) /\
  forall single s i st encs vs pre rest,
  m_width m = 64 ->
  bytecode_get m s = Some i -> counted rep (zlen encs) st s ->
  nthZ (ins s) i = Some (mkIn (pre ++ concat encs ++ rest) (zlen pre)) -> zlen (pre ++ concat encs ++ rest) < 2^63 ->
  Forall2 (fun e v => varint e (if zz then zigzag v else v)) encs vs -> Forall (fun e => zlen e <= 9) encs ->
  zlen st + zlen encs <= m_stackmax m ->
  exec m single (Z.lnot flags) s =
  XNext (count_read (set_stk (pushed vs st)
          (set_in i (mkIn (pre ++ concat encs ++ rest) (zlen pre + zlen (concat encs))) (where_add 1 s)))).
Proof.
  intros rep zz m. exists (read_flags false rep false (if zz then READ_ZIGZAG else READ_VARINT)). split.
  { destruct rep, zz; reflexivity. }
  intros single s i st encs vs pre rest Hw Hi Hc Hin H63 F2 H9 Hr.
  assert (Lv : zlen vs = zlen encs) by (clear - F2; induction F2; [ reflexivity | rewrite !zlen_cons; lia ]).
  rewrite (exec_read_head m single false rep false _ s i (zlen encs) st) by (try assumption; destruct zz; cbn; tauto).
  cbn zeta.
  replace ((if zz then READ_ZIGZAG else READ_VARINT) =? READ_ZIGZAG) with zz by (destruct zz; reflexivity).
  replace (((if zz then READ_ZIGZAG else READ_VARINT) =? READ_VARINT) || zz) with true by (destruct zz; reflexivity).
  replace (Z.to_nat (zlen encs)) with (List.length vs) by (unfold zlen in *; lia).
  destruct (varint_items_ok m zz encs vs F2 H9 i None [] (set_stk st (where_add 1 s)) (fun s => XNext (count_read s)) pre rest)
    as (s' & -> & P).
  - intros _ N; congruence.
  - cbn [ins set_stk]. rewrite where_add_ins. exact Hin.
  - exact H63.
  - cbn. lia.
  - cbn [put] in P. rewrite P. do 2 f_equal. unfold pushed. cbn [stk set_in set_ins set_stk].
    assert (map (wrapS (m_width m)) vs = vs) as ->; [ | reflexivity ].
    rewrite Hw. clear - F2 H9. induction F2 as [ | e v encs vs He F2 IH ]; [ reflexivity | ].
    apply Forall_cons_iff in H9. destruct H9 as [ L9 H9 ]. cbn [map]. f_equal; [ | apply IH, H9 ].
    pose proof (varint_nonneg _ _ He) as B.
    assert (2 ^ (7 * zlen e) <= 2 ^ 63) by (apply Z.pow_le_mono_r; lia).
    assert (- 2 ^ 63 <= v < 2 ^ 63) by (unfold zigzag in B; destruct zz; [ destruct (Z.leb_spec 0 v) | ]; lia).
    unfold wrapS. change (64 - 1) with 63. change (2 ^ 64) with (2 * 2 ^ 63). rewrite Z.mod_small by lia. lia.
Qed.
Print Assumptions C32_varint_to_stack.

(** into an output which held [base]: the values are appended, converted to its type *)
Theorem C32_varint_to_output : forall (rep zz : bool) m, exists flags,
  parser_word ((if rep then "#" else "") ++ (if zz then "zigzag->" else "varint->"))%string = Ok (Some (flags, 0)) /\
  forall single s i o b base st encs vs pre rest,
  (zz = true -> Forall (cell (m_width m)) vs) -> 1 < m_width m ->
  bytecode_get m s = Some i -> bytecode_get m (where_add 1 s) = Some o -> counted rep (zlen encs) st s ->
  nthZ (ins s) i = Some (mkIn (pre ++ concat encs ++ rest) (zlen pre)) -> zlen (pre ++ concat encs ++ rest) < 2^63 ->
  Forall2 (fun e v => varint e (if zz then zigzag v else v)) encs vs -> Forall (fun e => zlen e <= 9) encs ->
  growing m -> nthZ (outs s) o = Some b -> good b base -> 0 < reserved b ->
  exists b', exec m single (Z.lnot (flags + 1)) s =
    XNext (count_read (set_out o b' (set_stk st
            (set_in i (mkIn (pre ++ concat encs ++ rest) (zlen pre + zlen (concat encs))) (where_add 2 s)))))
    /\ good b' (base ++ map (cast_out m (otype b)) vs) /\ otype b' = otype b /\ 0 < reserved b'.
Proof.
  intros rep zz m. exists (read_flags false rep false (if zz then READ_ZIGZAG else READ_VARINT)). split.
  { destruct rep, zz; reflexivity. }
  intros single s i o b base st encs vs pre rest Hfit Hw1 Hi Ho Hc Hin H63 F2 H9 Gm Hb Hg Hres.
  assert (Lv : zlen vs = zlen encs) by (clear - F2; induction F2; [ reflexivity | rewrite !zlen_cons; lia ]).
  replace (read_flags false rep false (if zz then READ_ZIGZAG else READ_VARINT) + 1)
    with (read_flags true rep false (if zz then READ_ZIGZAG else READ_VARINT)) by (unfold read_flags; cbn [Z.b2z]; lia).
  rewrite (exec_read_head m single true rep false _ s i (zlen encs) st) by (try assumption; destruct zz; cbn; tauto).
  cbn zeta.
  replace ((if zz then READ_ZIGZAG else READ_VARINT) =? READ_ZIGZAG) with zz by (destruct zz; reflexivity).
  replace (((if zz then READ_ZIGZAG else READ_VARINT) =? READ_VARINT) || zz) with true by (destruct zz; reflexivity).
  rewrite (operand_ok _ _ o) by exact Ho. rewrite where_add_set_stk, where_add_add.
  replace (Z.to_nat (zlen encs)) with (List.length vs) by (unfold zlen in *; lia).
  destruct (varint_items_ok m zz encs vs F2 H9 i (Some o) base (set_stk st (where_add (1 + 1) s)) (fun s => XNext (count_read s)) pre rest)
    as (s' & -> & P).
  - intros Z _. specialize (Hfit Z). eapply Forall_impl; [ | exact Hfit ]. intros v Hv.
    unfold wrapS. unfold cell in Hv.
    assert (E : 2 ^ m_width m = 2 * 2 ^ (m_width m - 1)) by (rewrite <- Z.pow_succ_r by lia; f_equal; lia).
    rewrite Z.mod_small by lia. lia.
  - cbn [ins set_stk]. rewrite where_add_ins. exact Hin.
  - exact H63.
  - cbn [room]. split; [ exact Gm | ]. exists b. cbn [outs set_stk]. rewrite where_add_outs. auto.
  - cbn [put] in P. destruct P as (b1 & b' & A & -> & T & G & R). cbn [outs set_in set_ins set_stk] in A.
    rewrite where_add_outs in A. rewrite Hb in A. injection A as <-.
    exists b'. split; [ reflexivity | auto ].
Qed.
Print Assumptions C32_varint_to_output.

(** Every integer has an encoding of the allowed length: nine bytes hold numbers below 2^63 *)
Theorem C32_varint_covers : forall v, 0 <= v < 2^63 -> exists e, varint e v /\ zlen e <= 9.
Proof.
  intros v Hv.
  assert (G : forall n v, 0 <= v < 2 ^ (7 * (Z.of_nat n + 1)) -> exists e, varint e v /\ zlen e <= Z.of_nat n + 1).
  { induction n as [ | n IH ]; intros u Hu.
    - exists [u]. split; [ apply varint_last; cbn in Hu; lia | change (zlen [u]) with 1; lia ].
    - destruct (Z.ltb_spec u 128).
      + exists [u]. split; [ apply varint_last; lia | change (zlen [u]) with 1; lia ].
      + replace (7 * (Z.of_nat (S n) + 1)) with (7 + 7 * (Z.of_nat n + 1)) in Hu by lia. rewrite Z.pow_add_r in Hu by lia.
        change (2 ^ 7) with 128 in Hu. pose proof (Z.div_mod u 128 ltac:(lia)). pose proof (Z.mod_pos_bound u 128 ltac:(lia)).
        destruct (IH (u / 128)) as (e & He & Le).
        { split; [ apply Z.div_pos; lia | apply Z.div_lt_upper_bound; lia ]. }
        exists ((u mod 128 + 128) :: e). split; [ | rewrite zlen_cons; lia ].
        replace u with (u mod 128 + 128 * (u / 128)) at 2 by lia. constructor; assumption. }
  destruct (G 8%nat v Hv) as (e & He & Le). exists e. split; [ exact He | cbn in Le; lia ].
Qed.
Print Assumptions C32_varint_covers.

(** The decoding is the only possible one *)
Theorem C32_varint_unique : forall e e' v v' r r', varint e v -> varint e' v' -> e ++ r = e' ++ r' -> e = e' /\ v = v'.
Proof.
  intros e e' v v' r r' H. revert e' v'. induction H as [ b Hb | b bs v Hb H IH ]; intros e' v' H' E.
  - inversion H' as [ c Hc | c cs u Hc Hu ]; subst; cbn in E; injection E as E1 E2; [ subst; auto | lia ].
  - inversion H' as [ c Hc | c cs u Hc Hu ]; subst; cbn in E; injection E as E1 E2; [ lia | ].
    destruct (IH cs u Hu E2) as [ -> -> ]. assert (b = c) by lia. subst. auto.
Qed.
Print Assumptions C32_varint_unique.

(** Nine bytes with the top bit set and a tenth byte: too big *)
Theorem C32_varint_too_big : forall m single s i pre nine tenth rest,
  bytecode_get m s = Some i ->
  nthZ (ins s) i = Some (mkIn (pre ++ nine ++ tenth :: rest) (zlen pre)) -> zlen (pre ++ nine ++ tenth :: rest) < 2^63 ->
  zlen nine = 9 -> Forall (fun b => 128 <= b < 256) nine ->
  exists s', exec m single (Z.lnot READ_VARINT) s = XRet s' /\ err s' = e_varint_too_big
    /\ stk s' = stk s /\ vars s' = vars s /\ outs s' = outs s.
Proof.
  intros m single s i pre nine tenth rest Hi Hin H63 H9 Hb.
  assert (L : forall nine fuel j res s k pre, nthZ (ins s) i = Some (mkIn (pre ++ nine ++ tenth :: rest) (zlen pre)) ->
     zlen (pre ++ nine ++ tenth :: rest) < 2^63 -> Forall (fun b => 128 <= b < 256) nine -> j + zlen nine = 9 -> (List.length nine < fuel)%nat ->
     exists b, varint_bytes fuel i (7 * j) res s k = XRet (set_err e_varint_too_big (set_in i b s))).
  { clear. induction nine as [ | c nine IH ]; intros fuel j res s k pre Hin H63 Hb Hj Hf;
      (destruct fuel as [ | fuel ]; [ cbn in Hf; lia | ]); cbn [varint_bytes app] in *; rewrite ?zlen_cons in *;
      pose proof (zlen_nonneg pre); pose proof (zlen_nonneg rest); rewrite ?zlen_app, ?zlen_cons, ?zlen_app, ?zlen_cons in H63.
    - change (zlen (@nil Z)) with 0 in Hj. rewrite (read_ok i 1 s _ _ _ Hin) by (rewrite ?zlen_app, ?zlen_cons; lia).
      replace j with 9 by lia. cbn [Z.mul Pos.mul Z.eqb Pos.eqb]. eexists; reflexivity.
    - pose proof (zlen_nonneg nine). apply Forall_cons_iff in Hb. destruct Hb as [ Hc Hb ].
      rewrite (read_ok i 1 s _ _ _ Hin) by (rewrite ?zlen_app, ?zlen_cons, ?zlen_app, ?zlen_cons; lia).
      destruct (Z.eqb_spec (7 * j) (7 * 9)); [ lia | ].
      rewrite (byte_ok _ _ _ _ _ _ c Hin) by apply nthZ_at. rewrite testbit7 by lia.
      destruct (Z.leb_spec 128 c); [ | lia ]. replace (7 * j + 7) with (7 * (j + 1)) by lia.
      match goal with |- context [ varint_bytes fuel i _ ?r ?s ?k ] => destruct (IH fuel (j + 1) r s k (pre ++ [c])) as (b & E) end.
      + rewrite (in_set_in _ _ _ _ Hin), <- app_assoc, zlen_app. reflexivity.
      + rewrite <- app_assoc. cbn [app]. rewrite ?zlen_app, ?zlen_cons, ?zlen_app, ?zlen_cons. exact H63.
      + exact Hb.
      + lia.
      + cbn in Hf. lia.
      + rewrite E, set_in_in. eexists; reflexivity. }
  change READ_VARINT with (read_flags false false false READ_VARINT).
  rewrite (exec_read_head m single false false false _ s i 1 (stk s)) by (try assumption; cbn; tauto). cbn zeta.
  cbn [Z.eqb READ_VARINT READ_ZIGZAG Pos.eqb orb]. change (Z.to_nat 1) with 1%nat. cbn [varint_items].
  destruct (L nine 10%nat 0 0 (set_stk (stk s) (where_add 1 s))
     (fun result s => emit m None result result s (fun s => XNext (count_read s))) pre) as (b & E).
  - cbn [ins set_stk]. rewrite where_add_ins. exact Hin.
  - exact H63.
  - exact Hb.
  - lia.
  - unfold zlen in H9. lia.
  - rewrite Z.mul_0_r in E. rewrite E. eexists; split; [ reflexivity | ].
    unfold where_add. destruct (frames s) as [ | [ w p ] r ]; repeat split.
Qed.
Print Assumptions C32_varint_too_big.

(** The input ends before a byte without the top bit: read beyond *)
Theorem C32_varint_truncated : forall m single s i pre part,
  bytecode_get m s = Some i ->
  nthZ (ins s) i = Some (mkIn (pre ++ part) (zlen pre)) -> zlen (pre ++ part) + 1 < 2^63 ->
  zlen part <= 9 -> Forall (fun b => 128 <= b < 256) part ->
  exists s', exec m single (Z.lnot READ_VARINT) s = XRet s' /\ err s' = e_read_beyond
    /\ stk s' = stk s /\ vars s' = vars s /\ outs s' = outs s.
Proof.
  intros m single s i pre part Hi Hin H63 H9 Hb.
  assert (L : forall part fuel j res s k pre, nthZ (ins s) i = Some (mkIn (pre ++ part) (zlen pre)) ->
     zlen (pre ++ part) + 1 < 2^63 -> Forall (fun b => 128 <= b < 256) part -> j + zlen part <= 9 -> (List.length part < fuel)%nat ->
     exists b, varint_bytes fuel i (7 * j) res s k = XRet (set_err e_read_beyond (set_in i b s))).
  { clear. induction part as [ | c part IH ]; intros fuel j res s k pre Hin H63 Hb Hj Hf;
      (destruct fuel as [ | fuel ]; [ cbn in Hf; lia | ]); cbn [varint_bytes app] in *; rewrite ?zlen_cons in *;
      pose proof (zlen_nonneg pre).
    - rewrite (read_beyond i 1 s _ _ _ Hin) by (rewrite ?app_nil_r in *; lia).
      exists (mkIn (pre ++ []) (zlen pre)). rewrite set_in_id by exact Hin. reflexivity.
    - pose proof (zlen_nonneg part). apply Forall_cons_iff in Hb. destruct Hb as [ Hc Hb ]. rewrite zlen_app, zlen_cons in H63.
      rewrite (read_ok i 1 s _ _ _ Hin) by (rewrite ?zlen_app, ?zlen_cons; lia).
      destruct (Z.eqb_spec (7 * j) (7 * 9)); [ lia | ].
      rewrite (byte_ok _ _ _ _ _ _ c Hin) by apply nthZ_at. rewrite testbit7 by lia.
      destruct (Z.leb_spec 128 c); [ | lia ]. replace (7 * j + 7) with (7 * (j + 1)) by lia.
      match goal with |- context [ varint_bytes fuel i _ ?r ?s ?k ] => destruct (IH fuel (j + 1) r s k (pre ++ [c])) as (b & E) end.
      + rewrite (in_set_in _ _ _ _ Hin), <- app_assoc, zlen_app. reflexivity.
      + rewrite <- app_assoc. cbn [app]. rewrite zlen_app, zlen_cons. exact H63.
      + exact Hb.
      + lia.
      + cbn in Hf. lia.
      + rewrite E, set_in_in. eexists; reflexivity. }
  change READ_VARINT with (read_flags false false false READ_VARINT).
  rewrite (exec_read_head m single false false false _ s i 1 (stk s)) by (try assumption; cbn; tauto). cbn zeta.
  cbn [Z.eqb READ_VARINT READ_ZIGZAG Pos.eqb orb]. change (Z.to_nat 1) with 1%nat. cbn [varint_items].
  destruct (L part 10%nat 0 0 (set_stk (stk s) (where_add 1 s))
     (fun result s => emit m None result result s (fun s => XNext (count_read s))) pre) as (b & E).
  - cbn [ins set_stk]. rewrite where_add_ins. exact Hin.
  - exact H63.
  - exact Hb.
  - lia.
  - unfold zlen in H9. lia.
  - rewrite Z.mul_0_r in E. rewrite E. eexists; split; [ reflexivity | ].
    unfold where_add. destruct (frames s) as [ | [ w p ] r ]; repeat split.
Qed.
Print Assumptions C32_varint_truncated.

(** ** N bits.  The bytes read are one little-endian number, cut into fields of w bits from its least significant
    end.  With !, the bits of every byte are taken in the opposite order. *)
Theorem C32_nbit_to_stack : forall (rep be : bool) m single s i st w n bs pre rest,
  m_width m = 32 \/ m_width m = 64 -> 1 <= w <= 30 -> 0 < n ->
  bytecode_get m s = Some i -> bytecode_get m (where_add 1 s) = Some w -> counted rep n st s ->
  nthZ (ins s) i = Some (mkIn (pre ++ bs ++ rest) (zlen pre)) -> zlen (pre ++ bs ++ rest) < 2^63 ->
  Forall is_byte bs -> w * n <= 8 * zlen bs < w * n + 8 ->
  zlen st + n <= m_stackmax m ->
  exec m single (Z.lnot (read_flags false rep be READ_NBIT)) s =
  XNext (count_read (set_stk
    (pushed (map (fun j => field w j (little (if be then map mirror bs else bs))) (zseq 0 n)) st)
    (set_in i (mkIn (pre ++ bs ++ rest) (zlen pre + zlen bs)) (where_add 2 s)))).
Proof.
  intros rep be m single s i st w n bs pre rest HW Hw Hn Hi Hop Hc Hin H63 Hb Hbits Hr.
  rewrite (exec_read_head m single false rep be _ s i n st) by (try assumption; cbn; tauto).
  cbn zeta. change (READ_NBIT =? READ_VARINT) with false. change (READ_NBIT =? READ_ZIGZAG) with false. change (READ_NBIT =? READ_NBIT) with true.
  cbn [orb]. rewrite (operand_ok _ _ w) by exact Hop. rewrite where_add_set_stk, where_add_add.
  unfold read_nbit. destruct (Z.ltb_spec w 0); [ lia | ]. destruct (Z.leb_spec 31 w); [ lia | ]. cbn [orb].
  destruct (Z.eqb_spec n 0); [ lia | ].
  destruct bs as [ | b bs ]. { change (zlen (@nil Z)) with 0 in Hbits. nia. }
  apply Forall_cons_iff in Hb. destruct Hb as [ Hb Hbs ]. rewrite zlen_cons in Hbits. cbn [app] in *.
  set (s0 := set_stk st (where_add (1 + 1) s)).
  assert (Hin0 : nthZ (ins s0) i = Some (mkIn (pre ++ b :: bs ++ rest) (zlen pre))) by (cbn; rewrite where_add_ins; exact Hin).
  rewrite (nbit_byte_ok be i s0 _ pre b (bs ++ rest) Hb Hin0 H63).
  pose proof (zlen_nonneg bs). pose proof (zlen_nonneg pre). pose proof (zlen_nonneg rest).
  assert (Hb' : is_byte (seen be b)) by (unfold seen; destruct be; [ apply mirror_byte | ]; assumption).
  destruct (nbit_loop_ok m be w i None (fun s => XNext (count_read s)) ltac:(lia) Hw (nbit_fuel i s0) n 0 bs [seen be b] (pre ++ [b]) rest [] 8 0 (seen be b)
      (set_in i (mkIn (pre ++ b :: bs ++ rest) (zlen pre + 1)) s0)) as (s' & -> & P).
  - rewrite (in_set_in _ _ _ _ Hin0), <- app_assoc, zlen_app. reflexivity.
  - rewrite <- app_assoc. exact H63.
  - constructor; [ exact Hb' | constructor ].
  - exact Hbs.
  - lia.
  - lia.
  - lia.
  - change (zlen [seen be b]) with 1. lia.
  - change (zlen [seen be b]) with 1. lia.
  - change (zlen [seen be b]) with 1. cbn. rewrite Z.add_0_r. symmetry; apply Z.div_1_r.
  - lia.
  - change (zlen [seen be b]) with 1. lia.
  - unfold nbit_fuel. rewrite Hin0. cbn [idata ipos]. rewrite zlen_app, zlen_cons, zlen_app. lia.
  - cbn. exact Hr.
  - cbn [put] in P. rewrite P. do 2 f_equal. unfold pushed.
    rewrite set_in_in, <- !app_assoc. cbn [app]. rewrite zlen_app. change (zlen [b]) with 1.
    rewrite (zlen_cons b bs).
    replace (zlen pre + 1 + zlen bs) with (zlen pre + (zlen bs + 1)) by lia. unfold s0. cbn [stk set_stk set_in set_ins].
    assert (E : (if be then map mirror (b :: bs) else b :: bs) = seen be b :: map (seen be) bs).
    { unfold seen. destruct be; cbn; [ reflexivity | f_equal; symmetry; apply map_id ]. }
    rewrite E. rewrite map_map.
    rewrite (map_ext_in _ (fun j => field w j (little (seen be b :: map (seen be) bs)))); [ reflexivity | ].
    intros j _. apply wrapS_small; [ lia | ]. unfold field.
    assert (0 < 2 ^ w) by (apply Z.pow_pos_nonneg; lia). assert (2 ^ w <= 2 ^ 30) by (apply Z.pow_le_mono_r; lia).
    pose proof (Z.mod_pos_bound (little (seen be b :: map (seen be) bs) / 2 ^ (w * j)) (2 ^ w) ltac:(lia)). lia.
Qed.
Print Assumptions C32_nbit_to_stack.

Theorem C32_nbit_to_output : forall (rep be : bool) m single s i o b0 base st w n bs pre rest,
  m_width m = 32 \/ m_width m = 64 -> 1 <= w <= 30 -> 0 < n ->
  bytecode_get m s = Some i -> bytecode_get m (where_add 1 s) = Some w -> bytecode_get m (where_add 2 s) = Some o ->
  counted rep n st s ->
  nthZ (ins s) i = Some (mkIn (pre ++ bs ++ rest) (zlen pre)) -> zlen (pre ++ bs ++ rest) < 2^63 ->
  Forall is_byte bs -> w * n <= 8 * zlen bs < w * n + 8 ->
  growing m -> nthZ (outs s) o = Some b0 -> good b0 base -> 0 < reserved b0 ->
  exists b', exec m single (Z.lnot (read_flags true rep be READ_NBIT)) s =
    XNext (count_read (set_out o b' (set_stk st
      (set_in i (mkIn (pre ++ bs ++ rest) (zlen pre + zlen bs)) (where_add 3 s)))))
    /\ good b' (base ++ map (fun j => cast_out m (otype b0) (field w j (little (if be then map mirror bs else bs)))) (zseq 0 n))
    /\ otype b' = otype b0 /\ 0 < reserved b'.
Proof.
  intros rep be m single s i o b0 base st w n bs pre rest HW Hw Hn Hi Hop Ho Hc Hin H63 Hb Hbits Gm Hb0 Hg0 Hr0.
  rewrite (exec_read_head m single true rep be _ s i n st) by (try assumption; cbn; tauto).
  cbn zeta. change (READ_NBIT =? READ_VARINT) with false. change (READ_NBIT =? READ_ZIGZAG) with false. change (READ_NBIT =? READ_NBIT) with true.
  cbn [orb]. rewrite (operand_ok _ _ w) by exact Hop. rewrite where_add_set_stk, where_add_add.
  rewrite (operand_ok _ _ o) by exact Ho. rewrite where_add_set_stk, where_add_add.
  unfold read_nbit. destruct (Z.ltb_spec w 0); [ lia | ]. destruct (Z.leb_spec 31 w); [ lia | ]. cbn [orb].
  destruct (Z.eqb_spec n 0); [ lia | ].
  destruct bs as [ | b bs ]. { change (zlen (@nil Z)) with 0 in Hbits. nia. }
  apply Forall_cons_iff in Hb. destruct Hb as [ Hb Hbs ]. rewrite zlen_cons in Hbits. cbn [app] in *.
  set (s0 := set_stk st (where_add (1 + 1 + 1) s)).
  assert (Hin0 : nthZ (ins s0) i = Some (mkIn (pre ++ b :: bs ++ rest) (zlen pre))) by (cbn; rewrite where_add_ins; exact Hin).
  rewrite (nbit_byte_ok be i s0 _ pre b (bs ++ rest) Hb Hin0 H63).
  pose proof (zlen_nonneg bs). pose proof (zlen_nonneg pre). pose proof (zlen_nonneg rest).
  assert (Hb' : is_byte (seen be b)) by (unfold seen; destruct be; [ apply mirror_byte | ]; assumption).
  destruct (nbit_loop_ok m be w i (Some o) (fun s => XNext (count_read s)) ltac:(lia) Hw (nbit_fuel i s0) n 0 bs [seen be b] (pre ++ [b]) rest base 8 0 (seen be b)
      (set_in i (mkIn (pre ++ b :: bs ++ rest) (zlen pre + 1)) s0)) as (s' & -> & P).
  - rewrite (in_set_in _ _ _ _ Hin0), <- app_assoc, zlen_app. reflexivity.
  - rewrite <- app_assoc. exact H63.
  - constructor; [ exact Hb' | constructor ].
  - exact Hbs.
  - lia.
  - lia.
  - lia.
  - change (zlen [seen be b]) with 1. lia.
  - change (zlen [seen be b]) with 1. lia.
  - change (zlen [seen be b]) with 1. cbn. rewrite Z.add_0_r. symmetry; apply Z.div_1_r.
  - lia.
  - change (zlen [seen be b]) with 1. lia.
  - unfold nbit_fuel. rewrite Hin0. cbn [idata ipos]. rewrite zlen_app, zlen_cons, zlen_app. lia.
  - cbn [room]. split; [ exact Gm | ]. exists b0. unfold s0. cbn [outs set_in set_ins set_stk]. rewrite where_add_outs. auto.
  - cbn [put] in P. destruct P as (b1 & b' & A & -> & T & G & R). unfold s0 in A. cbn [outs set_in set_ins set_stk] in A.
    rewrite where_add_outs in A. rewrite Hb0 in A. injection A as <-.
    exists b'. split; [ | split; [ | auto ] ].
    + rewrite set_in_in, <- !app_assoc. cbn [app]. rewrite zlen_app. change (zlen [b]) with 1. rewrite (zlen_cons b bs).
      replace (zlen pre + 1 + zlen bs) with (zlen pre + (zlen bs + 1)) by lia. reflexivity.
    + rewrite map_map in G.
      assert (E : (if be then map mirror (b :: bs) else b :: bs) = seen be b :: map (seen be) bs).
      { unfold seen. destruct be; cbn; [ reflexivity | f_equal; symmetry; apply map_id ]. }
      rewrite E. exact G.
Qed.
Print Assumptions C32_nbit_to_output.

(** the words *)
Theorem C32_nbit_words : forall (rep be : bool) w, 1 <= w <= 64 ->
  exists digits, parser_word ((if rep then "#" else "") ++ (if be then "!" else "") ++ digits ++ "bit->")%string
                 = Ok (Some (read_flags false rep be READ_NBIT, w)).
Proof.
  intros rep be w Hw.
  set (show := fun w => if w <? 10 then String (ascii_of_nat (48 + Z.to_nat w)) ""
                        else String (ascii_of_nat (48 + Z.to_nat (w / 10))) (String (ascii_of_nat (48 + Z.to_nat (w mod 10))) "")).
  exists (show w).
  assert (A : forallb (fun w => match parser_word ((if rep then "#" else "") ++ (if be then "!" else "") ++ show w ++ "bit->")%string with
                      | Ok (Some (a, b)) => (a =? read_flags false rep be READ_NBIT) && (b =? w) | _ => false end)
              (map (fun n => Z.of_nat (S n)) (seq 0 64)) = true) by (destruct rep, be; vm_compute; reflexivity).
  rewrite forallb_forall in A. specialize (A w).
  assert (I : In w (map (fun n => Z.of_nat (S n)) (seq 0 64))).
  { apply in_map_iff. exists (Z.to_nat (w - 1)). split; [ lia | apply in_seq; lia ]. }
  specialize (A I). destruct (parser_word _) as [ [ [ a b ] | ] | | ]; try discriminate A.
  apply andb_true_iff in A. destruct A as [ A B ]. apply Z.eqb_eq in A, B. subst. reflexivity.
Qed.
Print Assumptions C32_nbit_words.

(** ** Items of fixed size, in either byte order *)
Lemma letter_format : forall letter size decode, In (letter, size, decode) letters -> exists format f,
  In format formats /\ fmt_of format = Some f /\ fmt_size f = size /\ 0 <= size
  /\ (format =? READ_VARINT) = false /\ (format =? READ_ZIGZAG) = false /\ (format =? READ_NBIT) = false
  /\ (forall rep be, parser_word (reading_word rep be letter) = Ok (Some (read_flags false rep be format, 0)))
  /\ (forall be bs, zlen bs = size -> Forall is_byte bs -> item_int f be bs = decode be bs)
  /\ (forall m be bs, item_to_stack m f be bs = Some (if size =? 1 then item_int f be bs else wrapS 32 (item_int f be bs)))
  /\ (forall m t be bs, item_to_out m t f be bs = Some (cast_out m t (item_int f be bs))).
Proof.
  intros letter size decode H. cbn [In letters] in H.
  Local Ltac one n H := exists n; eexists; injection H as <- <- <-;
    split; [ cbn; tauto | ]; split; [ reflexivity | ]; split; [ reflexivity | ]; split; [ lia | ]; split; [ reflexivity | ];
    split; [ reflexivity | ]; split; [ reflexivity | ]; split; [ intros [ | ] [ | ]; vm_compute; reflexivity | ];
    split; [ intros; first [ apply item_int_ok; [ cbn; tauto | assumption | assumption ]
                           | cbn [item_int]; rewrite le_little; reflexivity ] | ];
    split; intros; reflexivity.
  destruct H as [ H | H ]; [ one 8 H | ]. destruct H as [ H | H ]; [ one 16 H | ]. destruct H as [ H | H ]; [ one 24 H | ].
  destruct H as [ H | H ]; [ one 32 H | ]. destruct H as [ H | H ]; [ one 40 H | ]. destruct H as [ H | H ]; [ one 48 H | ].
  destruct H as [ H | H ]; [ one 56 H | ]. destruct H as [ H | H ]; [ one 64 H | ]. destruct H as [ H | H ]; [ one 72 H | ].
  destruct H as [ H | H ]; [ one 80 H | ]. destruct H as [ H | H ]; [ one 88 H | ]. contradiction.
Qed.

Lemma wrapS32_id : forall v, cell 32 v -> wrapS 32 v = v.
Proof. intros v H. unfold wrapS, cell in *. change (32 - 1) with 31 in *. change (2 ^ 32) with (2 * 2 ^ 31). rewrite Z.mod_small by lia. lia. Qed.

Theorem C32_integers_to_stack : forall letter size decode, In (letter, size, decode) letters -> forall rep be m, exists flags,
  parser_word (reading_word rep be letter) = Ok (Some (flags, 0)) /\
  forall single s i st items pre rest,
  bytecode_get m s = Some i -> counted rep (zlen items) st s ->
  nthZ (ins s) i = Some (mkIn (pre ++ concat items ++ rest) (zlen pre)) -> zlen (pre ++ concat items ++ rest) < 2^63 ->
  Forall (fun bs => zlen bs = size /\ Forall is_byte bs /\ cell 32 (decode be bs)) items ->
  zlen st + zlen items <= m_stackmax m ->
  exec m single (Z.lnot flags) s =
  XNext (count_read (set_stk (pushed (map (decode be) items) st)
          (set_in i (mkIn (pre ++ concat items ++ rest) (zlen pre + zlen (concat items))) (where_add 1 s)))).
Proof.
  intros letter size decode H rep be m.
  destruct (letter_format letter size decode H) as (format & f & A1 & A2 & A3 & A4 & A5 & A6 & A7 & A8 & A9 & A10 & A11).
  exists (read_flags false rep be format). split; [ apply A8 | ].
  intros single s i st items pre rest Hi Hc Hin H63 Hit Hr.
  rewrite (exec_read_head m single false rep be _ s i (zlen items) st) by assumption. cbn zeta.
  rewrite A5, A6, A7, A2. cbn [orb].
  rewrite (read_to_stack_ok m f be items (map (decode be) items) i _ _ pre rest).
  - reflexivity.
  - lia.
  - eapply Forall_impl; [ | exact Hit ]. intros bs (E & _). cbn beta. congruence.
  - clear - Hit A9 A10. induction Hit as [ | bs items (E & B & C) _ IH ]; cbn; constructor; [ | exact IH ].
    rewrite A10, A9 by assumption. f_equal. destruct (Z.eqb_spec size 1); [ reflexivity | apply wrapS32_id, C ].
  - cbn [ins set_stk]. rewrite where_add_ins. exact Hin.
  - exact H63.
  - exact Hr.
Qed.
Print Assumptions C32_integers_to_stack.

Theorem C32_integers_to_output : forall letter size decode, In (letter, size, decode) letters -> forall rep be m, exists flags,
  parser_word (reading_word rep be letter) = Ok (Some (flags, 0)) /\
  forall single s i o b base st items pre rest,
  bytecode_get m s = Some i -> bytecode_get m (where_add 1 s) = Some o -> counted rep (zlen items) st s ->
  nthZ (ins s) i = Some (mkIn (pre ++ concat items ++ rest) (zlen pre)) -> zlen (pre ++ concat items ++ rest) < 2^63 ->
  Forall (fun bs => zlen bs = size /\ Forall is_byte bs) items ->
  growing m -> nthZ (outs s) o = Some b -> good b base -> 0 < reserved b ->
  exists b', exec m single (Z.lnot (flags + 1)) s =
    XNext (count_read (count_write (set_out o b' (set_stk st
            (set_in i (mkIn (pre ++ concat items ++ rest) (zlen pre + zlen (concat items))) (where_add 2 s))))))
    /\ good b' (base ++ map (fun bs => cast_out m (otype b) (decode be bs)) items) /\ otype b' = otype b /\ 0 < reserved b'.
Proof.
  intros letter size decode H rep be m.
  destruct (letter_format letter size decode H) as (format & f & A1 & A2 & A3 & A4 & A5 & A6 & A7 & A8 & A9 & A10 & A11).
  exists (read_flags false rep be format). split; [ apply A8 | ].
  intros single s i o b base st items pre rest Hi Ho Hc Hin H63 Hit Gm Hb Hg Hres.
  replace (read_flags false rep be format + 1) with (read_flags true rep be format) by (unfold read_flags; cbn [Z.b2z]; lia).
  rewrite (exec_read_head m single true rep be _ s i (zlen items) st) by assumption. cbn zeta.
  rewrite A5, A6, A7, A2. cbn [orb].
  rewrite (operand_ok _ _ o) by exact Ho. rewrite where_add_set_stk, where_add_add.
  destruct (read_direct_ok m f be items (map (fun bs => cast_out m (otype b) (decode be bs)) items) i o b base
     (set_stk st (where_add (1 + 1) s)) (fun s => XNext (count_read (count_write s))) pre rest) as (b' & E & G & R & T).
  - lia.
  - eapply Forall_impl; [ | exact Hit ]. intros bs (E & _). cbn beta. congruence.
  - cbn [outs set_stk]. rewrite where_add_outs. exact Hb.
  - exact Hg.
  - exact Hres.
  - exact Gm.
  - clear - Hit A9 A11. induction Hit as [ | bs items (E & B) _ IH ]; cbn; constructor; [ | exact IH ].
    rewrite A11, A9 by assumption. reflexivity.
  - cbn [ins set_stk]. rewrite where_add_ins. exact Hin.
  - exact H63.
  - exists b'. rewrite E. split; [ reflexivity | auto ].
Qed.
Print Assumptions C32_integers_to_output.

(** ** Where the code does not decode what was encoded *)
Definition opts (width : Z) : options :=
  mkOptions width 1024 1024 1024 (fun r => r + r) (fun _ => None) (fun _ _ => None) (fun _ v => v) (fun _ a b => a + b).
Definition run_source (width : Z) (source : string) (input : list Z) : option ares :=
  match compile (opts width) source with
  | Ok (_, m) => run_ m [mkIn input 0] 100 (initial m)
  | _ => None
  end.

(** q-> stack on the 64-bit machine keeps 32 bits only: 2^32 + 5 is read as 5 (and likewise for Q, n, N and I) *)
Theorem C32_wide_integers_to_stack_refuted :
  integer true false [5; 0; 0; 0; 1; 0; 0; 0] = 2^32 + 5
  /\ exists s, run_source 64 "input x x q-> stack" [5; 0; 0; 0; 1; 0; 0; 0] = Some (ARet e_none s) /\ stk s = [5].
Proof. split; [ reflexivity | eexists; split; [ vm_compute; reflexivity | reflexivity ] ]. Qed.
Print Assumptions C32_wide_integers_to_stack_refuted.

Theorem C32_unsigned_to_stack_refuted :
  integer false false [0; 0; 0; 128] = 2^31
  /\ exists s, run_source 64 "input x x I-> stack" [0; 0; 0; 128] = Some (ARet e_none s) /\ stk s = [- 2^31].
Proof. split; [ reflexivity | eexists; split; [ vm_compute; reflexivity | reflexivity ] ]. Qed.
Print Assumptions C32_unsigned_to_stack_refuted.

(** On the 32-bit machine zigzag-> into an int64 output goes through a 32-bit number; varint-> does not *)
Theorem C32_zigzag_to_wide_output_refuted :
  varint [128; 128; 128; 128; 32] (zigzag (2^32)) /\
  exists s, run_source 32 "input x output y int64 x zigzag-> y" [128; 128; 128; 128; 32] = Some (ARet e_none s)
            /\ map contents (outs s) = [[Some 0]].
Proof.
  split.
  - change (zigzag (2 ^ 32)) with (0 + 128 * (0 + 128 * (0 + 128 * (0 + 128 * 32)))).
    repeat (apply (varint_more 0); [ lia | ]). apply varint_last; lia.
  - eexists; split; [ vm_compute; reflexivity | reflexivity ].
Qed.
Print Assumptions C32_zigzag_to_wide_output_refuted.

(** 31 bits and more: the mask is computed in a 32-bit int *)
Theorem C32_wide_fields_refuted : run_source 64 "input x x 32bit-> stack" [1; 2; 3; 4] = Some (ABad Arith).
Proof. vm_compute; reflexivity. Qed.
Print Assumptions C32_wide_fields_refuted.

(** A number of 64 bits takes ten bytes as a varint and is refused *)
Theorem C32_ten_bytes_refuted : exists s,
  run_source 64 "input x x zigzag-> stack" [255; 255; 255; 255; 255; 255; 255; 255; 255; 1] = Some (ARet e_varint_too_big s).
Proof. eexists; vm_compute; reflexivity. Qed.
Print Assumptions C32_ten_bytes_refuted.

(** ** The hypotheses can be met: whole programs *)
Example C32_varint_example :
  varint [172; 2] 300 /\ varint [172; 2] (zigzag 150) /\
  exists s, run_source 64 "input x x varint-> stack x zigzag-> stack 3 x #varint-> stack" [172; 2; 172; 2; 1; 128; 1; 3] = Some (ARet e_none s)
            /\ stk s = [3; 128; 1; 150; 300] /\ map ipos (ins s) = [8].
Proof.
  split; [ apply (varint_more 44 [2] 2); [ lia | apply varint_last; lia ] | ].
  split; [ apply (varint_more 44 [2] 2); [ lia | apply varint_last; lia ] | ].
  eexists; split; [ vm_compute; reflexivity | split; reflexivity ].
Qed.

Example C32_nbit_example : exists s,
  run_source 64 "input x output y uint8 5 x #3bit-> stack 3 x #!2bit-> y" [250; 104; 27] = Some (ARet e_none s)
  /\ stk s = pushed (map (fun j => field 3 j (little [250; 104])) (zseq 0 5)) []
  /\ map contents (outs s) = [map (fun j => Some (field 2 j (little [mirror 27]))) (zseq 0 3)]
  /\ stk s = [6; 4; 3; 7; 2].
Proof. eexists; split; [ vm_compute; reflexivity | repeat split; reflexivity ]. Qed.

Example C32_integers_example : exists s,
  run_source 32 "input x output y int64 x !i-> stack 2 x #!h-> stack 2 x #!q-> y" 
    ([255; 255; 255; 254] ++ [1; 0; 0; 2] ++ [0; 0; 0; 1; 0; 0; 0; 0] ++ [255; 255; 255; 255; 255; 255; 255; 240]) = Some (ARet e_none s)
  /\ stk s = [2; 256; -2] /\ map contents (outs s) = [[Some (2^32); Some (-16)]].
Proof. eexists; split; [ vm_compute; reflexivity | split; reflexivity ]. Qed.
