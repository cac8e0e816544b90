(** Lemmas for C32: items of fixed size, and the reading instructions as a whole *)
From Verif Require Import Base BaseLemmas Forth ForthParse SpecForth PForthOut PForthRead.
Local Open Scope string_scope.
Local Open Scope list_scope.
Local Open Scope Z_scope.

Lemma le_little : forall bs, le_unsigned bs = little bs.
Proof. induction bs; cbn; congruence. Qed.

(** ** Byte order *)
Lemma land_mask : forall x k, 0 <= k -> Z.land x (Z.shiftl 255 k) = (x / 2 ^ k mod 256) * 2 ^ k.
Proof.
  intros x k Hk. change 256 with (2 ^ 8). rewrite <- Z.shiftr_div_pow2, <- Z.land_ones, <- Z.shiftl_mul_pow2 by lia.
  apply Z.bits_inj'. intros n Hn. rewrite Z.land_spec, !Z.shiftl_spec by lia. change 255 with (Z.ones 8).
  destruct (Z.ltb_spec n k).
  - rewrite !(Z.testbit_neg_r _ (n - k)) by lia. apply andb_false_r.
  - rewrite Z.land_spec, Z.shiftr_spec by lia. f_equal. f_equal. lia.
Qed.

Lemma shl_div : forall v a k, 0 <= a <= k -> Z.shiftl v a / 2 ^ k = v / 2 ^ (k - a).
Proof.
  intros v a k H. rewrite Z.shiftl_mul_pow2 by lia. replace (2 ^ k) with (2 ^ (k - a) * 2 ^ a) by (rewrite <- Z.pow_add_r by lia; f_equal; lia).
  apply Z.div_mul_cancel_r; apply Z.pow_nonzero; lia.
Qed.

Lemma shr_div : forall v a k, 0 <= a -> 0 <= k -> Z.shiftr v a / 2 ^ k = v / 2 ^ (a + k).
Proof.
  intros v a k Ha Hk. rewrite Z.shiftr_div_pow2, Z.div_div, <- Z.pow_add_r; try lia.
  all: first [ apply Z.pow_nonzero; lia | apply Z.pow_pos_nonneg; lia ].
Qed.

Lemma little_byte : forall a b t, Forall is_byte a -> is_byte b -> little (a ++ b :: t) / 2 ^ (8 * zlen a) mod 256 = b.
Proof.
  intros a b t Ha Hb. rewrite little_app. pose proof (little_bound a Ha). pose proof (zlen_nonneg a).
  assert (0 < 2 ^ (8 * zlen a)) by (apply Z.pow_pos_nonneg; lia).
  rewrite Z.mul_comm, Z.div_add, Z.div_small by lia. cbn [little]. unfold is_byte in Hb.
  symmetry. apply Z.mod_unique with (little t); lia.
Qed.

Ltac bytes := repeat match goal with H : Forall is_byte (_ :: _) |- _ => apply Forall_cons_iff in H; destruct H end.

Lemma swap16 : forall a b, Forall is_byte [a; b] -> byteswap16 (little [a; b]) = little [b; a].
Proof.
  intros a b F. unfold byteswap16. set (v := little [a; b]).
  assert (A0 : v / 2 ^ 0 mod 256 = a) by (bytes; apply (little_byte [] a [b]); auto 12).
  assert (A1 : v / 2 ^ 8 mod 256 = b) by (bytes; apply (little_byte [a] b []); auto 12).
  change 0xff with (Z.shiftl 255 0). change 0xff00 with (Z.shiftl 255 8).
  rewrite !land_mask, shl_div, shr_div by lia. cbn [Z.add Z.sub Z.opp Z.pos_sub Pos.pred_double]. 
  change (8 - 8) with 0. change (8 + 0) with 8. rewrite A0, A1. bytes. unfold is_byte in *.
  rewrite Z.pow_0_r, lor_add by lia. cbn [little]. change (2 ^ 8) with 256. lia.
Qed.

Lemma swap32 : forall a b c d, Forall is_byte [a; b; c; d] -> byteswap32 (little [a; b; c; d]) = little [d; c; b; a].
Proof.
  intros a b c d F. unfold byteswap32. set (v := little [a; b; c; d]).
  assert (A0 : v / 2 ^ 0 mod 256 = a) by (bytes; apply (little_byte [] a [b; c; d]); auto 12).
  assert (A1 : v / 2 ^ 8 mod 256 = b) by (bytes; apply (little_byte [a] b [c; d]); auto 12).
  assert (A2 : v / 2 ^ 16 mod 256 = c) by (bytes; apply (little_byte [a; b] c [d]); auto 12).
  assert (A3 : v / 2 ^ 24 mod 256 = d) by (bytes; apply (little_byte [a; b; c] d []); auto 12).
  change 0xff with (Z.shiftl 255 0). change 0xff00 with (Z.shiftl 255 8).
  change 0xff0000 with (Z.shiftl 255 16). change 0xff000000 with (Z.shiftl 255 24).
  rewrite !land_mask, !shl_div, !shr_div by lia.
  change (24 + 0) with 24. change (8 + 8) with 16. change (16 - 8) with 8. change (24 - 24) with 0.
  rewrite A0, A1, A2, A3. bytes. unfold is_byte in *. clear A0 A1 A2 A3. clearbody v.
  rewrite Z.pow_0_r, Z.mul_1_r.
  rewrite (lor_add d c 8) by (cbn; lia).
  rewrite (lor_add (d + c * 2 ^ 8) b 16) by (cbn; lia).
  rewrite (lor_add _ a 24) by (cbn; lia). cbn [little]. cbn. lia.
Qed.

Lemma swap64 : forall a b c d e f g h, Forall is_byte [a; b; c; d; e; f; g; h] ->
  byteswap64 (little [a; b; c; d; e; f; g; h]) = little [h; g; f; e; d; c; b; a].
Proof.
  intros a b c d e f g h F. unfold byteswap64. set (v := little [a; b; c; d; e; f; g; h]).
  assert (A0 : v / 2 ^ 0 mod 256 = a) by (bytes; apply (little_byte [] a [b; c; d; e; f; g; h]); auto 12).
  assert (A1 : v / 2 ^ 8 mod 256 = b) by (bytes; apply (little_byte [a] b [c; d; e; f; g; h]); auto 12).
  assert (A2 : v / 2 ^ 16 mod 256 = c) by (bytes; apply (little_byte [a; b] c [d; e; f; g; h]); auto 12).
  assert (A3 : v / 2 ^ 24 mod 256 = d) by (bytes; apply (little_byte [a; b; c] d [e; f; g; h]); auto 12).
  assert (A4 : v / 2 ^ 32 mod 256 = e) by (bytes; apply (little_byte [a; b; c; d] e [f; g; h]); auto 12).
  assert (A5 : v / 2 ^ 40 mod 256 = f) by (bytes; apply (little_byte [a; b; c; d; e] f [g; h]); auto 12).
  assert (A6 : v / 2 ^ 48 mod 256 = g) by (bytes; apply (little_byte [a; b; c; d; e; f] g [h]); auto 12).
  assert (A7 : v / 2 ^ 56 mod 256 = h) by (bytes; apply (little_byte [a; b; c; d; e; f; g] h []); auto 12).
  change 0xff with (Z.shiftl 255 0). change 0xff00 with (Z.shiftl 255 8).
  change 0xff0000 with (Z.shiftl 255 16). change 0xff000000 with (Z.shiftl 255 24).
  change 0xff00000000 with (Z.shiftl 255 32). change 0xff0000000000 with (Z.shiftl 255 40).
  change 0xff000000000000 with (Z.shiftl 255 48). change 0xff00000000000000 with (Z.shiftl 255 56).
  rewrite !land_mask, !shl_div, !shr_div by lia.
  change (56 + 0) with 56. change (40 + 8) with 48. change (24 + 16) with 40. change (8 + 24) with 32.
  change (32 - 8) with 24. change (40 - 24) with 16. change (48 - 40) with 8. change (56 - 56) with 0.
  rewrite A0, A1, A2, A3, A4, A5, A6, A7. bytes. unfold is_byte in *. clear A0 A1 A2 A3 A4 A5 A6 A7. clearbody v.
  rewrite Z.pow_0_r, Z.mul_1_r.
  rewrite (lor_add h g 8) by (cbn; lia).
  rewrite (lor_add (h + g * 2 ^ 8) f 16) by (cbn; lia).
  rewrite (lor_add _ e 24) by (cbn; lia).
  rewrite (lor_add _ d 32) by (cbn; lia).
  rewrite (lor_add _ c 40) by (cbn; lia).
  rewrite (lor_add _ b 48) by (cbn; lia).
  rewrite (lor_add _ a 56) by (cbn; lia). cbn [little]. cbn. lia.
Qed.

Lemma swap_value_big : forall size bs, In size [1; 2; 4; 8] -> zlen bs = size -> Forall is_byte bs ->
  swap_value size (little bs) = big bs.
Proof.
  intros size bs Hs Hl Hb. cbn [In] in Hs.
  assert (L : List.length bs = Z.to_nat size) by (unfold zlen in Hl; lia).
  destruct Hs as [ <- | [ <- | [ <- | [ <- | [] ] ] ] ]; cbn [Z.to_nat Pos.to_nat Pos.iter_op Nat.add] in L.
  - destruct bs as [ | a [ | ] ]; try discriminate L. unfold swap_value, big. cbn. reflexivity.
  - destruct bs as [ | a [ | b [ | ] ] ]; try discriminate L. apply swap16, Hb.
  - destruct bs as [ | a [ | b [ | c [ | d [ | ] ] ] ] ]; try discriminate L. apply swap32, Hb.
  - destruct bs as [ | a [ | b [ | c [ | d [ | e [ | f [ | g [ | h [ | ] ] ] ] ] ] ] ] ]; try discriminate L. apply swap64, Hb.
Qed.

Lemma item_int_ok : forall signed size be bs, In size [1; 2; 4; 8] -> zlen bs = size -> Forall is_byte bs ->
  item_int (FInt signed size) be bs = integer signed be bs.
Proof.
  intros signed size be bs Hs Hl Hb. unfold item_int, integer. rewrite le_little, Hl.
  destruct be; [ rewrite swap_value_big by assumption | ]; reflexivity.
Qed.

(** ** Items *)
Lemma items_at_ok : forall items i size s data pos pre rest, 0 <= size ->
  nthZ (ins s) i = Some (mkIn data pos) -> data = pre ++ concat items ++ rest -> Forall (fun b => zlen b = size) items ->
  items_at (List.length items) i (zlen pre) size s = Some items.
Proof.
  induction items as [ | b items IH ]; intros i size s data pos pre rest Hs Hi Hd Hl; cbn [List.length items_at]; [ reflexivity | ].
  apply Forall_cons_iff in Hl. destruct Hl as [ Hb Hl ]. cbn [concat] in Hd. rewrite <- app_assoc in Hd.
  assert (bytes_at i (zlen pre) size s = Some b) as ->.
  { unfold bytes_at. rewrite Hi. cbn [idata]. pose proof (zlen_nonneg pre). destruct (Z.leb_spec 0 (zlen pre)); [ | lia ].
    rewrite Hd. destruct (Z.leb_spec (zlen pre + size) (zlen (pre ++ b ++ concat items ++ rest))).
    - cbn [andb]. f_equal. rewrite slice_app_shift by lia. rewrite Z.sub_diag. replace (zlen pre + size - zlen pre) with (zlen b) by lia.
      apply slice_app.
    - rewrite !zlen_app in *. pose proof (zlen_nonneg (concat items)). pose proof (zlen_nonneg rest). lia. }
  replace (zlen pre + size) with (zlen (pre ++ b)) by (rewrite zlen_app; lia).
  rewrite (IH i size s data pos (pre ++ b) rest Hs Hi); [ reflexivity | rewrite <- app_assoc; exact Hd | exact Hl ].
Qed.

Lemma push_items_ok : forall m f be items vals, Forall2 (fun bs v => item_to_stack m f be bs = Some v) items vals ->
  forall s k, zlen (stk s) + zlen items <= m_stackmax m ->
  push_items m f be items s k = k (set_stk (rev vals ++ stk s) s).
Proof.
  induction 1 as [ | bs v items vals Hv F IH ]; intros s k Hr; cbn [push_items].
  - f_equal. destruct s; reflexivity.
  - rewrite Hv. rewrite zlen_cons in Hr. pose proof (zlen_nonneg items).
    unfold push_or_fail, stack_cannot_push, stack_push.
    destruct (Z.eqb_spec (zlen (stk s)) (m_stackmax m)); [ lia | ]. destruct (Z.ltb_spec (zlen (stk s)) (m_stackmax m)); [ | lia ].
    rewrite IH by (unfold set_stk; cbn [stk]; rewrite zlen_cons; lia).
    f_equal. unfold set_stk; cbn. rewrite <- app_assoc. reflexivity.
Qed.

Lemma zlen_concat_const : forall (items : list (list Z)) size, Forall (fun b => zlen b = size) items ->
  zlen (concat items) = zlen items * size.
Proof.
  intros items size H. induction H as [ | b l E _ IH ]; [ reflexivity | ].
  cbn [concat]. rewrite zlen_app, zlen_cons, IH, E. lia.
Qed.

Lemma read_to_stack_ok : forall m f be items vals i s k pre rest,
  0 <= fmt_size f -> Forall (fun b => zlen b = fmt_size f) items ->
  Forall2 (fun bs v => item_to_stack m f be bs = Some v) items vals ->
  nthZ (ins s) i = Some (mkIn (pre ++ concat items ++ rest) (zlen pre)) -> zlen (pre ++ concat items ++ rest) < 2^63 ->
  zlen (stk s) + zlen items <= m_stackmax m ->
  read_to_stack m f be i (zlen items) s k =
  k (set_stk (rev vals ++ stk s) (set_in i (mkIn (pre ++ concat items ++ rest) (zlen pre + zlen (concat items))) s)).
Proof.
  intros m f be items vals i s k pre rest Hf Hl F2 Hi H63 Hr. unfold read_to_stack.
  pose proof (zlen_concat_const _ _ Hl) as Hc. pose proof (zlen_nonneg pre). pose proof (zlen_nonneg (concat items)). pose proof (zlen_nonneg rest).
  rewrite !zlen_app in H63. rewrite <- Hc. rewrite fits64 by lia. cbn [negb].
  rewrite (read_ok i _ s _ _ _ Hi) by (rewrite ?zlen_app; lia).
  unfold zlen at 1. rewrite Nat2Z.id.
  rewrite (items_at_ok items i (fmt_size f) _ (pre ++ concat items ++ rest) (zlen pre + zlen (concat items)) pre rest);
    [ | exact Hf | apply (in_set_in _ _ _ _ Hi) | reflexivity | exact Hl ].
  rewrite (push_items_ok m f be items vals F2) by exact Hr. reflexivity.
Qed.

Lemma optmap_ok : forall {A B} (f : A -> option B) l ys, Forall2 (fun x y => f x = Some y) l ys -> optmap f l = Some ys.
Proof. intros A B f l ys H. induction H as [ | x y l ys E _ IH ]; cbn; [ reflexivity | rewrite E, IH; reflexivity ]. Qed.

Lemma read_direct_ok : forall m f be items vals i o b base s k pre rest,
  0 <= fmt_size f -> Forall (fun b => zlen b = fmt_size f) items ->
  nthZ (outs s) o = Some b -> good b base -> 0 < reserved b -> growing m ->
  Forall2 (fun bs v => item_to_out m (otype b) f be bs = Some v) items vals ->
  nthZ (ins s) i = Some (mkIn (pre ++ concat items ++ rest) (zlen pre)) -> zlen (pre ++ concat items ++ rest) < 2^63 ->
  exists b', read_direct m f be i o (zlen items) s k =
      k (set_out o b' (set_in i (mkIn (pre ++ concat items ++ rest) (zlen pre + zlen (concat items))) s))
    /\ good b' (base ++ vals) /\ 0 < reserved b' /\ otype b' = otype b.
Proof.
  intros m f be items vals i o b base s k pre rest Hf Hl Hb Hg Hr Gm F2 Hi H63. unfold read_direct.
  pose proof (zlen_concat_const _ _ Hl) as Hc. pose proof (zlen_nonneg pre). pose proof (zlen_nonneg (concat items)). pose proof (zlen_nonneg rest).
  rewrite !zlen_app in H63. rewrite <- Hc. rewrite fits64 by lia. cbn [negb].
  rewrite (read_ok i _ s _ _ _ Hi) by (rewrite ?zlen_app; lia).
  pose proof (zlen_nonneg items). destruct (Z.ltb_spec (zlen items) 0); [ lia | ].
  unfold zlen at 1. rewrite Nat2Z.id.
  rewrite (items_at_ok items i (fmt_size f) _ (pre ++ concat items ++ rest) (zlen pre + zlen (concat items)) pre rest);
    [ | exact Hf | apply (in_set_in _ _ _ _ Hi) | reflexivity | exact Hl ].
  unfold with_out. cbn [outs set_in set_ins]. rewrite Hb.
  rewrite (optmap_ok _ _ _ F2).
  assert (Lv : zlen vals = zlen items) by (clear - F2; induction F2; [ reflexivity | rewrite !zlen_cons; lia ]).
  destruct (write_copy_ok m b base vals Gm Hr Hg) as (b' & E & G' & R' & T').
  destruct (Z.eqb_spec (zlen items) 1) as [ E1 | N1 ].
  - destruct vals as [ | v [ | v2 vals' ] ].
    + change (zlen (@nil Z)) with 0 in Lv. lia.
    + destruct (write_one_ok m b base v Gm Hr Hg) as (b2 & E2 & G2 & R2 & T2). exists b2. rewrite E2. auto.
    + rewrite !zlen_cons in Lv. pose proof (zlen_nonneg vals'). lia.
  - exists b'. rewrite E. auto.
Qed.

(** ** The bytecode of a reading word *)
Definition read_flags (direct rep be : bool) (format : Z) : Z :=
  format + Z.b2z direct + 2 * Z.b2z rep + 4 * Z.b2z be.

Definition formats : list Z := [8; 16; 24; 32; 40; 48; 56; 64; 72; 80; 88; 96; 104; 112; 120; 128].

Lemma flags_decode : forall direct rep be format, In format formats ->
  let flags := Z.lnot (Z.lnot (read_flags direct rep be format)) in
  Z.testbit flags 0 = direct /\ Z.testbit flags 1 = rep /\ Z.testbit flags 2 = be /\ Z.land flags 248 = format
  /\ (Z.lnot (read_flags direct rep be format) <? 0) = true.
Proof.
  intros direct rep be format H. cbn [In formats] in H.
  repeat destruct H as [ <- | H ]; try contradiction; destruct direct, rep, be; vm_compute; repeat split.
Qed.

(** the number of items: from the stack, or one *)
Definition counted (rep : bool) (n : Z) (st : list Z) (s : state) : Prop :=
  if rep then stk s = n :: st else n = 1 /\ stk s = st.

Lemma count_ok : forall (rep : bool) n st s k, counted rep n st s ->
  (if rep then pop_or_fail s else fun k => k 1 s) k = k n (set_stk st s).
Proof.
  intros [ | ] n st s k H; cbn in H.
  - unfold pop_or_fail, stack_cannot_pop, stack_pop. rewrite H, zlen_cons. pose proof (zlen_nonneg st).
    destruct (Z.eqb_spec (zlen st + 1) 0); [ lia | reflexivity ].
  - destruct H as [ -> <- ]. f_equal. destruct s; reflexivity.
Qed.

Lemma operand_ok : forall m s v k, bytecode_get m s = Some v -> operand m s k = k v (where_add 1 s).
Proof. intros m s v k H. unfold operand. rewrite H. reflexivity. Qed.

Lemma where_add_stk : forall d s, stk (where_add d s) = stk s.
Proof. intros d s. unfold where_add. destruct (frames s) as [ | [ w p ] r ]; reflexivity. Qed.
Lemma where_add_ins : forall d s, ins (where_add d s) = ins s.
Proof. intros d s. unfold where_add. destruct (frames s) as [ | [ w p ] r ]; reflexivity. Qed.
Lemma where_add_outs : forall d s, outs (where_add d s) = outs s.
Proof. intros d s. unfold where_add. destruct (frames s) as [ | [ w p ] r ]; reflexivity. Qed.
Lemma where_add_add : forall a b s, where_add a (where_add b s) = where_add (b + a) s.
Proof. intros a b s. unfold where_add. destruct (frames s) as [ | [ w p ] r ] eqn:E; [ rewrite E; reflexivity | ]. cbn. rewrite Z.add_assoc. reflexivity. Qed.
Lemma where_add_set_stk : forall d st s, where_add d (set_stk st s) = set_stk st (where_add d s).
Proof. intros d st s. unfold where_add. cbn [frames set_stk]. destruct (frames s) as [ | [ w p ] r ]; reflexivity. Qed.
Lemma get_set_stk : forall m st s, bytecode_get m (set_stk st s) = bytecode_get m s.
Proof. reflexivity. Qed.

Lemma exec_read_head : forall m single direct rep be format s i n st, In format formats ->
  bytecode_get m s = Some i -> counted rep n st s ->
  exec m single (Z.lnot (read_flags direct rep be format)) s =
  (let s := set_stk st (where_add 1 s) in
   let done s := XNext (count_read s) in
   if (format =? READ_VARINT) || (format =? READ_ZIGZAG) then
    if direct
    then operand m s (fun out_num s =>
           varint_items m (Z.to_nat n) (format =? READ_ZIGZAG) i (Some out_num) s done)
    else varint_items m (Z.to_nat n) (format =? READ_ZIGZAG) i None s done
  else if format =? READ_NBIT then
    operand m s (fun bit_width s =>
    if direct
    then operand m s (fun out_num s => read_nbit m be bit_width i (Some out_num) n s done)
    else read_nbit m be bit_width i None n s done)
  else if direct then
    operand m s (fun out_num s =>
    match fmt_of format with
    | Some f => read_direct m f be i out_num n s (fun s => done (count_write s))
    | None => done (count_write s)
    end)
  else
    match fmt_of format with
    | Some f => read_to_stack m f be i n s done
    | None => done s
    end).
Proof.
  intros m single direct rep be format s i n st Hf Hi Hc.
  destruct (flags_decode direct rep be format Hf) as (D & R & B & F & N). unfold exec. rewrite N.
  unfold exec_read. rewrite D, R, B, F. rewrite (operand_ok _ _ _ _ Hi).
  rewrite count_ok with (n := n) (st := st); [ reflexivity | ].
  unfold counted in *. rewrite where_add_stk. exact Hc.
Qed.
