(** Lemmas for C31: arithmetic and stack words *)
From Verif Require Import Base BaseLemmas Forth ForthParse SpecForth PForthRun.
Local Open Scope string_scope.
Local Open Scope list_scope.
Local Open Scope Z_scope.

Lemma fits_cell : forall b v, fits b v = true <-> cell b v.
Proof. intros; unfold fits, cell; rewrite andb_true_iff, Z.leb_le, Z.ltb_lt; lia. Qed.

Lemma arith_ok : forall m v k, cell (m_width m) v -> arith m v k = k v.
Proof. intros m v k H; unfold arith. rewrite (proj2 (fits_cell _ _) H). reflexivity. Qed.

Lemma arith_bad : forall m v k, ~ cell (m_width m) v -> arith m v k = XBad Arith.
Proof.
  intros m v k H; unfold arith. destruct (fits (m_width m) v) eqn:E; [ | reflexivity ].
  exfalso; apply H, fits_cell, E.
Qed.

Lemma quot_cell : forall w a b, 1 < w -> cell w a -> cell w b -> b <> 0 -> cell w (a / b) -> cell w (Z.quot a b).
Proof.
  unfold cell; intros w a b Hw Ha Hb Hz Hd.
  assert (P : 0 < 2 ^ (w - 1)) by (apply Z.pow_pos_nonneg; lia).
  pose proof (Z.quot_rem a b Hz) as E. pose proof (Z.rem_bound_abs a b Hz) as R.
  pose proof (Z.div_mod a b Hz) as D. pose proof (Z.mod_bound_or a b Hz) as M.
  assert (S1 : 0 <= a -> 0 <= Z.rem a b) by (intros; apply Z.rem_nonneg; assumption).
  assert (S2 : a <= 0 -> Z.rem a b <= 0) by (intros; apply Z.rem_nonpos; assumption).
  set (q := Z.quot a b) in *. set (r := Z.rem a b) in *. set (q' := a / b) in *. set (r' := a mod b) in *.
  set (N := 2 ^ (w - 1)) in *. clearbody q r q' r' N. clear Hw w.
  assert (C : q = q' \/ (q = q' + 1 /\ q <= 0)).
  { assert (b * (q - q') = r' - r) by lia.
    assert (-1 <= q - q' <= 1) by (split; nia).
    destruct (Z.eq_dec q q'); [ left; assumption | right ].
    assert (q - q' = 1 \/ q - q' = -1) as [ F | F ] by lia; rewrite F in *.
    - split; [ lia | ]. assert (q = q' + 1) by lia. subst q. nia.
    - exfalso. nia. }
  lia.
Qed.

(** the code's correction of the quotient towards zero is the quotient rounded down *)
Lemma floor_quot : forall a b, b <> 0 ->
  (if Z.quot a b * b =? a then Z.quot a b else Z.quot a b - Z.b2z (xorb (a <? 0) (b <? 0))) = a / b.
Proof.
  intros a b Hb. pose proof (Z.quot_rem a b Hb) as E.
  assert (R := Z.rem_bound_abs a b Hb).
  assert (S1 : 0 <= a -> 0 <= Z.rem a b) by (intros; apply Z.rem_nonneg; assumption).
  assert (S2 : a <= 0 -> Z.rem a b <= 0) by (intros; apply Z.rem_nonpos; assumption).
  set (q := Z.quot a b) in *. set (r := Z.rem a b) in *.
  clearbody q r.
  destruct (q * b =? a) eqn:Q.
  - apply Z.eqb_eq in Q. apply Z.div_unique with 0; lia.
  - apply Z.eqb_neq in Q. assert (r <> 0) by nia.
    destruct (Z.ltb_spec a 0); destruct (Z.ltb_spec b 0); cbn [xorb Z.b2z].
    + apply Z.div_unique with r; lia.
    + apply Z.div_unique with (r + b); lia.
    + apply Z.div_unique with (r + b); lia.
    + apply Z.div_unique with r; lia.
Qed.

Lemma modulo_rem : forall a b, b <> 0 -> Z.rem (b + Z.rem a b) b = a mod b.
Proof.
  intros a b Hb. pose proof (Z.quot_rem a b Hb) as E.
  assert (R := Z.rem_bound_abs a b Hb).
  assert (S1 : 0 <= a -> 0 <= Z.rem a b) by (intros; apply Z.rem_nonneg; assumption).
  assert (S2 : a <= 0 -> Z.rem a b <= 0) by (intros; apply Z.rem_nonpos; assumption).
  set (q := Z.quot a b) in *. set (r := Z.rem a b) in *. clearbody q r.
  assert (T : forall x y k, Z.abs y < Z.abs b -> x = b * k + y -> (0 <= x -> 0 <= y) -> (x <= 0 -> y <= 0) -> Z.rem x b = y).
  { intros x y k H1 H2 H3 H4. pose proof (Z.quot_rem x b Hb) as E'. pose proof (Z.rem_bound_abs x b Hb) as R'.
    assert (S1' : 0 <= x -> 0 <= Z.rem x b) by (intros; apply Z.rem_nonneg; assumption).
    assert (S2' : x <= 0 -> Z.rem x b <= 0) by (intros; apply Z.rem_nonpos; assumption).
    set (qx := Z.quot x b) in *. set (rx := Z.rem x b) in *. clearbody qx rx.
    clear E R S1 S2 q r a. assert (b * (qx - k) = y - rx) by lia.
    destruct (Z.eq_dec qx k) as [ -> | N ]; [ lia | exfalso ].
    assert (Z.abs b <= Z.abs (y - rx)) by (rewrite <- H, Z.abs_mul; nia). lia. }
  assert (C : a mod b = r \/ (a mod b = r + b /\ r <> 0 /\ (r < 0 <-> 0 < b))).
  { destruct (Z.lt_trichotomy r 0) as [ H | [ H | H ] ]; destruct (Z.lt_trichotomy b 0) as [ B | [ B | B ] ]; try lia.
    - left; symmetry; apply Z.mod_unique with q; lia.
    - right; split; [ symmetry; apply Z.mod_unique with (q - 1); lia | lia ].
    - left; symmetry; apply Z.mod_unique with q; lia.
    - left; symmetry; apply Z.mod_unique with q; lia.
    - right; split; [ symmetry; apply Z.mod_unique with (q - 1); lia | lia ].
    - left; symmetry; apply Z.mod_unique with q; lia. }
  destruct C as [ C | (C & N & I) ]; rewrite C.
  - destruct (Z.eq_dec r 0).
    + subst r. rewrite e. apply T with 1; lia.
    + apply T with 1; try lia.
  - apply T with 0; lia.
Qed.

Lemma div_ok : forall m a b k, 1 < m_width m -> cell (m_width m) a -> cell (m_width m) b -> b <> 0 ->
  cell (m_width m) (a / b) -> div_ m a b k = k (a / b).
Proof.
  intros m a b k Hw Ha Hb Hz Hd. unfold div_.
  rewrite arith_ok by (apply quot_cell; assumption).
  rewrite arith_ok.
  - rewrite floor_quot by assumption. reflexivity.
  - pose proof (Z.quot_rem a b Hz) as E.
    assert (S1 : 0 <= a -> 0 <= Z.rem a b) by (intros; apply Z.rem_nonneg; assumption).
    assert (S2 : a <= 0 -> Z.rem a b <= 0) by (intros; apply Z.rem_nonpos; assumption).
    assert (S3 : Z.abs (Z.rem a b) <= Z.abs a).
    { rewrite <- Z.rem_abs by assumption. destruct (Z.le_gt_cases (Z.abs b) (Z.abs a)).
      - pose proof (Z.rem_bound_abs (Z.abs a) (Z.abs b)). lia.
      - rewrite Z.rem_small by lia. lia. }
    unfold cell in *. lia.
Qed.

Lemma mod_ok : forall m a b k, 1 < m_width m -> cell (m_width m) a -> cell (m_width m) b -> b <> 0 ->
  cell (m_width m) (a / b) -> cell (m_width m) (b + Z.rem a b) -> mod_ m a b k = k (a mod b).
Proof.
  intros m a b k Hw Ha Hb Hz Hd Hs. unfold mod_.
  rewrite arith_ok by (apply quot_cell; assumption).
  rewrite arith_ok by assumption. rewrite modulo_rem by assumption. reflexivity.
Qed.

Lemma wrapS_to_cell : forall b v, wrapS b v = to_cell b v.
Proof. reflexivity. Qed.

Lemma to_cell_id : forall b v, 1 < b -> cell b v -> to_cell b v = v.
Proof.
  unfold to_cell, cell; intros b v Hb H.
  assert (E : 2 ^ b = 2 * 2 ^ (b - 1)) by (rewrite <- Z.pow_succ_r by lia; f_equal; lia).
  rewrite Z.mod_small by lia. lia.
Qed.

Lemma rshift_spec : forall w a b, 1 < w -> cell w a -> 0 <= a -> 0 <= b < w -> to_cell w (a mod 2^w / 2^b) = Z.shiftr a b.
Proof.
  intros w a b Hw Ha Ha' Hb.
  assert (E : 2 ^ w = 2 * 2 ^ (w - 1)) by (rewrite <- Z.pow_succ_r by lia; f_equal; lia).
  assert (P : 0 < 2 ^ (w - 1)) by (apply Z.pow_pos_nonneg; lia).
  assert (P' : 0 < 2 ^ b) by (apply Z.pow_pos_nonneg; lia).
  unfold cell in *. rewrite Z.mod_small by lia. rewrite Z.shiftr_div_pow2 by lia.
  apply to_cell_id; [ lia | ]. unfold cell.
  assert (a / 2 ^ b <= a) by (apply Z.div_le_upper_bound; nia).
  assert (0 <= a / 2 ^ b) by (apply Z.div_pos; lia). lia.
Qed.

Ltac szlen := rewrite ?zlen_cons in *; change (zlen (@nil Z)) with 0 in *.

Lemma unary_eq : forall m f s a r, stk s = a :: r -> unary m f s = f a (fun v => XNext (set_stk (v :: r) s)).
Proof.
  intros m f s a r E. unfold unary, stack_cannot_pop. rewrite E. szlen. pose proof (zlen_nonneg r).
  destruct (Z.eqb_spec (zlen r + 1) 0); [ lia | reflexivity ].
Qed.

Lemma binary_eq : forall m f s a b r, stk s = b :: a :: r -> binary m f s = f a b (fun v => XNext (set_stk (v :: r) s)).
Proof.
  intros m f s a b r E. unfold binary, stack_cannot_pop2. rewrite E. szlen. pose proof (zlen_nonneg r).
  destruct (Z.ltb_spec (zlen r + 1 + 1) 2); [ lia | reflexivity ].
Qed.

Lemma divide_eq : forall m f s a b r, stk s = b :: a :: r -> divide m f s =
  if b =? 0 then fail e_division_by_zero (set_stk (a :: r) s) else f a b (fun v => XNext (set_stk (v :: r) s)).
Proof.
  intros m f s a b r E. unfold divide, stack_cannot_pop2. rewrite E. szlen. pose proof (zlen_nonneg r).
  destruct (Z.ltb_spec (zlen r + 1 + 1) 2); [ lia | reflexivity ].
Qed.

(** One word *)
Lemma exec_word : forall m single w f c s st',
  1 < m_width m -> In (w, f) (word_specs (m_width m)) -> assoc w generic_builtin_words = Some c ->
  Forall (cell (m_width m)) (stk s) -> 
  f (stk s) = Some st' -> Forall (cell (m_width m)) st' -> zlen st' <= m_stackmax m -> tame (m_width m) w (stk s) ->
  exec m single c s = XNext (set_stk st' s).
Proof.
  intros m single w f c s st' Hw Hin Hc Hst Hf Hst' Hmax' Ht.
  set (st := stk s) in *. pose proof (eq_refl : stk s = st) as E. clearbody st.
  Local Ltac cells := repeat match goal with H : Forall _ (_ :: _) |- _ => apply Forall_cons_iff in H; destruct H end.
  Local Ltac dir E := unfold exec; cbn -[zlen Z.pow Z.div Z.modulo];
    unfold pop_or_fail, pop2_or_fail, push_or_fail, stack_cannot_pop, stack_cannot_pop2, stack_cannot_pop3, stack_cannot_push,
      stack_pop, stack_pop2, stack_push; rewrite ?E; unfold set_stk; cbn [stk]; rewrite ?E; szlen;
    repeat match goal with
    | |- context [ if ?a =? ?b then _ else _ ] => destruct (Z.eqb_spec a b); [ exfalso; lia | ]
    | |- context [ if ?a <? ?b then _ else _ ] => destruct (Z.ltb_spec a b); try (exfalso; lia); []
    end; reflexivity.
  Local Ltac un st b Hf := destruct st as [ | b st ]; [ discriminate Hf | ]; injection Hf as <-.
  Local Ltac bi st a b Hf := destruct st as [ | b [ | a st ]]; [ discriminate Hf .. | ]; injection Hf as <-.
  cbn [In word_specs] in Hin.
  repeat destruct Hin as [ Hin | Hin ]; try contradiction; injection Hin as <- <-; cbn in Hc; injection Hc as <-;
    unfold spec1, spec2, spec_div, spec_shift in Hf.
  all: pose proof (zlen_nonneg st).
  - un st b Hf. pose proof (zlen_nonneg st). dir E.
  - un st b Hf. pose proof (zlen_nonneg st). dir E.
  - bi st a b Hf. pose proof (zlen_nonneg st). dir E.
  - bi st a b Hf. pose proof (zlen_nonneg st). dir E.
  - destruct st as [ | c [ | b [ | a st ]]]; [ discriminate Hf .. | ]; injection Hf as <-. pose proof (zlen_nonneg st). dir E.
  - bi st a b Hf. pose proof (zlen_nonneg st). dir E.
  - bi st a b Hf. pose proof (zlen_nonneg st). dir E.
  - bi st a b Hf. cells. unfold exec. cbn. rewrite (binary_eq _ _ _ _ _ _ E), arith_ok by assumption. reflexivity.
  - bi st a b Hf. cells. unfold exec. cbn. rewrite (binary_eq _ _ _ _ _ _ E), arith_ok by assumption. reflexivity.
  - bi st a b Hf. cells. unfold exec. cbn. rewrite (binary_eq _ _ _ _ _ _ E), arith_ok by assumption. reflexivity.
  - destruct st as [ | b [ | a st ]]; [ discriminate Hf .. | ]. destruct (Z.eqb_spec b 0); [ discriminate Hf | ].
    injection Hf as <-. cells. unfold exec. cbn. rewrite (divide_eq _ _ _ _ _ _ E).
    destruct (Z.eqb_spec b 0); [ lia | ]. rewrite div_ok by assumption. reflexivity.
  - destruct st as [ | b [ | a st ]]; [ discriminate Hf .. | ]. destruct (Z.eqb_spec b 0); [ discriminate Hf | ].
    injection Hf as <-. cells. unfold exec. cbn. rewrite (divide_eq _ _ _ _ _ _ E).
    destruct (Z.eqb_spec b 0); [ lia | ]. destruct Ht as [ Ht _ ]. destruct (Ht (or_introl eq_refl)).
    rewrite mod_ok by assumption. reflexivity.
  - destruct st as [ | b [ | a st ]]; [ discriminate Hf .. | ]. destruct (Z.eqb_spec b 0); [ discriminate Hf | ].
    injection Hf as <-. cbn [app] in *. cells. unfold exec. cbn. unfold stack_cannot_pop2. rewrite E. szlen. pose proof (zlen_nonneg st).
    destruct (Z.ltb_spec (zlen st + 1 + 1) 2); [ lia | ].
    destruct (Z.eqb_spec b 0); [ lia | ]. destruct Ht as [ Ht _ ]. destruct (Ht (or_intror eq_refl)).
    rewrite div_ok, mod_ok by assumption. reflexivity.
  - un st b Hf. cells. unfold exec. cbn. rewrite (unary_eq _ _ _ _ _ E), arith_ok by assumption. reflexivity.
  - un st b Hf. cells. unfold exec. cbn. rewrite (unary_eq _ _ _ _ _ E), arith_ok by assumption. reflexivity.
  - un st b Hf. cells. unfold exec. cbn. rewrite (unary_eq _ _ _ _ _ E), arith_ok by assumption. reflexivity.
  - un st b Hf. cells. unfold exec. cbn. rewrite (unary_eq _ _ _ _ _ E), arith_ok by assumption. reflexivity.
  - bi st a b Hf. apply (binary_eq m (fun a b k => k (Z.min a b)) _ _ _ _ E).
  - bi st a b Hf. apply (binary_eq m (fun a b k => k (Z.max a b)) _ _ _ _ E).
  - bi st a b Hf. apply (binary_eq m (fun a b k => k (bool_of (a =? b))) _ _ _ _ E).
  - bi st a b Hf. apply (binary_eq m (fun a b k => k (bool_of (negb (a =? b)))) _ _ _ _ E).
  - bi st a b Hf. unfold exec; cbn. rewrite (binary_eq _ _ _ _ _ _ E), Z.gtb_ltb. reflexivity.
  - bi st a b Hf. unfold exec; cbn. rewrite (binary_eq _ _ _ _ _ _ E), Z.geb_leb. reflexivity.
  - bi st a b Hf. apply (binary_eq m (fun a b k => k (bool_of (a <? b))) _ _ _ _ E).
  - bi st a b Hf. apply (binary_eq m (fun a b k => k (bool_of (a <=? b))) _ _ _ _ E).
  - un st b Hf. apply (unary_eq m (fun a k => k (bool_of (a =? 0))) _ _ _ E).
  - un st b Hf. unfold exec; cbn. rewrite (unary_eq _ _ _ _ _ E). unfold Z.lnot. do 3 f_equal. lia.
  - bi st a b Hf. apply (binary_eq m (fun a b k => k (Z.land a b)) _ _ _ _ E).
  - bi st a b Hf. apply (binary_eq m (fun a b k => k (Z.lor a b)) _ _ _ _ E).
  - bi st a b Hf. apply (binary_eq m (fun a b k => k (Z.lxor a b)) _ _ _ _ E).
  - destruct st as [ | b [ | a st ]]; [ discriminate Hf .. | ].
    destruct ((0 <=? b) && (b <? m_width m)) eqn:B; [ | discriminate Hf ]. injection Hf as <-.
    unfold exec; cbn. rewrite (binary_eq _ _ _ _ _ _ E). unfold lshift_. rewrite B.
    rewrite Z.shiftl_mul_pow2 by lia. reflexivity.
  - destruct st as [ | b [ | a st ]]; [ discriminate Hf .. | ].
    destruct ((0 <=? b) && (b <? m_width m)) eqn:B; [ | discriminate Hf ]. injection Hf as <-. cells.
    unfold exec; cbn. rewrite (binary_eq _ _ _ _ _ _ E). unfold rshift_. rewrite B.
    destruct Ht as [ _ Ht ]. rewrite rshift_spec; [ reflexivity | assumption | assumption | auto | lia ].
  - injection Hf as <-. dir E.
  - injection Hf as <-. dir E.
Qed.

(** ** Programs made of these words only *)
Definition p_empty : pst := mkPst [] [] [] [] [] [[]].

Lemma parse_words : forall bits ws st st' max, words_run bits max ws st st' -> forall fuel code, (List.length ws < fuel)%nat ->
  exists cs, parse fuel "" ws code 0 0 p_empty = Ok (code ++ cs, p_empty)
    /\ Forall2 (fun w c => assoc w generic_builtin_words = Some c) ws cs.
Proof.
  induction 1 as [ st | w f ws st st1 st2 Hin Hf Hc Hm Ht Hr IH ]; intros fuel code L.
  - exists []. destruct fuel; [ cbn in L; lia | ]. cbn [parse]. rewrite app_nil_r. split; [ reflexivity | constructor ].
  - destruct fuel; [ cbn in L; lia | ]. cbn [List.length] in L.
    assert (exists c, assoc w generic_builtin_words = Some c
              /\ parse (S fuel) "" (w :: ws) code 0 0 p_empty = parse fuel "" ws (code ++ [c]) 0 0 p_empty) as (c & A & P).
    { clear - Hin. cbn [In word_specs] in Hin.
      repeat destruct Hin as [ Hin | Hin ]; try contradiction; injection Hin as <- <-; eexists; split; reflexivity. }
    rewrite P. destruct (IH fuel (code ++ [c]) ltac:(lia)) as (cs & E & F).
    exists (c :: cs). rewrite E, <- app_assoc. split; [ reflexivity | constructor; assumption ].
Qed.

Lemma run_words : forall bits max ws st st', words_run bits max ws st st' ->
  forall m, bits = m_width m -> max = m_stackmax m -> 1 < bits ->
  forall cs pre, Forall2 (fun w c => assoc w generic_builtin_words = Some c) ws cs ->
  m_code m = pre ++ cs -> m_offs m = [0; zlen (m_code m)] -> Forall (cell bits) st ->
  forall s, stk s = st -> frames s = [(0, zlen pre)] -> dos s = [] -> forall inner,
  exists s', trips m false 0 (List.length ws) inner s = TGo (match ws with [] => inner | _ => true end) s'
    /\ stk s' = st' /\ frames s' = [(0, zlen (m_code m))] /\ dos s' = [] /\ err s' = err s /\ ready s' = ready s
    /\ targets s' = targets s.
Proof.
  induction 1 as [ st | w f ws st st1 st2 Hin Hf Hc Hm Ht Hr IH ]; intros m Eb Em Hb cs pre F2 Ec Eo Hst s Es Ef Ed inner.
  - inversion F2; subst cs. exists s. rewrite Ec, app_nil_r. repeat split; assumption.
  - inversion F2 as [ | ? c ? cs' A F2' ]; subst.
    assert (X : exec m false c (where_add 1 s) = XNext (set_stk st1 (where_add 1 s))).
    { assert (Es : stk (where_add 1 s) = stk s) by (unfold where_add; rewrite Ef; reflexivity).
      apply exec_word with w f; rewrite ?Es; assumption. }
    assert (T : tick m false 0 inner s = TGo true (count_instr (set_stk st1 (where_add 1 s)))).
    { eapply tick_go with (w := 0) (p := zlen pre) (a := 0) (n := zlen (m_code m)); try exact X.
      - rewrite Ef. reflexivity.
      - rewrite Eo. reflexivity.
      - rewrite Eo. reflexivity.
      - rewrite Ec, zlen_app, zlen_cons. pose proof (zlen_nonneg cs'). lia.
      - rewrite Ec. rewrite Z.add_0_l, nthZ_app, Z.ltb_irrefl, Z.sub_diag by (pose proof (zlen_nonneg pre); lia). reflexivity.
      - unfold in_do. rewrite Ed. reflexivity.
      - right. unfold depth. rewrite Ef. discriminate. }
    destruct (IH m eq_refl eq_refl Hb cs' (pre ++ [c]) F2' ltac:(rewrite <- app_assoc; exact Ec) Eo Hc
                (count_instr (set_stk st1 (where_add 1 s))) eq_refl) with (inner := true)
      as (s' & T' & R1 & R2 & R3 & R4 & R5 & R6).
    + unfold where_add; rewrite Ef; cbn. rewrite zlen_app. reflexivity.
    + unfold where_add; rewrite Ef; cbn. assumption.
    + exists s'. cbn [List.length trips]. rewrite T, T'.
      repeat split; try assumption.
      * destruct ws; reflexivity.
      * rewrite R4. unfold where_add; rewrite Ef; reflexivity.
      * rewrite R5. unfold where_add; rewrite Ef; reflexivity.
      * rewrite R6. unfold where_add; rewrite Ef; reflexivity.
Qed.
