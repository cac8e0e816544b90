(** Lemmas for C27: instructions which do not jump keep the data inside their arrays *)
From Verif Require Import Base BaseLemmas Forth SpecForth SpecForthSafe PForthOut PForthRead PForthRead2 PForthStep.
Local Open Scope list_scope.
Local Open Scope Z_scope.

Definition in_ok (b : inbuf) : Prop := 0 <= ipos b <= zlen (idata b) /\ Forall is_byte (idata b).
Definition out_ok (b : outbuf) : Prop := exists vs, good b vs.

Record dok (m : machine) (nin : Z) (s : state) : Prop := mkDok {
  k_stk : zlen (stk s) <= m_stackmax m;
  k_vars : zlen (vars s) = m_nvars m;
  k_nin : zlen (ins s) = nin;
  k_ins : Forall in_ok (ins s);
  k_nout : zlen (outs s) = zlen (m_outs m);
  k_outs : Forall out_ok (outs s)
}.

Definition safe (P : state -> Prop) (r : xres) : Prop :=
  match r with XBad Memory => False | XBad _ => True | XNext s | XRet s | XExit s => P s end.

Lemma nthZ_Forall : forall {A} (P : A -> Prop) l i x, Forall P l -> nthZ l i = Some x -> P x.
Proof. intros A P l i x H Hx. apply nthZ_In in Hx. rewrite Forall_forall in H. auto. Qed.
Lemma Forall_upd : forall {A} (P : A -> Prop) l n x, Forall P l -> P x -> Forall P (upd l n x).
Proof. induction l; destruct n; cbn [upd]; intros; auto; inversion H; subst; constructor; auto. Qed.
Lemma nthZ_some : forall {A} (l : list A) i, 0 <= i < zlen l -> exists x, nthZ l i = Some x.
Proof. intros A l i H. destruct (nthZ l i) eqn:E; [ eauto | ]. apply nthZ_None in E. lia. Qed.

(** the operand of an instruction with one operand *)
Definition operand_in (nv ni no ns : Z) (c n : Z) : Prop :=
  c = 0 \/ c = 24 \/ (11 <= c <= 13 /\ 0 <= n < nv) \/ (14 <= c <= 18 /\ 0 <= n < ni)
  \/ (19 <= c <= 23 /\ 0 <= n < no) \/ (c = 25 /\ 0 <= n < ns).

Section Data.
Variable m : machine.
Variable nin : Z.
Notation dok := (dok m nin).
Notation safe := (safe dok).

Lemma dok_frames : forall v s, dok s -> dok (set_frames v s). Proof. intros v s []; split; assumption. Qed.
Lemma dok_dos : forall v s, dok s -> dok (set_dos v s). Proof. intros v s []; split; assumption. Qed.
Lemma dok_err : forall v s, dok s -> dok (set_err v s). Proof. intros v s []; split; assumption. Qed.
Lemma dok_targets : forall v s, dok s -> dok (set_targets v s). Proof. intros v s []; split; assumption. Qed.
Lemma dok_where : forall d s, dok s -> dok (where_add d s).
Proof. intros d s H. unfold where_add. destruct (frames s) as [|[]]; [ exact H | apply dok_frames; exact H ]. Qed.
Lemma dok_count : forall s, dok s -> dok (count_instr s). Proof. intros s []; split; assumption. Qed.
Lemma dok_countr : forall s, dok s -> dok (count_read s). Proof. intros s []; split; assumption. Qed.
Lemma dok_countw : forall s, dok s -> dok (count_write s). Proof. intros s []; split; assumption. Qed.
Lemma dok_stk : forall r s, dok s -> zlen r <= m_stackmax m -> dok (set_stk r s).
Proof. intros r s [] H; split; assumption. Qed.
Lemma dok_var : forall r s, dok s -> zlen r = m_nvars m -> dok (set_vars r s).
Proof. intros r s [] H; split; assumption. Qed.
Lemma dok_in : forall i b s, dok s -> in_ok b -> dok (set_in i b s).
Proof.
  intros i b s [] H; split; cbn; auto.
  - rewrite zlen_upd. assumption.
  - apply Forall_upd; assumption.
Qed.
Lemma dok_out : forall i b s, dok s -> out_ok b -> dok (set_out i b s).
Proof.
  intros i b s [] H; split; cbn; auto.
  - rewrite zlen_upd. assumption.
  - apply Forall_upd; assumption.
Qed.

Lemma fail_safe : forall e s, dok s -> safe (fail e s). Proof. intros. apply dok_err. assumption. Qed.

Lemma push_safe : forall v s f, dok s -> (forall s', dok s' -> safe (f s')) -> safe (push_or_fail m v s f).
Proof.
  intros v s f H Hf. unfold push_or_fail, stack_cannot_push, stack_push. pose proof (k_stk _ _ _ H).
  destruct (Z.eqb_spec (zlen (stk s)) (m_stackmax m)); [ apply fail_safe; assumption | ].
  destruct (Z.ltb_spec (zlen (stk s)) (m_stackmax m)); [ | lia ].
  apply Hf, dok_stk; [ assumption | rewrite zlen_cons; lia ].
Qed.
(** after the test for room *)
Lemma push_room : forall v s f, dok s -> stack_cannot_push m s = false -> (forall s', dok s' -> safe (f s')) -> safe (stack_push m v s f).
Proof.
  intros v s f H E Hf. unfold stack_cannot_push in E. unfold stack_push. pose proof (k_stk _ _ _ H).
  destruct (Z.eqb_spec (zlen (stk s)) (m_stackmax m)); [ discriminate | ].
  destruct (Z.ltb_spec (zlen (stk s)) (m_stackmax m)); [ | lia ].
  apply Hf, dok_stk; [ assumption | rewrite zlen_cons; lia ].
Qed.
Lemma pop_safe : forall s f, dok s -> (forall x r, stk s = x :: r -> safe (f x (set_stk r s))) -> safe (pop_or_fail s f).
Proof.
  intros s f H Hf. unfold pop_or_fail, stack_cannot_pop, stack_pop.
  destruct (stk s) as [|x r] eqn:E; [ apply fail_safe; assumption | ].
  destruct (Z.eqb_spec (zlen (x :: r)) 0); [ rewrite zlen_cons in *; pose proof (zlen_nonneg r); lia | ].
  apply Hf. reflexivity.
Qed.
Lemma dok_pop : forall x r s, dok s -> stk s = x :: r -> dok (set_stk r s).
Proof. intros x r s H E. apply dok_stk; [ assumption | ]. pose proof (k_stk _ _ _ H). rewrite E, zlen_cons in *. lia. Qed.
Lemma pop2_safe : forall s f, dok s -> (forall x y s', dok s' -> dos s' = dos s -> frames s' = frames s -> safe (f x y s')) -> safe (pop2_or_fail s f).
Proof.
  intros s f H Hf. unfold pop2_or_fail, stack_cannot_pop2, stack_pop2.
  destruct (Z.ltb_spec (zlen (stk s)) 2); [ apply fail_safe; assumption | ].
  destruct (stk s) as [|x [|y r]] eqn:E; [ rewrite ?zlen_cons, ?zlen_nil in *; lia .. | ].
  apply Hf; [ | reflexivity | reflexivity ]. apply dok_stk; [ assumption | ]. pose proof (k_stk _ _ _ H). rewrite E, !zlen_cons in *. lia.
Qed.

(** ** Inputs *)
Lemma read_safe : forall i n s f, dok s -> 0 <= i < nin -> 0 <= n ->
  (forall p b s', dok s' -> nthZ (ins s') i = Some b -> 0 <= p -> p + n <= zlen (idata b) ->
     frames s' = frames s -> stk s' = stk s -> safe (f p s')) -> safe (read_ i n s f).
Proof.
  intros i n s f H Hi Hn Hf. unfold read_.
  destruct (nthZ_some (ins s) i) as [b Eb]; [ rewrite (k_nin _ _ _ H); lia | ]. rewrite Eb.
  pose proof (nthZ_Forall _ _ _ _ (k_ins _ _ _ H) Eb) as [Hp Hb].
  destruct (negb _); [ exact I | ].
  destruct (Z.ltb_spec (zlen (idata b)) (ipos b + n)); [ apply fail_safe; assumption | ].
  apply Hf with (mkIn (idata b) (ipos b + n)); try reflexivity; try (cbn; lia).
  - apply dok_in; [ assumption | ]. split; cbn; [ lia | assumption ].
  - eapply in_set_in. exact Eb.
Qed.
Lemma byte_safe : forall i p s b, dok s -> nthZ (ins s) i = Some b -> 0 <= p -> p + 1 <= zlen (idata b) ->
  exists v, byte_at i p s = Some v /\ is_byte v.
Proof.
  intros i p s b H Eb H0 H1. unfold byte_at. rewrite Eb.
  destruct (nthZ_some (idata b) p) as [v Ev]; [ lia | ]. exists v. split; [ exact Ev | ].
  pose proof (nthZ_Forall _ _ _ _ (k_ins _ _ _ H) Eb) as [_ Hb]. exact (nthZ_Forall _ _ _ _ Hb Ev).
Qed.
Lemma items_safe : forall n i p size s b, nthZ (ins s) i = Some b -> 0 <= p -> 0 <= size -> p + Z.of_nat n * size <= zlen (idata b) ->
  exists l, items_at n i p size s = Some l /\ List.length l = n.
Proof.
  induction n; intros i p size s b Eb Hp Hs Hn; cbn [items_at].
  - exists []. split; reflexivity.
  - unfold bytes_at. rewrite Eb.
    destruct (IHn i (p + size) size s b Eb ltac:(lia) Hs ltac:(nia)) as (l & -> & Hl).
    destruct (Z.leb_spec 0 p); [ | lia ]. destruct (Z.leb_spec (p + size) (zlen (idata b))); [ | nia ]. cbn.
    eexists. split; [ reflexivity | ]. cbn. congruence.
Qed.

(** ** Outputs *)
Definition osafe (r : ores) : Prop :=
  match r with OOk b => out_ok b | OBeyond => True | OBad Memory => False | OBad _ => True end.

Lemma with_out_safe : forall o g s f, dok s -> 0 <= o < zlen (m_outs m) -> (forall b, out_ok b -> osafe (g b)) ->
  (forall s', dok s' -> safe (f s')) -> safe (with_out o g s f).
Proof.
  intros o g s f H Ho Hg Hf. unfold with_out.
  destruct (nthZ_some (outs s) o) as [b Eb]; [ rewrite (k_nout _ _ _ H); lia | ]. rewrite Eb.
  pose proof (Hg b (nthZ_Forall _ _ _ _ (k_outs _ _ _ H) Eb)) as Hs. unfold osafe in Hs.
  destruct (g b) as [b'| |x].
  - apply Hf, dok_out; assumption.
  - apply fail_safe; assumption.
  - destruct x; auto.
Qed.

Lemma grow_loop_enough : forall fuel g next r r', grow_loop fuel g next r = Some r' -> next <= r'.
Proof.
  induction fuel; intros g next r r' H; cbn [grow_loop] in H; destruct (Z.leb_spec next r); try (inversion H; lia).
  eapply IHfuel. exact H.
Qed.
Lemma resize_cases : forall next b f, maybe_resize m next b f = OBad Hang \/
  exists ext, next <= zlen (cells b ++ ext) /\ maybe_resize m next b f = f (mkOut (otype b) (cells b ++ ext) (olen b)).
Proof.
  intros next b f. unfold maybe_resize. destruct (Z.ltb_spec (reserved b) next).
  - destruct (grow_loop _ _ _ _) as [r|] eqn:E; [ right | left; reflexivity ].
    apply grow_loop_enough in E. eexists. split; [ | reflexivity ].
    unfold reserved in *. rewrite zlen_app, zlen_repeat by lia. lia.
  - right. exists []. rewrite app_nil_r. split; [ exact H | ]. destruct b; reflexivity.
Qed.

(** storing vs after base *)
Lemma store_all_safe : forall vs base ext ty n (f : outbuf -> ores) , zlen (map Some base ++ ext) >= zlen base + zlen vs ->
  (forall b', cells b' = map Some (base ++ vs) ++ skipn (List.length vs) ext -> olen b' = n -> otype b' = ty -> osafe (f b')) ->
  osafe (store_all (zlen base) vs (mkOut ty (map Some base ++ ext) n) f).
Proof.
  induction vs as [|v vs IH]; intros base ext ty n f Hr Hf; cbn [store_all].
  - apply Hf; [ cbn [cells List.length skipn]; rewrite app_nil_r; reflexivity | reflexivity | reflexivity ].
  - rewrite zlen_app, zlen_map, zlen_cons in Hr. pose proof (zlen_nonneg vs). pose proof (zlen_nonneg base).
    destruct ext as [|e ext]; [ rewrite zlen_nil in Hr; lia | ]. rewrite zlen_cons in Hr.
    unfold store, reserved. cbn [cells]. rewrite zlen_app, zlen_map, zlen_cons.
    pose proof (zlen_nonneg ext).
    destruct (Z.leb_spec 0 (zlen base)); [ | lia ]. destruct (Z.ltb_spec (zlen base) (zlen base + (zlen ext + 1))); [ | lia ]. cbn [andb].
    cbn [otype olen]. 
    replace (upd (map Some base ++ e :: ext) (Z.to_nat (zlen base)) (Some v)) with (map Some (base ++ [v]) ++ ext).
    + replace (zlen base + 1) with (zlen (base ++ [v])) by (rewrite zlen_app, zlen_cons, zlen_nil; lia).
      apply IH.
      * rewrite !zlen_app, zlen_map, zlen_app, zlen_cons, zlen_nil. lia.
      * intros b' Hb. apply Hf. cbn [List.length skipn]. rewrite Hb, <- app_assoc. reflexivity.
    + replace (Z.to_nat (zlen base)) with (List.length (map (@Some Z) base)) by (rewrite map_length; unfold zlen; lia).
      rewrite upd_app_mid, map_app, <- app_assoc. reflexivity.
Qed.
Lemma good_of : forall b vs rest, cells b = map Some vs ++ rest -> olen b = zlen vs -> out_ok b.
Proof. intros b vs rest H1 H2. exists vs. apply good_parts. exists rest. split; assumption. Qed.

Lemma write_copy_safe : forall vs b, out_ok b -> osafe (write_copy m vs b).
Proof.
  intros vs b [base G]. apply good_parts in G. destruct G as (rest & Ec & El). unfold write_copy.
  destruct (resize_cases (olen b + zlen vs) b (fun b0 => store_all (olen b0) vs b0 (fun b1 => OOk (set_olen (olen b + zlen vs) b1))))
    as [-> | (ext & Hl & ->)]; [ exact I | ].
  rewrite Ec, <- app_assoc in *. cbn [olen]. rewrite El in *.
  apply store_all_safe; [ lia | ].
  intros b' Hc _ _. eapply good_of with (vs := base ++ vs); [ exact Hc | ]. cbn. rewrite zlen_app. reflexivity.
Qed.
Lemma write_one_safe : forall v b, out_ok b -> osafe (write_one m v b).
Proof.
  intros v b [base G]. apply good_parts in G. destruct G as (rest & Ec & El). unfold write_one.
  destruct (resize_cases (olen (set_olen (olen b + 1) b)) (set_olen (olen b + 1) b) (fun b0 => store (olen b0 - 1) v b0 OOk))
    as [-> | (ext & Hl & ->)]; [ exact I | ].
  cbn [olen set_olen cells otype] in *. rewrite Ec, <- app_assoc in *. rewrite El in *.
  replace (zlen base + 1 - 1) with (zlen base) by lia.
  change (osafe (store_all (zlen base) [v] (mkOut (otype b) (map Some base ++ rest ++ ext) (zlen base + 1)) OOk)).
  apply store_all_safe; [ rewrite zlen_cons, zlen_nil; lia | ].
  intros b' Hc Hn _. eapply good_of with (vs := base ++ [v]); [ exact Hc | ]. rewrite zlen_app, zlen_cons, zlen_nil, Hn. lia.
Qed.
Lemma odup_safe : forall n b, out_ok b -> osafe (odup m n b).
Proof.
  intros n b [base G]. unfold odup. destruct (Z.eqb_spec (olen b) 0); [ exact I | ].
  destruct (Z.ltb_spec 0 n); [ | exists base; exact G ].
  destruct (rev base) as [|v rb] eqn:Er.
  { apply (f_equal (@rev _)) in Er. rewrite rev_involutive in Er. cbn in Er. subst. apply good_parts in G. destruct G as (? & _ & E). rewrite zlen_nil in E. lia. }
  assert (Eb : base = rev rb ++ [v]) by (rewrite <- (rev_involutive base), Er; reflexivity).
  apply good_parts in G. destruct G as (rest & Ec & El).
  match goal with |- osafe (maybe_resize m ?n ?b ?f) => destruct (resize_cases n b f) as [-> | (ext & Hl & ->)]; [ exact I | ] end.
  rewrite Ec, <- app_assoc in *. cbn [olen]. rewrite El in *.
  assert (Hv : nthZ (map Some base ++ rest ++ ext) (zlen base - 1) = Some (Some v)).
  { rewrite nthZ_app, zlen_map by (rewrite Eb, zlen_app, zlen_cons, zlen_nil; pose proof (zlen_nonneg (rev rb)); lia). destruct (Z.ltb_spec (zlen base - 1) (zlen base)); [ | lia ]. rewrite Eb. rewrite map_app. rewrite zlen_app, zlen_cons, zlen_nil.
    replace (zlen (rev rb) + (0 + 1) - 1) with (zlen (map (@Some Z) (rev rb))) by (rewrite zlen_map; lia). apply nthZ_at. }
  unfold load. cbn [cells]. rewrite Hv.
  apply store_all_safe; [ rewrite zlen_repeat by lia; lia | ].
  intros b' Hc _ _. eapply good_of with (vs := base ++ repeat v (Z.to_nat n)); [ exact Hc | ]. cbn. rewrite zlen_app, zlen_repeat by lia. lia.
Qed.
Lemma orewind_safe : forall n b, 0 <= n -> out_ok b -> osafe (orewind n b).
Proof.
  intros n b Hn [base G]. destruct (rewind_ok b base n Hn G) as [-> H2].
  destruct (Z.ltb_spec (zlen base) n); [ exact I | ]. eexists. apply H2. lia.
Qed.
Lemma owrite_add_safe : forall x b, out_ok b -> osafe (owrite_add m x b).
Proof.
  intros x b Hb. assert (Hfin : forall prev, osafe (maybe_resize m (olen (set_olen (olen b + 1) b)) (set_olen (olen b + 1) b)
       (fun b0 => match oadd m (otype b0) prev (cast_out m (otype b0) x) with
                  | Some v => store (olen b0 - 1) v b0 OOk | None => OBad Arith end))).
  { destruct Hb as [base G]. apply good_parts in G. destruct G as (rest & Ec & El). intro prev.
    match goal with |- osafe (maybe_resize m ?n ?b ?f) => destruct (resize_cases n b f) as [-> | (ext & Hl & ->)]; [ exact I | ] end.
    cbn [olen set_olen cells otype] in *. rewrite Ec, <- app_assoc in *. rewrite El in *.
    destruct (oadd _ _ _ _) as [v|]; [ | exact I ].
    replace (zlen base + 1 - 1) with (zlen base) by lia.
    change (osafe (store_all (zlen base) [v] (mkOut (otype b) (map Some base ++ rest ++ ext) (zlen base + 1)) OOk)).
    apply store_all_safe; [ rewrite zlen_cons, zlen_nil; lia | ].
    intros b' Hc Hn _. eapply good_of with (vs := base ++ [v]); [ exact Hc | ]. rewrite zlen_app, zlen_cons, zlen_nil, Hn. lia. }
  unfold owrite_add. destruct (Z.eqb_spec (olen b) 0); [ apply Hfin | ].
  destruct Hb as [base G]. destruct (rev base) as [|v rb] eqn:Er.
  { apply (f_equal (@rev _)) in Er. rewrite rev_involutive in Er. cbn in Er. subst. apply good_parts in G. destruct G as (? & _ & E). rewrite zlen_nil in E. lia. }
  assert (Eb : base = rev rb ++ [v]) by (rewrite <- (rev_involutive base), Er; reflexivity).
  rewrite Eb in G. rewrite (load_last _ _ _ _ G). apply Hfin.
Qed.

(** ** Reading *)
Lemma emit_safe : forall dst a b s f, dok s -> (forall o, dst = Some o -> 0 <= o < zlen (m_outs m)) ->
  (forall s', dok s' -> safe (f s')) -> safe (emit m dst a b s f).
Proof.
  intros [o|] a b s f H Ho Hf; cbn [emit].
  - apply with_out_safe; auto. intros. apply write_one_safe; assumption.
  - apply push_safe; assumption.
Qed.
Lemma varint_bytes_safe : forall fuel i sh r s f, dok s -> 0 <= i < nin -> (forall v s', dok s' -> safe (f v s')) ->
  safe (varint_bytes fuel i sh r s f).
Proof.
  induction fuel; intros i sh r s f H Hi Hf; cbn [varint_bytes]; [ exact I | ].
  apply read_safe; [ assumption | assumption | lia | ]. intros p b s' H' Eb Hp Hp' _ _.
  destruct (sh =? 7 * 9); [ apply fail_safe; assumption | ].
  destruct (byte_safe i p s' b H' Eb Hp Hp') as (v & -> & _).
  destruct (Z.testbit v 7); [ apply IHfuel; assumption | apply Hf; assumption ].
Qed.
Lemma varint_items_safe : forall n zz i dst s f, dok s -> 0 <= i < nin -> (forall o, dst = Some o -> 0 <= o < zlen (m_outs m)) ->
  (forall s', dok s' -> safe (f s')) -> safe (varint_items m n zz i dst s f).
Proof.
  induction n; intros zz i dst s f H Hi Ho Hf; cbn [varint_items]; [ auto | ].
  apply varint_bytes_safe; [ assumption | assumption | ]. intros v s' H'.
  destruct zz; apply emit_safe; auto.
Qed.
Lemma nbit_byte_safe : forall flip i s f, dok s -> 0 <= i < nin -> (forall v s', dok s' -> safe (f v s')) -> safe (nbit_byte flip i s f).
Proof.
  intros flip i s f H Hi Hf. unfold nbit_byte. apply read_safe; [ assumption | assumption | lia | ].
  intros p b s' H' Eb Hp Hp' _ _. destruct (byte_safe i p s' b H' Eb Hp Hp') as (v & -> & Hv).
  destruct flip; [ rewrite (bitswap_mirror v Hv) | ]; apply Hf; assumption.
Qed.
Lemma nbit_loop_safe : forall fuel flip w i dst l r items data s f, dok s -> 0 <= i < nin -> (forall o, dst = Some o -> 0 <= o < zlen (m_outs m)) ->
  (forall s', dok s' -> safe (f s')) -> safe (nbit_loop fuel m flip w i dst l r items data s f).
Proof.
  induction fuel; intros flip w i dst l r items data s f H Hi Ho Hf; cbn [nbit_loop]; (destruct (items =? 0); [ apply Hf; assumption | ]); [ exact I | ].
  destruct (8 <=? r); [ apply IHfuel; assumption | ]. destruct (w <=? l - r).
  - apply emit_safe; auto.
  - apply nbit_byte_safe; [ assumption | assumption | ]. intros. destruct (64 <=? l); [ exact I | auto ].
Qed.
Lemma read_nbit_safe : forall flip w i dst n s f, dok s -> 0 <= i < nin -> (forall o, dst = Some o -> 0 <= o < zlen (m_outs m)) ->
  (forall s', dok s' -> safe (f s')) -> safe (read_nbit m flip w i dst n s f).
Proof.
  intros. unfold read_nbit. destruct (_ || _)%bool; [ exact I | ]. destruct (n =? 0); [ auto | ].
  apply nbit_byte_safe; [ assumption | assumption | ]. intros. apply nbit_loop_safe; auto.
Qed.
Lemma push_items_safe : forall items fm be s f, dok s -> (forall s', dok s' -> safe (f s')) -> safe (push_items m fm be items s f).
Proof.
  induction items; intros fm be s f H Hf; cbn [push_items]; [ auto | ].
  destruct (item_to_stack _ _ _ _); [ | exact I ]. apply push_safe; auto.
Qed.
Lemma read_to_stack_safe : forall fm be i n s f, dok s -> 0 <= i < nin -> 0 <= n -> 0 <= fmt_size fm -> (forall s', dok s' -> safe (f s')) ->
  safe (read_to_stack m fm be i n s f).
Proof.
  intros fm be i n s f H Hi Hn Hsz Hf. unfold read_to_stack. destruct (negb _); [ exact I | ].
  apply read_safe; [ assumption | assumption | nia | ]. intros p b s' H' Eb Hp Hp' _ _.
  destruct (items_safe (Z.to_nat n) i p (fmt_size fm) s' b Eb Hp Hsz) as (l & -> & _); [ rewrite Z2Nat.id by lia; lia | ].
  apply push_items_safe; assumption.
Qed.
Lemma optmap_length : forall {A B} (g : A -> option B) l ys, optmap g l = Some ys -> List.length ys = List.length l.
Proof.
  induction l; cbn; intros ys E; [ inversion E; reflexivity | ].
  destruct (g a); [ | discriminate ]. destruct (optmap g l) eqn:E'; [ | discriminate ]. inversion E. cbn. f_equal. auto.
Qed.
Lemma read_direct_safe : forall fm be i o n s f, dok s -> 0 <= i < nin -> 0 <= o < zlen (m_outs m) -> 0 <= n -> 0 <= fmt_size fm ->
  (forall s', dok s' -> safe (f s')) -> safe (read_direct m fm be i o n s f).
Proof.
  intros fm be i o n s f H Hi Ho Hn Hsz Hf. unfold read_direct. destruct (negb _); [ exact I | ].
  apply read_safe; [ assumption | assumption | nia | ]. intros p b s' H' Eb Hp Hp' _ _.
  destruct (Z.ltb_spec n 0); [ lia | ].
  destruct (items_safe (Z.to_nat n) i p (fmt_size fm) s' b Eb Hp Hsz) as (l & -> & Hl); [ rewrite Z2Nat.id by lia; lia | ].
  apply with_out_safe; auto. intros c Hc.
  destruct (optmap _ l) as [vs|] eqn:Em; [ | exact I ]. apply optmap_length in Em.
  destruct (Z.eqb_spec n 1).
  - subst n. destruct vs as [|v [|]]; cbn in *; try lia. apply write_one_safe; assumption.
  - apply write_copy_safe; assumption.
Qed.
Lemma fmt_size_nonneg : forall c fm, fmt_of c = Some fm -> 0 <= fmt_size fm.
Proof.
  intros c fm E. unfold fmt_of in E.
  repeat match type of E with (if ?b then _ else _) = _ => destruct b; [ inversion E; subst; cbn; lia | ] end. discriminate.
Qed.

Lemma get_where_stk : forall r d s, bytecode_get m (where_add d (set_stk r s)) = bytecode_get m (where_add d s).
Proof. intros. rewrite where_add_set_stk, get_set_stk. reflexivity. Qed.

(** a reading instruction, after its bytecode was read *)
Lemma exec_read_safe : forall single direct rep be format i w o s, dok s -> In format formats -> 0 <= i < nin ->
  (direct = true -> 0 <= o < zlen (m_outs m)) ->
  bytecode_get m s = Some i ->
  (format = READ_NBIT -> bytecode_get m (where_add 1 s) = Some w) ->
  (direct = true -> bytecode_get m (where_add (if format =? READ_NBIT then 2 else 1) s) = Some o) ->
  (rep = true -> fmt_of format <> None -> ~ negative_top s) ->
  safe (exec m single (Z.lnot (read_flags direct rep be format)) s).
Proof.
  intros single direct rep be format i w o s H Hf Hi Ho E1 E2 E3 Hr.
  destruct (flags_decode direct rep be format Hf) as (F0 & F1 & F2 & F3 & F4).
  unfold exec. rewrite F4. unfold exec_read. rewrite F0, F1, F2, F3.
  rewrite (operand_ok _ _ _ _ E1).
  assert (Hd : forall s', dok s' -> safe (XNext (count_read s'))) by (intros; apply dok_countr; assumption).
  assert (Hmain : forall n r, zlen r <= m_stackmax m -> (fmt_of format <> None -> 0 <= n) ->
    forall s0, s0 = set_stk r (where_add 1 s) ->
    safe (if (format =? READ_VARINT) || (format =? READ_ZIGZAG) then
    if direct
    then operand m s0 (fun out_num s =>
           varint_items m (Z.to_nat n) (format =? READ_ZIGZAG) i (Some out_num) s (fun s => XNext (count_read s)))
    else varint_items m (Z.to_nat n) (format =? READ_ZIGZAG) i None s0 (fun s => XNext (count_read s))
  else if format =? READ_NBIT then
    operand m s0 (fun bit_width s =>
    if direct
    then operand m s (fun out_num s => read_nbit m be bit_width i (Some out_num) n s (fun s => XNext (count_read s)))
    else read_nbit m be bit_width i None n s (fun s => XNext (count_read s)))
  else if direct then
    operand m s0 (fun out_num s =>
    match fmt_of format with
    | Some f => read_direct m f be i out_num n s (fun s => XNext (count_read (count_write s)))
    | None => XNext (count_read (count_write s))
    end)
  else
    match fmt_of format with
    | Some f => read_to_stack m f be i n s0 (fun s => XNext (count_read s))
    | None => XNext (count_read s0)
    end)).
  { intros n r Hlr Hn s0 ->. set (s0 := set_stk r (where_add 1 s)).
    assert (H0 : dok s0) by (apply dok_stk; [ apply dok_where; assumption | assumption ]).
    assert (G : forall d, bytecode_get m (where_add d s0) = bytecode_get m (where_add (1 + d) s)).
    { intro d. unfold s0. rewrite get_where_stk, where_add_add. reflexivity. }
    assert (G0 : bytecode_get m s0 = bytecode_get m (where_add 1 s)) by (unfold s0; apply get_set_stk).
    destruct ((format =? READ_VARINT) || (format =? READ_ZIGZAG))%bool eqn:Ev.
    - assert (format =? READ_NBIT = false) as En by (apply Bool.orb_true_iff in Ev; destruct Ev as [Ev|Ev]; apply Z.eqb_eq in Ev; subst format; reflexivity).
      rewrite En in E3. destruct direct.
      + rewrite (operand_ok m s0 o) by (rewrite G0; apply E3; reflexivity).
        apply varint_items_safe; auto. { apply dok_where; assumption. } intros o' Eo. inversion Eo. subst. auto.
      + apply varint_items_safe; auto. discriminate.
    - destruct (Z.eqb_spec format READ_NBIT) as [En|En].
      + rewrite (operand_ok m s0 w) by (rewrite G0; auto).
        destruct direct.
        * rewrite (operand_ok m (where_add 1 s0) o) by (rewrite G; auto).
          apply read_nbit_safe; auto. { do 2 apply dok_where; assumption. } intros o' Eo. inversion Eo. subst. auto.
        * apply read_nbit_safe; auto. { apply dok_where; assumption. } discriminate.
      + destruct direct.
        * rewrite (operand_ok m s0 o) by (rewrite G0; auto).
          destruct (fmt_of format) as [fm|] eqn:Ef.
          -- apply read_direct_safe; auto; [ apply dok_where; assumption | apply Hn; discriminate | eapply fmt_size_nonneg; eauto | ].
             intros. apply dok_countr, dok_countw; assumption.
          -- apply dok_countr, dok_countw, dok_where; assumption.
        * destruct (fmt_of format) as [fm|] eqn:Ef.
          -- apply read_to_stack_safe; auto; [ apply Hn; discriminate | eapply fmt_size_nonneg; eauto ].
          -- apply dok_countr; assumption. }
  destruct rep.
  - apply pop_safe; [ apply dok_where; assumption | ]. intros x r Ex. apply (Hmain x r); [ | | reflexivity ].
    + pose proof (k_stk _ _ _ H) as Hk. rewrite where_add_stk in Ex. rewrite Ex, zlen_cons in Hk. lia.
    + intro Hff. destruct (Z.lt_ge_cases x 0) as [L|L]; [ | lia ]. exfalso. apply (Hr eq_refl Hff). exists x, r.
      rewrite where_add_stk in Ex. split; assumption.
  - apply (Hmain 1 (stk (where_add 1 s))); [ rewrite where_add_stk; exact (k_stk _ _ _ H) | lia | ].
    destruct (where_add 1 s); reflexivity.
Qed.

(** ** The other instructions which do not jump *)
Lemma arith_safe : forall v f s, dok s -> (forall v, safe (f v)) -> safe (arith m v f).
Proof. intros. unfold arith. destruct (fits _ _); [ auto | exact I ]. Qed.
Lemma unary_safe : forall f s, dok s -> (forall a k, (forall v, safe (k v)) -> safe (f a k)) -> safe (unary m f s).
Proof.
  intros f s H Hf. unfold unary, stack_cannot_pop. destruct (stk s) as [|x r] eqn:E; [ apply fail_safe; assumption | ].
  destruct (_ =? 0); [ apply fail_safe; assumption | ]. apply Hf. intro v.
  apply dok_stk; [ assumption | ]. pose proof (k_stk _ _ _ H) as Hk. rewrite E, zlen_cons in Hk. rewrite zlen_cons. lia.
Qed.
Lemma two : forall s, (zlen (stk s) <? 2) = false -> exists y x r, stk s = y :: x :: r.
Proof. intros s E. destruct (stk s) as [|y [|x r]]; try discriminate. eauto. Qed.
Lemma three : forall s, (zlen (stk s) <? 3) = false -> exists z y x r, stk s = z :: y :: x :: r.
Proof. intros s E. destruct (stk s) as [|z [|y [|x r]]]; try discriminate. eauto 10. Qed.
Lemma binary_safe : forall f s, dok s -> (forall a b k, (forall v, safe (k v)) -> safe (f a b k)) -> safe (binary m f s).
Proof.
  intros f s H Hf. unfold binary, stack_cannot_pop2. destruct (_ <? 2) eqn:E; [ apply fail_safe; assumption | ].
  destruct (two _ E) as (y & x & r & Es). rewrite Es. apply Hf. intro v.
  apply dok_stk; [ assumption | ]. pose proof (k_stk _ _ _ H) as Hk. rewrite Es, !zlen_cons in Hk. rewrite zlen_cons. lia.
Qed.
Lemma divide_safe : forall f s, dok s -> (forall a b k, (forall v, safe (k v)) -> safe (f a b k)) -> safe (divide m f s).
Proof.
  intros f s H Hf. unfold divide, stack_cannot_pop2. destruct (_ <? 2) eqn:E; [ apply fail_safe; assumption | ].
  destruct (two _ E) as (y & x & r & Es). rewrite Es. pose proof (k_stk _ _ _ H) as Hk. rewrite Es, !zlen_cons in Hk.
  destruct (y =? 0).
  - apply fail_safe, dok_stk; [ assumption | rewrite zlen_cons; lia ].
  - apply Hf. intro v. apply dok_stk; [ assumption | rewrite zlen_cons; lia ].
Qed.
Lemma div_safe : forall a b k s, dok s -> (forall v, safe (k v)) -> safe (div_ m a b k).
Proof. intros. unfold div_. eapply arith_safe; eauto. intro. eapply arith_safe; eauto. Qed.
Lemma mod_safe : forall a b k s, dok s -> (forall v, safe (k v)) -> safe (mod_ m a b k).
Proof. intros. unfold mod_. eapply arith_safe; eauto. intro. eapply arith_safe; eauto. Qed.

(** the instructions without operand, other than pause, exit, jumps *)
Definition plain0 (c : Z) : Prop := 26 <= c <= 65.
Lemma do_at_safe : forall n s, n < zlen (dos s) -> 0 <= n -> exists v, do_at n s = Some v.
Proof. intros n s H H0. unfold do_at. destruct (nthZ_some (dos s) n) as [d ->]; [ lia | eauto ]. Qed.

Ltac stk_room H := pose proof (k_stk _ _ _ H) as Hk;
  match goal with E : stk _ = _ |- _ => rewrite E, ?zlen_cons in Hk; rewrite ?zlen_cons; lia end.

Lemma exec0_safe : forall single c s, dok s -> plain0 c ->
  (c = 29 -> 1 <= zlen (dos s)) -> (c = 30 -> 2 <= zlen (dos s)) -> (c = 31 -> 3 <= zlen (dos s)) ->
  safe (exec_code m single c s).
Proof.
  intros single c s H Hc H1 H2 H3.
  assert (Hnx : forall s', dok s' -> safe (XNext s')) by auto.
  assert (Hi : c = 26 \/ c = 27 \/ c = 28 \/ c = 29 \/ c = 30 \/ c = 31 \/ c = 32 \/ c = 33 \/ c = 34 \/ c = 35 \/ c = 36 \/ c = 37 \/ c = 38
     \/ c = 39 \/ c = 40 \/ c = 41 \/ c = 42 \/ c = 43 \/ c = 44 \/ c = 45 \/ c = 46 \/ c = 47 \/ c = 48 \/ c = 49 \/ c = 50 \/ c = 51 \/ c = 52 \/ c = 53
     \/ c = 54 \/ c = 55 \/ c = 56 \/ c = 57 \/ c = 58 \/ c = 59 \/ c = 60 \/ c = 61 \/ c = 62 \/ c = 63 \/ c = 64 \/ c = 65) by (unfold plain0 in Hc; lia).
  repeat (destruct Hi as [->|Hi]); try subst c; cbn [exec_code];
    try solve
    [ exact H
    | apply unary_safe; [ assumption | intros; first [ solve [ auto ] | eapply arith_safe; eauto ] ]
    | apply binary_safe; [ assumption | intros; first [ solve [ auto ] | solve [ eapply arith_safe; eauto ]
         | unfold lshift_, rshift_; destruct (_ && _)%bool; [ auto | exact I ] ] ]
    | apply divide_safe; [ assumption | intros; first [ eapply div_safe; eauto | eapply mod_safe; eauto ] ]
    | apply push_safe; auto
    | apply pop_safe; [ assumption | intros; eapply dok_pop; eauto ] ].
  - destruct (stack_cannot_push m s) eqn:E; [ apply fail_safe; assumption | ].
    destruct (do_at_safe 0 s) as [v ->]; [ specialize (H1 eq_refl); lia | lia | ]. apply push_room; auto.
  - destruct (stack_cannot_push m s) eqn:E; [ apply fail_safe; assumption | ].
    destruct (do_at_safe 1 s) as [v ->]; [ specialize (H2 eq_refl); lia | lia | ]. apply push_room; auto.
  - destruct (stack_cannot_push m s) eqn:E; [ apply fail_safe; assumption | ].
    destruct (do_at_safe 2 s) as [v ->]; [ specialize (H3 eq_refl); lia | lia | ]. apply push_room; auto.
  - destruct (stack_cannot_pop s) eqn:E0; [ apply fail_safe; assumption | ].
    destruct (stack_cannot_push m s) eqn:E; [ apply fail_safe; assumption | ].
    unfold stack_cannot_pop in E0. destruct (stk s) eqn:Es; [ discriminate | ]. apply push_room; auto.
  - unfold stack_cannot_pop2. destruct (_ <? 2) eqn:E; [ apply fail_safe; assumption | ].
    destruct (two _ E) as (y & x & r & Es). rewrite Es. apply dok_stk; [ assumption | stk_room H ].
  - unfold stack_cannot_pop2. destruct (_ <? 2) eqn:E; [ apply fail_safe; assumption | ].
    destruct (stack_cannot_push m s) eqn:E'; [ apply fail_safe; assumption | ].
    destruct (two _ E) as (y & x & r & Es). rewrite Es. apply push_room; auto.
  - unfold stack_cannot_pop3. destruct (_ <? 3) eqn:E; [ apply fail_safe; assumption | ].
    destruct (three _ E) as (z & y & x & r & Es). rewrite Es. apply dok_stk; [ assumption | stk_room H ].
  - unfold stack_cannot_pop2. destruct (_ <? 2) eqn:E; [ apply fail_safe; assumption | ].
    destruct (two _ E) as (y & x & r & Es). rewrite Es. apply dok_stk; [ assumption | stk_room H ].
  - unfold stack_cannot_pop2. destruct (_ <? 2) eqn:E; [ apply fail_safe; assumption | ].
    destruct (stack_cannot_push m s) eqn:E'; [ apply fail_safe; assumption | ].
    destruct (two _ E) as (y & x & r & Es). rewrite Es. apply push_room; auto.
    + apply dok_stk; [ assumption | stk_room H ].
    + unfold stack_cannot_push in E'. rewrite Es, !zlen_cons in E'. unfold stack_cannot_push. cbn [stk set_stk]. rewrite !zlen_cons. exact E'.
  - unfold stack_cannot_pop2. destruct (_ <? 2) eqn:E; [ apply fail_safe; assumption | ].
    destruct (two _ E) as (y & x & r & Es). rewrite Es. destruct (y =? 0); [ apply fail_safe; assumption | ].
    eapply div_safe; eauto. intro q. eapply mod_safe; eauto. intro p. apply dok_stk; [ assumption | stk_room H ].
Qed.

(** the instructions with one operand *)

Lemma exec1_safe : forall single c n s, dok s -> operand_in (m_nvars m) nin (zlen (m_outs m)) (m_nstrings m) c n -> bytecode_get m s = Some n ->
  (c = 23 -> ~ negative_top s) -> safe (exec_code m single c s).
Proof.
  intros single c n s H Hc G Hr.
  assert (Hnx : forall s', dok s' -> safe (XNext s')) by auto.
  pose proof (dok_where 1 s H) as H1.
  assert (Hi : forall i, 0 <= i < nin -> exists b, nthZ (ins (where_add 1 s)) i = Some b).
  { intros i Hi. apply nthZ_some. rewrite (k_nin _ _ _ H1). exact Hi. }
  assert (Hpop : forall x r, stk (where_add 1 s) = x :: r -> dok (set_stk r (where_add 1 s))) by (intros; eapply dok_pop; eauto).
  assert (Hlen : forall f, (forall b, safe (f b)) -> 0 <= n < nin ->
     safe (if stack_cannot_push m (where_add 1 s) then fail e_stack_overflow (where_add 1 s)
           else match nthZ (ins (where_add 1 s)) n with Some b => f b | None => XBad Memory end)).
  { intros f Hf Hn. destruct (stack_cannot_push _ _); [ apply fail_safe; assumption | ]. destruct (Hi n Hn) as [b ->]. apply Hf. }
  destruct Hc as [->|[->|[[Hc Hn]|[[Hc Hn]|[[Hc Hn]|[-> Hn]]]]]].
  - cbn [exec_code]. rewrite (operand_ok _ _ _ _ G). apply push_safe; auto.
  - cbn [exec_code]. rewrite (operand_ok _ _ _ _ G). apply push_safe; auto.
  - assert (exists v, nthZ (vars (where_add 1 s)) n = Some v) as [v Ev] by (apply nthZ_some; rewrite (k_vars _ _ _ H1); exact Hn).
    assert (Hu : forall r x y, stk (where_add 1 s) = y :: r -> dok (set_vars (upd (vars (where_add 1 s)) (Z.to_nat n) x) (set_stk r (where_add 1 s)))).
    { intros. apply dok_var; [ eapply Hpop; eauto | ]. rewrite zlen_upd. exact (k_vars _ _ _ H1). }
    assert (c = 11 \/ c = 12 \/ c = 13) as [->|[->| ->]] by lia; cbn [exec_code]; rewrite (operand_ok _ _ _ _ G).
    + apply pop_safe; [ assumption | ]. intros x r Ex. cbn [vars set_stk]. rewrite Ev. eapply Hu; eauto.
    + apply pop_safe; [ assumption | ]. intros x r Ex. cbn [vars set_stk]. rewrite Ev. eapply arith_safe; [ exact H1 | ].
      intro. eapply Hu; eauto.
    + destruct (stack_cannot_push m (where_add 1 s)) eqn:E; [ apply fail_safe; assumption | ]. rewrite Ev. apply push_room; auto.
  - destruct (Hi n Hn) as [b Eb]. pose proof (nthZ_Forall _ _ _ _ (k_ins _ _ _ H1) Eb) as [Hp Hb].
    assert (c = 14 \/ c = 15 \/ c = 16 \/ c = 17 \/ c = 18) as [->|[->|[->|[->| ->]]]] by lia; cbn [exec_code]; rewrite (operand_ok _ _ _ _ G).
    + destruct (stack_cannot_push m (where_add 1 s)) eqn:E; [ apply fail_safe; assumption | ]. rewrite Eb. apply push_room; auto.
    + destruct (stack_cannot_push m (where_add 1 s)) eqn:E; [ apply fail_safe; assumption | ]. rewrite Eb. apply push_room; auto.
    + destruct (stack_cannot_push m (where_add 1 s)) eqn:E; [ apply fail_safe; assumption | ]. rewrite Eb. apply push_room; auto.
    + apply pop_safe; [ assumption | ]. intros x r Ex. unfold seek_. cbn [ins set_stk]. rewrite Eb.
      destruct (Z.ltb_spec x 0); [ apply fail_safe; eapply Hpop; eauto | ].
      destruct (Z.ltb_spec (zlen (idata b)) x); [ apply fail_safe; eapply Hpop; eauto | ].
      apply dok_in; [ eapply Hpop; eauto | split; cbn; [ lia | assumption ] ].
    + apply pop_safe; [ assumption | ]. intros x r Ex. unfold skip_. cbn [ins set_stk]. rewrite Eb.
      destruct (negb _); [ exact I | ].
      destruct (Z.ltb_spec (ipos b + x) 0); [ apply fail_safe; eapply Hpop; eauto | ].
      destruct (Z.ltb_spec (zlen (idata b)) (ipos b + x)); [ apply fail_safe; eapply Hpop; eauto | ].
      apply dok_in; [ eapply Hpop; eauto | split; cbn; [ lia | assumption ] ].
  - assert (c = 19 \/ c = 20 \/ c = 21 \/ c = 22 \/ c = 23) as [->|[->|[->|[->| ->]]]] by lia; cbn [exec_code]; rewrite (operand_ok _ _ _ _ G).
    + apply pop_safe; [ assumption | ]. intros x r Ex. apply with_out_safe; [ eapply Hpop; eauto | assumption | intros; apply write_one_safe; assumption | ].
      intros. apply dok_countw. assumption.
    + apply pop_safe; [ assumption | ]. intros x r Ex. apply with_out_safe; [ eapply Hpop; eauto | assumption | intros; apply owrite_add_safe; assumption | ].
      intros. apply dok_countw. assumption.
    + apply pop_safe; [ assumption | ]. intros x r Ex. apply with_out_safe; [ eapply Hpop; eauto | assumption | intros; apply odup_safe; assumption | ].
      intros. apply dok_countw. assumption.
    + destruct (stack_cannot_push m (where_add 1 s)) eqn:E; [ apply fail_safe; assumption | ].
      destruct (nthZ_some (outs (where_add 1 s)) n) as [b ->]; [ rewrite (k_nout _ _ _ H1); exact Hn | ]. apply push_room; auto.
    + apply pop_safe; [ assumption | ]. intros x r Ex. apply with_out_safe; [ eapply Hpop; eauto | assumption | | auto ].
      intros. apply orewind_safe; [ | assumption ]. destruct (Z.lt_ge_cases x 0) as [L|L]; [ | lia ]. exfalso. apply (Hr eq_refl).
      exists x, r. rewrite where_add_stk in Ex. split; assumption.
  - cbn [exec_code]. rewrite (operand_ok _ _ _ _ G). destruct (Z.leb_spec 0 n); [ | lia ]. destruct (Z.ltb_spec n (m_nstrings m)); [ | lia ].
    exact H1.
Qed.

End Data.
