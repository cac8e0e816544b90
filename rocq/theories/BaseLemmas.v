(** Facts about [Base]; no model content here. *)
From Verif Require Export Base.
Ltac Zify.zify_post_hook ::= Z.div_mod_to_equations.

Lemma bind_Ok {A B} (r : res A) (k : A -> res B) b :
  bind r k = Ok b <-> exists a, r = Ok a /\ k a = Ok b.
Proof.
  destruct r; cbn; split; intros H; try discriminate; eauto.
  - destruct H as (x & [= ->] & H); exact H.
  - destruct H as (x & [=] & _).
  - destruct H as (x & [=] & _).
Qed.

Lemma zlen_nonneg {A} (l : list A) : 0 <= zlen l.
Proof. unfold zlen; lia. Qed.
Lemma zlen_nil {A} : zlen (@nil A) = 0.
Proof. reflexivity. Qed.
Lemma zlen_cons {A} (x : A) l : zlen (x :: l) = zlen l + 1.
Proof. unfold zlen; cbn [List.length]; lia. Qed.
Lemma zlen_app {A} (a b : list A) : zlen (a ++ b) = zlen a + zlen b.
Proof. unfold zlen; rewrite app_length; lia. Qed.
Lemma zlen_map {A B} (f : A -> B) l : zlen (map f l) = zlen l.
Proof. unfold zlen; now rewrite map_length. Qed.
Lemma zlen_repeat {A} (x : A) n : zlen (repeat x n) = Z.of_nat n.
Proof. unfold zlen; now rewrite repeat_length. Qed.
Lemma zlen_alloc n : 0 <= n -> zlen (alloc n) = n.
Proof. unfold alloc; rewrite zlen_repeat; lia. Qed.
Lemma zlen_rev {A} (l : list A) : zlen (rev l) = zlen l.
Proof. unfold zlen; now rewrite rev_length. Qed.
Lemma zlen_zseq_nat a n : zlen (zseq_nat a n) = Z.of_nat n.
Proof. revert a; induction n; intros a; cbn [zseq_nat]; rewrite ?zlen_cons, ?IHn; try reflexivity; lia. Qed.
Lemma zlen_zseq a b : a <= b -> zlen (zseq a b) = b - a.
Proof. intros; unfold zseq; rewrite zlen_zseq_nat; lia. Qed.
Lemma zlen_slice {A} a b (l : list A) : 0 <= a <= b -> b <= zlen l -> zlen (slice a b l) = b - a.
Proof. unfold slice, zlen; intros; rewrite firstn_length, skipn_length; lia. Qed.
Lemma zlen_upd {A} (l : list A) n x : zlen (upd l n x) = zlen l.
Proof. revert n; induction l; intros [|n]; cbn [upd]; rewrite ?zlen_cons, ?IHl; reflexivity. Qed.
Lemma zlen_0 {A} (l : list A) : zlen l = 0 -> l = [].
Proof. destruct l; [reflexivity|rewrite zlen_cons; pose proof (zlen_nonneg l); lia]. Qed.
Lemma zlen_combine {A B} (a : list A) (b : list B) : zlen a = zlen b -> zlen (combine a b) = zlen a.
Proof. unfold zlen; rewrite combine_length; lia. Qed.

Lemma nthZ_neg {A} (l : list A) i : i < 0 -> nthZ l i = None.
Proof. unfold nthZ; destruct (Z.ltb_spec i 0); [reflexivity|lia]. Qed.
Lemma nthZ_ge {A} (l : list A) i : zlen l <= i -> nthZ l i = None.
Proof.
  unfold nthZ, zlen; destruct (Z.ltb_spec i 0); [reflexivity|]; intros.
  apply nth_error_None; lia.
Qed.
Lemma nthZ_Some {A} (l : list A) i x : nthZ l i = Some x -> 0 <= i < zlen l.
Proof.
  unfold nthZ, zlen; destruct (Z.ltb_spec i 0); [discriminate|]; intros H'.
  assert (nth_error l (Z.to_nat i) <> None) by congruence.
  apply nth_error_Some in H0; lia.
Qed.
Lemma nthZ_lt {A} (l : list A) i : 0 <= i < zlen l -> exists x, nthZ l i = Some x.
Proof.
  unfold nthZ, zlen; intros H; destruct (Z.ltb_spec i 0); [lia|].
  destruct (nth_error l (Z.to_nat i)) eqn:E; eauto.
  apply nth_error_None in E; lia.
Qed.
Lemma nthZ_None {A} (l : list A) i : nthZ l i = None -> i < 0 \/ zlen l <= i.
Proof.
  intros H. destruct (Z.ltb_spec i 0); [auto|]. destruct (Z.leb_spec (zlen l) i); [auto|].
  destruct (nthZ_lt l i) as [x E]; [lia|congruence].
Qed.
Lemma nthZ_nil {A} i : nthZ (@nil A) i = None.
Proof. unfold nthZ; destruct (i <? 0); [reflexivity|destruct (Z.to_nat i); reflexivity]. Qed.
Lemma nthZ_cons {A} (x : A) l i :
  nthZ (x :: l) i = if i =? 0 then Some x else nthZ l (i - 1).
Proof.
  unfold nthZ. destruct (Z.eqb_spec i 0) as [->|Hi]; [reflexivity|].
  destruct (Z.ltb_spec i 0), (Z.ltb_spec (i-1) 0); try lia; try reflexivity.
  replace (Z.to_nat i) with (S (Z.to_nat (i-1))) by lia. reflexivity.
Qed.
Lemma nthZ_app {A} (a b : list A) i :
  nthZ (a ++ b) i = if i <? zlen a then nthZ a i else nthZ b (i - zlen a).
Proof.
  unfold nthZ, zlen. destruct (Z.ltb_spec i (Z.of_nat (length a))), (Z.ltb_spec i 0),
    (Z.ltb_spec (i - Z.of_nat (length a)) 0); try lia; try reflexivity.
  - apply nth_error_app1; lia.
  - rewrite nth_error_app2 by lia. f_equal; lia.
Qed.
Lemma nthZ_map {A B} (f : A -> B) l i : nthZ (map f l) i = option_map f (nthZ l i).
Proof. unfold nthZ; destruct (i <? 0); [reflexivity|apply nth_error_map]. Qed.
Lemma nthZ_zseq_nat a n i : 0 <= i < Z.of_nat n -> nthZ (zseq_nat a n) i = Some (a + i).
Proof.
  revert a i; induction n; intros a i H; [lia|].
  cbn [zseq_nat]; rewrite nthZ_cons. destruct (Z.eqb_spec i 0); [f_equal; lia|].
  rewrite IHn by lia; f_equal; lia.
Qed.
Lemma nthZ_zseq a b i : 0 <= i < b - a -> nthZ (zseq a b) i = Some (a + i).
Proof. intros; apply nthZ_zseq_nat; lia. Qed.
Lemma nthZ_firstn {A} (l : list A) n i : i < Z.of_nat n -> nthZ (firstn n l) i = nthZ l i.
Proof.
  unfold nthZ; intros; destruct (Z.ltb_spec i 0); [reflexivity|].
  assert (Z.to_nat i < n)%nat as Hn by lia. revert Hn. generalize (Z.to_nat i) as k. clear H H0.
  revert n; induction l; intros n k Hk; [now rewrite firstn_nil|].
  destruct n; [lia|]. destruct k; cbn; [reflexivity|]. apply IHl; lia.
Qed.
Lemma nthZ_skipn {A} (l : list A) n i : 0 <= i -> nthZ (skipn n l) i = nthZ l (Z.of_nat n + i).
Proof.
  unfold nthZ; intros; destruct (Z.ltb_spec i 0), (Z.ltb_spec (Z.of_nat n + i) 0); try lia.
  replace (Z.to_nat (Z.of_nat n + i)) with (n + Z.to_nat i)%nat by lia.
  generalize (Z.to_nat i); intros k. clear.
  revert l; induction n; intros l; [reflexivity|].
  destruct l; cbn; [destruct k; reflexivity|apply IHn].
Qed.
Lemma nthZ_slice {A} a b (l : list A) i :
  0 <= a -> 0 <= i < b - a -> nthZ (slice a b l) i = nthZ l (a + i).
Proof.
  intros; unfold slice. rewrite nthZ_firstn by lia. rewrite nthZ_skipn by lia. f_equal; lia.
Qed.
Lemma nthZ_upd {A} (l : list A) n x i :
  Z.of_nat n < zlen l ->
  nthZ (upd l n x) i = if i =? Z.of_nat n then Some x else nthZ l i.
Proof.
  revert n i; induction l; intros n i Hn.
  - rewrite zlen_nil in Hn; lia.
  - rewrite zlen_cons in Hn. destruct n; cbn [upd]; rewrite !nthZ_cons.
    + change (Z.of_nat 0) with 0. destruct (Z.eqb_spec i 0); reflexivity.
    + rewrite IHl by lia. destruct (Z.eqb_spec i 0), (Z.eqb_spec i (Z.of_nat (S n))),
        (Z.eqb_spec (i-1) (Z.of_nat n)); try lia; reflexivity.
Qed.
Lemma nthZ_repeat {A} (x : A) n i : 0 <= i < Z.of_nat n -> nthZ (repeat x n) i = Some x.
Proof.
  revert i; induction n; intros i H; [lia|].
  cbn [repeat]; rewrite nthZ_cons. destruct (Z.eqb_spec i 0); [reflexivity|]. apply IHn; lia.
Qed.
Lemma nthZ_combine {A B} (a : list A) (b : list B) i :
  nthZ (combine a b) i =
  match nthZ a i, nthZ b i with Some x, Some y => Some (x, y) | _, _ => None end.
Proof.
  revert b i; induction a as [|x a IH]; intros b i; cbn [combine].
  - now rewrite !nthZ_nil.
  - destruct b as [|y b].
    + rewrite !nthZ_nil. now destruct (nthZ (x :: a) i).
    + rewrite !nthZ_cons. destruct (Z.eqb_spec i 0); [reflexivity|apply IH].
Qed.
Lemma nthZ_In {A} (l : list A) i x : nthZ l i = Some x -> In x l.
Proof. unfold nthZ; destruct (i <? 0); [discriminate|apply nth_error_In]. Qed.
Lemma In_nthZ {A} (l : list A) x : In x l -> exists i, nthZ l i = Some x.
Proof.
  intros H; apply In_nth_error in H; destruct H as [n Hn].
  exists (Z.of_nat n); unfold nthZ. destruct (Z.ltb_spec (Z.of_nat n) 0); [lia|].
  now rewrite Nat2Z.id.
Qed.

Lemma list_eqZ {A} (a b : list A) :
  zlen a = zlen b -> (forall i, 0 <= i < zlen a -> nthZ a i = nthZ b i) -> a = b.
Proof.
  revert b; induction a as [|x a IH]; intros b Hl H.
  - symmetry; apply zlen_0; rewrite zlen_nil in Hl; lia.
  - destruct b as [|y b]; [rewrite zlen_cons, zlen_nil in Hl; pose proof (zlen_nonneg a); lia|].
    rewrite !zlen_cons in Hl. pose proof (zlen_nonneg a).
    f_equal.
    + specialize (H 0). rewrite zlen_cons, !nthZ_cons in H. cbn in H. assert (Some x = Some y) by (apply H; lia). congruence.
    + apply IH; [lia|]. intros i Hi. specialize (H (i+1)). rewrite zlen_cons, !nthZ_cons in H.
      destruct (Z.eqb_spec (i+1) 0); [lia|]. replace (i+1-1) with i in H by lia. apply H; lia.
Qed.

Lemma slice_full {A} (l : list A) : slice 0 (zlen l) l = l.
Proof. unfold slice, zlen. cbn [Z.to_nat skipn]. rewrite firstn_all2; [reflexivity|lia]. Qed.
Lemma slice_full' {A} n (l : list A) : n = zlen l -> slice 0 n l = l.
Proof. intros ->; apply slice_full. Qed.
Lemma slice_nil {A} a (l : list A) : slice a a l = [].
Proof. unfold slice. now rewrite Z.sub_diag. Qed.
Lemma slice_empty {A} a b (l : list A) : b <= a -> slice a b l = [].
Proof. unfold slice; intros. replace (Z.to_nat (b - a)) with O by lia. reflexivity. Qed.
Lemma slice_map {A B} (f : A -> B) a b l : slice a b (map f l) = map f (slice a b l).
Proof. unfold slice. now rewrite skipn_map, firstn_map. Qed.
Lemma skipn_skipnZ {A} n m (l : list A) : skipn n (skipn m l) = skipn (m + n) l.
Proof.
  revert l; induction m; intros l; [reflexivity|].
  destruct l; cbn; [now rewrite skipn_nil|apply IHm].
Qed.
Lemma slice_slice {A} a b c d (l : list A) :
  0 <= a -> 0 <= c -> a + d <= b -> slice c d (slice a b l) = slice (a + c) (a + d) l.
Proof.
  intros. unfold slice. rewrite skipn_firstn_comm, firstn_firstn, skipn_skipnZ.
  f_equal; [lia|f_equal; lia].
Qed.
Lemma slice_split {A} a b c (l : list A) :
  0 <= a <= b -> b <= c -> slice a c l = slice a b l ++ slice b c l.
Proof.
  intros. unfold slice.
  replace (Z.to_nat (c - a)) with (Z.to_nat (b - a) + Z.to_nat (c - b))%nat by lia.
  replace (Z.to_nat b) with (Z.to_nat a + Z.to_nat (b - a))%nat by lia.
  rewrite <- skipn_skipnZ. generalize (skipn (Z.to_nat a) l) as k; intros k.
  generalize (Z.to_nat (b - a)) as n, (Z.to_nat (c - b)) as m. clear. intros n m.
  revert k; induction n; intros k; [reflexivity|].
  destruct k; cbn; [now rewrite firstn_nil|f_equal; apply IHn].
Qed.
Lemma slice_cons_nth {A} a b (l : list A) x :
  a < b -> nthZ l a = Some x -> slice a b l = x :: slice (a + 1) b l.
Proof.
  intros Hab Hx. pose proof (nthZ_Some _ _ _ Hx).
  rewrite (slice_split a (a+1) b) by lia. change (x :: slice (a+1) b l) with ([x] ++ slice (a+1) b l).
  f_equal. apply list_eqZ.
  - rewrite zlen_slice by lia. change (zlen [x]) with 1; lia.
  - intros i Hi. rewrite zlen_slice in Hi by lia. assert (i = 0) by lia; subst.
    rewrite nthZ_slice by lia. rewrite Z.add_0_r. exact Hx.
Qed.
Lemma slice_snoc_nth {A} a b (l : list A) x :
  0 <= a <= b -> nthZ l b = Some x -> slice a (b + 1) l = slice a b l ++ [x].
Proof.
  intros. rewrite (slice_split a b (b+1)) by lia. f_equal.
  rewrite (slice_cons_nth b (b+1) l x) by (auto; lia). now rewrite slice_nil.
Qed.
Lemma slice_app {A} (a b : list A) : slice 0 (zlen a) (a ++ b) = a.
Proof.
  unfold slice, zlen. cbn [Z.to_nat skipn]. rewrite firstn_app.
  replace (Z.to_nat (Z.of_nat (length a) - 0) - length a)%nat with O by lia.
  rewrite firstn_all2 by lia. cbn. now rewrite app_nil_r.
Qed.
Lemma slice_app_r {A} (a b : list A) : slice (zlen a) (zlen a + zlen b) (a ++ b) = b.
Proof.
  unfold slice, zlen. rewrite skipn_app.
  rewrite skipn_all2 by lia. replace (Z.to_nat (Z.of_nat (length a)) - length a)%nat with O by lia.
  cbn [skipn app]. rewrite firstn_all2 by lia. reflexivity.
Qed.
Lemma slice_app_l {A} i j (a b : list A) : 0 <= i -> j <= zlen a -> slice i j (a ++ b) = slice i j a.
Proof.
  unfold slice, zlen; intros. rewrite skipn_app, firstn_app.
  destruct (Z.leb_spec j i).
  - replace (Z.to_nat (j - i)) with O by lia. reflexivity.
  - rewrite skipn_length. replace (Z.to_nat (j - i) - (length a - Z.to_nat i))%nat with O by lia.
    cbn [firstn]. now rewrite app_nil_r.
Qed.
Lemma slice_app_shift {A} i j (a b : list A) :
  zlen a <= i -> slice i j (a ++ b) = slice (i - zlen a) (j - zlen a) b.
Proof.
  unfold slice, zlen; intros. rewrite skipn_app.
  rewrite (skipn_all2 a) by lia. cbn [app]. f_equal; [lia|f_equal; lia].
Qed.
Lemma slice_beyond {A} a b (l : list A) : zlen l <= a -> slice a b l = [].
Proof. unfold slice, zlen; intros. rewrite skipn_all2 by lia. apply firstn_nil. Qed.
Lemma In_slice {A} a b (l : list A) x : In x (slice a b l) -> In x l.
Proof.
  unfold slice; intros H. rewrite <- (firstn_skipn (Z.to_nat a) l). apply in_or_app; right.
  rewrite <- (firstn_skipn (Z.to_nat (b - a)) (skipn (Z.to_nat a) l)). apply in_or_app; left; exact H.
Qed.

Lemma zseq_nil a b : b <= a -> zseq a b = [].
Proof. unfold zseq; intros. now replace (Z.to_nat (b - a)) with O by lia. Qed.
Lemma zseq_cons a b : a < b -> zseq a b = a :: zseq (a + 1) b.
Proof.
  unfold zseq; intros. replace (Z.to_nat (b - a)) with (S (Z.to_nat (b - (a + 1)))) by lia. reflexivity.
Qed.
Lemma zseq_split a b c : a <= b <= c -> zseq a c = zseq a b ++ zseq b c.
Proof.
  intros. apply list_eqZ.
  - rewrite zlen_app, !zlen_zseq by lia. lia.
  - intros i Hi. rewrite zlen_zseq in Hi by lia. rewrite nthZ_app, zlen_zseq by lia.
    destruct (Z.ltb_spec i (b - a)); rewrite !nthZ_zseq by lia; f_equal; lia.
Qed.
Lemma zseq_snoc a b : a <= b -> zseq a (b + 1) = zseq a b ++ [b].
Proof.
  intros. rewrite (zseq_split a b (b+1)) by lia. f_equal.
  rewrite zseq_cons by lia. now rewrite zseq_nil by lia.
Qed.
Lemma In_zseq a b i : In i (zseq a b) <-> a <= i < b.
Proof.
  split.
  - intros H; apply In_nthZ in H; destruct H as [k Hk].
    destruct (Z.leb_spec b a).
    + rewrite zseq_nil in Hk by lia. rewrite nthZ_nil in Hk; discriminate.
    + pose proof (nthZ_Some _ _ _ Hk). rewrite zlen_zseq in * by lia.
      rewrite nthZ_zseq in Hk by lia. injection Hk as <-. lia.
  - intros H. apply (nthZ_In _ (i - a)). rewrite nthZ_zseq by lia. f_equal; lia.
Qed.
Lemma slice_zseq a b c d : 0 <= c <= d -> d <= b - a -> slice c d (zseq a b) = zseq (a + c) (a + d).
Proof.
  intros. apply list_eqZ.
  - rewrite zlen_slice by (rewrite ?zlen_zseq; lia). rewrite zlen_zseq by lia. lia.
  - intros i Hi. rewrite zlen_slice in Hi by (rewrite ?zlen_zseq; lia).
    rewrite nthZ_slice, !nthZ_zseq by lia. f_equal; lia.
Qed.
Lemma map_zseq_shift {A} (f : Z -> A) a b k :
  map f (zseq (a + k) (b + k)) = map (fun i => f (i + k)) (zseq a b).
Proof.
  destruct (Z.leb_spec b a).
  - rewrite !zseq_nil by lia. reflexivity.
  - apply list_eqZ; rewrite ?zlen_map, ?zlen_zseq by lia; [lia|].
    intros i Hi. rewrite !nthZ_map, !nthZ_zseq by lia. cbn. do 2 f_equal; lia.
Qed.
Lemma map_nthZ_slice {A B} (f : Z -> B) (g : A -> B) (l : list A) a b :
  0 <= a <= b -> b <= zlen l ->
  (forall i x, a <= i < b -> nthZ l i = Some x -> f i = g x) ->
  map f (zseq a b) = map g (slice a b l).
Proof.
  intros Ha Hb H. apply list_eqZ; rewrite ?zlen_map, ?zlen_zseq, ?zlen_slice by lia; [lia|].
  intros i Hi. rewrite !nthZ_map, nthZ_zseq, nthZ_slice by lia. cbn.
  destruct (nthZ_lt l (a + i)) as [x Hx]; [lia|]. rewrite Hx; cbn. f_equal. apply H; [lia|exact Hx].
Qed.

(** ** memory *)
Lemma rd_Ok {A} (l : list A) i x : rd l i = Ok x <-> nthZ l i = Some x.
Proof. unfold rd; destruct (nthZ l i); split; congruence. Qed.
Lemma rd_in {A} (l : list A) i : 0 <= i < zlen l -> exists x, rd l i = Ok x /\ nthZ l i = Some x.
Proof. intros H; destruct (nthZ_lt l i H) as [x Hx]; exists x; split; [now apply rd_Ok|exact Hx]. Qed.
Lemma rd_out {A} (l : list A) i : i < 0 \/ zlen l <= i -> rd l i = UB.
Proof. unfold rd; intros [H|H]; [rewrite nthZ_neg|rewrite nthZ_ge]; auto. Qed.
Lemma wr_Ok {A} (l : list A) i x : 0 <= i < zlen l -> wr l i x = Ok (upd l (Z.to_nat i) x).
Proof. unfold wr; intros. destruct (Z.leb_spec 0 i), (Z.ltb_spec i (zlen l)); try lia; reflexivity. Qed.
Lemma wr_inv {A} (l : list A) i x l' : wr l i x = Ok l' -> 0 <= i < zlen l /\ l' = upd l (Z.to_nat i) x.
Proof.
  unfold wr. destruct (Z.leb_spec 0 i), (Z.ltb_spec i (zlen l)); cbn [andb]; intros [=]; subst; split; auto; lia.
Qed.
Lemma wr_spec {A} (l : list A) i x :
  0 <= i < zlen l ->
  exists l', wr l i x = Ok l' /\ zlen l' = zlen l /\
             forall k, nthZ l' k = if k =? i then Some x else nthZ l k.
Proof.
  intros H; exists (upd l (Z.to_nat i) x); split; [now apply wr_Ok|]. split; [apply zlen_upd|].
  intros k. rewrite nthZ_upd by lia. destruct (Z.eqb_spec k i), (Z.eqb_spec k (Z.of_nat (Z.to_nat i))); try lia; reflexivity.
Qed.
Lemma view_Ok {A} a b (l : list A) : 0 <= a <= b -> b <= zlen l -> view a b l = Ok (slice a b l).
Proof.
  unfold view; intros. destruct (Z.eqb_spec a b) as [->|]; [now rewrite slice_nil|].
  destruct (Z.leb_spec 0 a), (Z.leb_spec a b), (Z.leb_spec b (zlen l)); try lia; reflexivity.
Qed.
Lemma view_empty {A} a (l : list A) : view a a l = Ok [].
Proof. unfold view; now rewrite Z.eqb_refl. Qed.

Lemma iview_Ok {A} a b (l : list A) : 0 <= a <= b -> b <= zlen l -> iview a b l = Ok (slice a b l).
Proof.
  unfold iview; intros. destruct (Z.eqb_spec a b) as [->|]; [rewrite slice_nil, andb_false_r; reflexivity|].
  destruct (Z.leb_spec 0 a), (Z.ltb_spec a (zlen l)), (Z.leb_spec 0 b), (Z.leb_spec b (zlen l)), (Z.ltb_spec b a); try lia; reflexivity.
Qed.
Lemma iview_empty {A} a (l : list A) : iview a a l = Ok [].
Proof. unfold iview; rewrite Z.eqb_refl, andb_false_r; reflexivity. Qed.

(** ** loops *)
Lemma for_nil {S} lo hi (body : Z -> S -> res S) s : hi <= lo -> for_ lo hi body s = Ok s.
Proof. unfold for_; intros; now replace (Z.to_nat (hi - lo)) with O by lia. Qed.
Lemma for_step {S} lo hi (body : Z -> S -> res S) s :
  lo < hi -> for_ lo hi body s = let* s' := body lo s in for_ (lo + 1) hi body s'.
Proof.
  unfold for_; intros. replace (Z.to_nat (hi - lo)) with (Datatypes.S (Z.to_nat (hi - (lo + 1)))) by lia. reflexivity.
Qed.
Lemma for_inv {S} (P : Z -> S -> Prop) lo hi (body : Z -> S -> res S) s :
  lo <= hi -> P lo s ->
  (forall i t, lo <= i < hi -> P i t -> exists t', body i t = Ok t' /\ P (i + 1) t') ->
  exists s', for_ lo hi body s = Ok s' /\ P hi s'.
Proof.
  intros Hlh. unfold for_. remember (Z.to_nat (hi - lo)) as n eqn:Hn.
  revert lo s Hlh Hn; induction n; intros lo s Hlh Hn HP Hstep.
  - assert (lo = hi) by lia; subst. exists s; split; [reflexivity|exact HP].
  - destruct (Hstep lo s) as (t & Ht & HPt); [lia|exact HP|].
    cbn [loop]. rewrite Ht. cbn [bind]. apply IHn; try lia; [exact HPt|].
    intros i u Hi. apply Hstep; lia.
Qed.
(** The general version: the loop stops in an error that some iteration produced. *)
Lemma for_inv_res {S} (P : Z -> S -> Prop) (E : res S -> Prop) lo hi (body : Z -> S -> res S) s :
  lo <= hi -> P lo s ->
  (forall i t, lo <= i < hi -> P i t ->
     (exists t', body i t = Ok t' /\ P (i + 1) t') \/ ((forall t', body i t <> Ok t') /\ E (body i t))) ->
  (exists s', for_ lo hi body s = Ok s' /\ P hi s') \/ ((forall t', for_ lo hi body s <> Ok t') /\ E (for_ lo hi body s)).
Proof.
  intros Hlh. unfold for_. remember (Z.to_nat (hi - lo)) as n eqn:Hn.
  revert lo s Hlh Hn; induction n; intros lo s Hlh Hn HP Hstep.
  - assert (lo = hi) by lia; subst. left; exists s; split; [reflexivity|exact HP].
  - destruct (Hstep lo s) as [(t & Ht & HPt)|[HnOk HE]]; [lia|exact HP| |].
    + cbn [loop]. rewrite Ht. cbn [bind]. apply IHn; try lia; [exact HPt|].
      intros i u Hi. apply Hstep; lia.
    + right. cbn [loop]. destruct (body lo s) as [t|m|].
      * exfalso; exact (HnOk t eq_refl).
      * cbn [bind]. split; [discriminate|exact HE].
      * cbn [bind]. split; [discriminate|exact HE].
Qed.
Lemma for_ext {S} lo hi (f g : Z -> S -> res S) s :
  (forall i t, lo <= i < hi -> f i t = g i t) -> for_ lo hi f s = for_ lo hi g s.
Proof.
  unfold for_. remember (Z.to_nat (hi - lo)) as n eqn:Hn. revert lo s Hn.
  induction n; intros lo s Hn H; [reflexivity|]. cbn [loop].
  rewrite H by lia. destruct (g lo s); cbn [bind]; try reflexivity.
  apply IHn; [lia|]. intros; apply H; lia.
Qed.

(** Loops that fill [out[i] := g i]. *)
Lemma for_fill {A} (body : Z -> list A -> res (list A)) (g : Z -> A) n out :
  0 <= n <= zlen out ->
  (forall i out', 0 <= i < n -> zlen out' = zlen out -> body i out' = wr out' i (g i)) ->
  for_ 0 n body out = Ok (map g (zseq 0 n) ++ slice n (zlen out) out).
Proof.
  intros Hn Hbody.
  destruct (for_inv (fun i o => o = map g (zseq 0 i) ++ slice i (zlen out) out) 0 n body out)
    as (o & Ho & ->); try lia.
  - rewrite zseq_nil by lia. cbn. now rewrite slice_full.
  - intros i t Hi ->.
    assert (zlen (map g (zseq 0 i) ++ slice i (zlen out) out) = zlen out) as Hlen
      by (rewrite zlen_app, zlen_map, zlen_zseq, zlen_slice by lia; lia).
    rewrite Hbody by (auto; lia).
    destruct (wr_spec (map g (zseq 0 i) ++ slice i (zlen out) out) i (g i)) as (l' & Hw & Hl & Hnth); [lia|].
    exists l'; split; [exact Hw|]. apply list_eqZ.
    + rewrite Hl, Hlen, zlen_app, zlen_map, zlen_zseq, zlen_slice by lia. lia.
    + intros k Hk. rewrite Hnth. rewrite Hl, Hlen in Hk. rewrite zseq_snoc by lia. rewrite map_app.
      cbn [map]. rewrite !nthZ_app, !zlen_app, !zlen_map, zlen_zseq by lia. change (zlen [g i]) with 1.
      destruct (Z.eqb_spec k i) as [->|Hki].
      * destruct (Z.ltb_spec i (i - 0 + 1)); [|lia]. destruct (Z.ltb_spec i (i - 0)); [lia|].
        rewrite nthZ_cons. destruct (Z.eqb_spec (i - (i - 0)) 0); [reflexivity|lia].
      * destruct (Z.ltb_spec k (i - 0)), (Z.ltb_spec k (i - 0 + 1)); try lia.
        -- reflexivity.
        -- rewrite !nthZ_slice by lia. f_equal; lia.
  - exact Ho.
Qed.

(** Loops that walk over a list. *)
Lemma for_list {X S} (xs : list X) (P : list X -> S -> Prop) (body : Z -> S -> res S) s :
  P [] s ->
  (forall d x r t, d ++ x :: r = xs -> P d t -> exists t', body (zlen d) t = Ok t' /\ P (d ++ [x]) t') ->
  exists s', for_ 0 (zlen xs) body s = Ok s' /\ P xs s'.
Proof.
  intros HP Hstep.
  destruct (for_inv (fun i t => P (slice 0 i xs) t) 0 (zlen xs) body s) as (s' & Hs' & HPs').
  - apply zlen_nonneg.
  - now rewrite slice_nil.
  - intros i t Hi Ht. destruct (nthZ_lt xs i Hi) as [x Hx].
    destruct (Hstep (slice 0 i xs) x (slice (i + 1) (zlen xs) xs) t) as (t' & Hb & HPt').
    + rewrite <- (slice_cons_nth i (zlen xs) xs x) by (auto; lia).
      rewrite <- slice_split by lia. apply slice_full.
    + exact Ht.
    + rewrite zlen_slice in Hb by lia. rewrite Z.sub_0_r in Hb. exists t'; split; [exact Hb|].
      rewrite (slice_snoc_nth 0 i xs x) by (auto; lia). exact HPt'.
  - rewrite slice_full in HPs'. eauto.
Qed.
Lemma nthZ_mid {A} (d : list A) x r : nthZ (d ++ x :: r) (zlen d) = Some x.
Proof.
  rewrite nthZ_app, nthZ_cons. destruct (Z.ltb_spec (zlen d) (zlen d)); [lia|].
  now rewrite Z.sub_diag.
Qed.
Lemma combine_mid {A B} (a : list A) (b : list B) d x y r :
  d ++ (x, y) :: r = combine a b -> nthZ a (zlen d) = Some x /\ nthZ b (zlen d) = Some y.
Proof.
  intros H. pose proof (nthZ_mid d (x, y) r) as Hm. rewrite H, nthZ_combine in Hm.
  destruct (nthZ a (zlen d)), (nthZ b (zlen d)); try discriminate. injection Hm as -> ->. auto.
Qed.
(** writing at a cursor *)
Lemma wr_push {A} (d : list A) y r x : wr (d ++ y :: r) (zlen d) x = Ok ((d ++ [x]) ++ r).
Proof.
  pose proof (zlen_nonneg d). pose proof (zlen_nonneg r).
  rewrite wr_Ok by (rewrite zlen_app, zlen_cons; lia). f_equal.
  unfold zlen. rewrite Nat2Z.id. clear. induction d; cbn; [reflexivity|now rewrite IHd].
Qed.
Lemma wr_push' {A} (d r : list A) x :
  0 < zlen r -> exists r', wr (d ++ r) (zlen d) x = Ok ((d ++ [x]) ++ r') /\ zlen r = zlen r' + 1.
Proof.
  destruct r as [|y r]; [change (zlen (@nil A)) with 0; lia|]. intros _. exists r. rewrite wr_push, zlen_cons. auto.
Qed.
Lemma zlen_concat_snoc {A} (l : list (list A)) x : zlen (concat (l ++ [x])) = zlen (concat l) + zlen x.
Proof. rewrite concat_app, zlen_app. cbn [concat]. rewrite app_nil_r. reflexivity. Qed.
Lemma for_fill_at {A} (body : Z -> list A -> res (list A)) (g : Z -> A) n d rest :
  0 <= n <= zlen rest ->
  (forall i o, 0 <= i < n -> zlen o = zlen d + zlen rest -> body i o = wr o (zlen d + i) (g i)) ->
  exists rest', for_ 0 n body (d ++ rest) = Ok ((d ++ map g (zseq 0 n)) ++ rest') /\ zlen rest = n + zlen rest'.
Proof.
  intros Hn Hb.
  destruct (for_inv (fun i o => exists r, o = (d ++ map g (zseq 0 i)) ++ r /\ zlen rest = i + zlen r) 0 n body (d ++ rest))
    as (o & Ho & r & -> & Hr).
  - lia.
  - exists rest. rewrite zseq_nil by lia. cbn [map]. rewrite app_nil_r. split; [reflexivity|lia].
  - intros i o Hi (r & -> & Hr). rewrite Hb; [|lia|rewrite !zlen_app, zlen_map, zlen_zseq by lia; lia].
    destruct (wr_push' (d ++ map g (zseq 0 i)) r (g i)) as (r' & Hw & Hl); [lia|].
    rewrite zlen_app, zlen_map, zlen_zseq in Hw by lia. replace (zlen d + (i - 0)) with (zlen d + i) in Hw by lia.
    rewrite Hw. eexists; split; [reflexivity|]. exists r'. rewrite zseq_snoc, map_app by lia. cbn [map].
    rewrite !app_assoc. split; [reflexivity|lia].
  - exists r; auto.
Qed.
Lemma for_fill2 {A} (body : Z -> Z -> list A -> res (list A)) (g : Z -> Z -> A) n m out :
  0 <= n -> 0 <= m -> n * m <= zlen out ->
  (forall i j o, 0 <= i < n -> 0 <= j < m -> zlen o = zlen out -> body i j o = wr o (i * m + j) (g i j)) ->
  exists rest, for_ 0 n (fun i o => for_ 0 m (body i) o) out
    = Ok (concat (map (fun i => map (g i) (zseq 0 m)) (zseq 0 n)) ++ rest) /\ zlen out = n * m + zlen rest.
Proof.
  intros Hn Hm Hlen Hb.
  assert (Hcl : forall i, 0 <= i -> zlen (concat (map (fun i => map (g i) (zseq 0 m)) (zseq 0 i))) = i * m).
  { intros i Hi. pattern i. apply natlike_ind; [reflexivity| |exact Hi]. intros k Hk IH.
    replace (Z.succ k) with (k + 1) by lia. rewrite (zseq_snoc 0 k), map_app, concat_app, zlen_app, IH by lia.
    cbn [map concat]. rewrite app_nil_r, zlen_map, zlen_zseq by lia. lia. }
  destruct (for_inv (fun i o => exists r, o = concat (map (fun i => map (g i) (zseq 0 m)) (zseq 0 i)) ++ r
                                          /\ zlen out = i * m + zlen r) 0 n (fun i o => for_ 0 m (body i) o) out)
    as (o & Ho & r & -> & Hr).
  - lia.
  - exists out. rewrite (zseq_nil 0 0) by lia. split; [reflexivity|lia].
  - intros i o Hi (r & -> & Hr).
    destruct (for_fill_at (body i) (g i) m (concat (map (fun i => map (g i) (zseq 0 m)) (zseq 0 i))) r) as (r' & Hf & Hl).
    + nia.
    + intros j o' Hj Ho'. rewrite Hcl by lia. rewrite Hcl in Ho' by lia. apply Hb; lia.
    + rewrite Hf. eexists; split; [reflexivity|]. exists r'. rewrite (zseq_snoc 0 i), map_app, concat_app by lia.
      cbn [map concat]. rewrite app_nil_r. split; [reflexivity|nia].
  - exists r; auto.
Qed.
(** two loops in step *)
Lemma for_sim {S T} (R : Z -> S -> T -> Prop) lo hi (f : Z -> S -> res S) (g : Z -> T -> res T) s t :
  lo <= hi -> R lo s t ->
  (forall i s t, lo <= i < hi -> R i s t ->
     match g i t with Ok t' => exists s', f i s = Ok s' /\ R (i + 1) s' t' | Err m => f i s = Err m | UB => f i s = UB end) ->
  match for_ lo hi g t with Ok t' => exists s', for_ lo hi f s = Ok s' /\ R hi s' t' | Err m => for_ lo hi f s = Err m | UB => for_ lo hi f s = UB end.
Proof.
  intros Hlh. unfold for_. remember (Z.to_nat (hi - lo)) as n eqn:Hn. revert lo s t Hlh Hn.
  induction n; intros lo s t Hlh Hn HR H; cbn [loop].
  - assert (lo = hi) by lia; subst; eauto.
  - specialize (H lo s t) as H0. destruct (g lo t) as [t'|m|]; cbn [bind].
    + destruct H0 as (s' & Hs & HR'); [lia|exact HR|]. rewrite Hs. cbn [bind]. apply IHn; try lia; [exact HR'|].
      intros; apply H; [lia|assumption].
    + rewrite H0; [reflexivity|lia|exact HR].
    + rewrite H0; [reflexivity|lia|exact HR].
Qed.
