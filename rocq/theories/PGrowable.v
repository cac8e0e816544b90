(** Growable buffers: the invariant of a heap shared by buffers and snapshots *)
From Verif Require Import Base BaseLemmas Growable SpecGrowable.
Local Open Scope list_scope.
Local Open Scope Z_scope.

Section PGrowable.
Context {T : Type}.
Variable of_int : Z -> T.

(** block [p] of [h] has [r] cells and starts with [l] *)
Definition starts (h : heap T) (p : Z) (l : list T) (r : Z) : Prop :=
  exists rest, nthZ h p = Some (map Some l ++ rest) /\ zlen l + zlen rest = r.

Lemma starts_reads : forall h p l r, starts h p l r -> reads h p (zlen l) l.
Proof.
  intros h p l r (rest & H & _). split; [ reflexivity | ]. intros i Hi.
  destruct (nthZ_lt l i Hi) as (x & Hx). exists x. split; [ exact Hx | ].
  unfold getitem, peek. rewrite (proj2 (rd_Ok h p _) H). cbn [bind].
  assert (nthZ (map Some l ++ rest) i = Some (Some x)) as Hn
    by (rewrite nthZ_app, zlen_map; destruct (Z.ltb_spec i (zlen l)); [ | lia ];
        rewrite nthZ_map, Hx; reflexivity).
  rewrite (proj2 (rd_Ok _ i _) Hn). reflexivity.
Qed.

Lemma starts_range : forall h p l r, starts h p l r -> 0 <= p < zlen h.
Proof. intros h p l r (rest & H & _). exact (nthZ_Some _ _ _ H). Qed.
Lemma starts_room : forall h p l r, starts h p l r -> zlen l <= r.
Proof. intros h p l r (rest & H & E). pose proof (zlen_nonneg rest). lia. Qed.

Lemma starts_app : forall h b p l r, starts h p l r -> starts (h ++ [b]) p l r.
Proof.
  intros h b p l r (rest & H & E). exists rest. split; [ | exact E ].
  rewrite nthZ_app. pose proof (nthZ_Some _ _ _ H). destruct (Z.ltb_spec p (zlen h)); [ exact H | lia ].
Qed.
Lemma starts_last : forall (h : heap T) l rest, starts (h ++ [map Some l ++ rest]) (zlen h) l (zlen l + zlen rest).
Proof. intros. exists rest. split; [ apply nthZ_mid | reflexivity ]. Qed.
Lemma starts_prefix : forall h p l l' r, starts h p (l ++ l') r -> starts h p l r.
Proof.
  intros h p l l' r (rest & H & E). exists (map Some l' ++ rest). split.
  - rewrite H, map_app, app_assoc. reflexivity.
  - rewrite zlen_app in E. rewrite zlen_app, zlen_map. lia.
Qed.

Lemma store_last : forall (h : heap T) blk i x, 0 <= i < zlen blk ->
  store (h ++ [blk]) (zlen h) i x = Ok (h ++ [upd blk (Z.to_nat i) x]).
Proof.
  intros. unfold store. rewrite (proj2 (rd_Ok _ _ _) (nthZ_mid h blk [])). cbn [bind].
  rewrite (wr_Ok _ _ _ H). cbn [bind]. rewrite wr_push. rewrite app_nil_r. reflexivity.
Qed.

(** cells that have not been written *)
Definition unwritten (rest : block T) : Prop := Forall (fun c => c = None) rest.
Lemma unwritten_repeat : forall n, unwritten (repeat None n).
Proof. intros n. induction n; constructor; auto. Qed.
(** filling a fresh block *)
Lemma fill_last : forall (h : heap T) blk l body, zlen l <= zlen blk ->
  (forall i x blk', nthZ l i = Some x -> body i (h ++ [blk']) = store (h ++ [blk']) (zlen h) i (Some x)) ->
  exists rest, for_ 0 (zlen l) body (h ++ [blk]) = Ok (h ++ [map Some l ++ rest]) /\ zlen blk = zlen l + zlen rest /\ (unwritten blk -> unwritten rest).
Proof.
  intros h blk l body Hl Hb.
  destruct (for_list l (fun d hh => exists rest, hh = h ++ [map Some d ++ rest] /\ zlen blk = zlen d + zlen rest /\ (unwritten blk -> unwritten rest))
              body (h ++ [blk])) as (s & E & rest & -> & Hr & Hu).
  - exists blk. split; [ reflexivity | split; [ rewrite zlen_nil; lia | auto ] ].
  - intros d x r t Hd (rest & -> & Hr & Hu). subst l.
    rewrite zlen_app, zlen_cons in Hl. pose proof (zlen_nonneg r).
    rewrite (Hb (zlen d) x) by apply nthZ_mid.
    rewrite store_last by (rewrite zlen_app, zlen_map; pose proof (zlen_nonneg d); lia).
    destruct rest as [ | y rest ]; [ rewrite zlen_nil in Hr; lia | ].
    eexists. split; [ reflexivity | ]. exists rest. split.
    + f_equal. f_equal.
      pose proof (@wr_push _ (map Some d) y rest (Some x)) as W. rewrite zlen_map in W.
      apply wr_inv in W. destruct W as [ _ W ]. rewrite <- W, map_app. reflexivity.
    + split; [ rewrite zlen_app, zlen_cons, zlen_nil; rewrite zlen_cons in Hr; lia | ]. intros H0. specialize (Hu H0). inversion Hu; assumption.
  - exists rest. split; [ exact E | split; [ exact Hr | exact Hu ] ].
Qed.

(** what a new buffer is *)
Definition fresh (h h' : heap T) (b : gbuf) (l : list T) : Prop :=
  exists rest, h' = h ++ [map Some l ++ rest] /\ b = mkGbuf (zlen h) (zlen l) (zlen l + zlen rest)
    /\ 1 <= g_reserved b /\ unwritten rest.

Lemma malloc_ok : forall n (h : heap T), 0 <= n -> malloc n h = Ok (h ++ [repeat None (Z.to_nat n)], zlen h).
Proof. intros. unfold malloc. destruct (Z.ltb_spec n 0); [ lia | reflexivity ]. Qed.

Lemma new_ok : forall o (h : heap T), 1 <= o_initial o -> exists h' b, new_ o h = Ok (h', b) /\ fresh h h' b [].
Proof.
  intros. unfold new_. rewrite malloc_ok by lia. cbn [bind]. do 2 eexists. split; [ reflexivity | ].
  exists (repeat None (Z.to_nat (o_initial o))). cbn [map app g_reserved]. change (zlen (@nil T)) with 0.
  split; [ reflexivity | ]. split; [ f_equal; rewrite zlen_repeat; lia | split; [ lia | apply unwritten_repeat ] ].
Qed.
Lemma clear_ok : forall o b (h : heap T), 1 <= o_initial o -> exists h' b', clear_ o b h = Ok (h', b') /\ fresh h h' b' [].
Proof. intros. exact (new_ok o h H). Qed.
Lemma empty_eq : forall o n (h : heap T), 1 <= o_initial o -> 0 <= n ->
  empty_ o n h = Ok (h ++ [repeat None (Z.to_nat (Z.max (o_initial o) n))], mkGbuf (zlen h) 0 (Z.max (o_initial o) n)).
Proof.
  intros. unfold empty_. destruct (Z.ltb_spec n 0); [ lia | ]. cbv zeta. rewrite malloc_ok by lia. reflexivity.
Qed.
Lemma empty_ok : forall o n (h : heap T), 1 <= o_initial o -> 0 <= n -> exists h' b, empty_ o n h = Ok (h', b) /\ fresh h h' b [].
Proof.
  intros. rewrite empty_eq by assumption. do 2 eexists. split; [ reflexivity | ].
  exists (repeat None (Z.to_nat (Z.max (o_initial o) n))). cbn [map app g_reserved]. change (zlen (@nil T)) with 0.
  split; [ reflexivity | ]. split; [ f_equal; rewrite zlen_repeat; lia | split; [ lia | apply unwritten_repeat ] ].
Qed.

Lemma filled_ok : forall o l (h : heap T) body, 1 <= o_initial o ->
  (forall i x h', nthZ l i = Some x -> body i h' = store h' (zlen h) i (Some x)) ->
  exists h' b, (let* (h, out) := empty_ o (zlen l) h in
     let* h := for_ 0 (zlen l) body h in Ok (h, mkGbuf (g_ptr out) (zlen l) (g_reserved out))) = Ok (h', b) /\ fresh h h' b l.
Proof.
  intros o l h body Hi Hb. rewrite empty_eq by (try assumption; apply zlen_nonneg). cbn [bind].
  destruct (fill_last h (repeat None (Z.to_nat (Z.max (o_initial o) (zlen l)))) l body) as (rest & E & Hr & Hu).
  - rewrite zlen_repeat. lia.
  - intros; apply Hb; assumption.
  - rewrite E. cbn [bind g_ptr g_reserved]. do 2 eexists. split; [ reflexivity | ].
    rewrite zlen_repeat in Hr. exists rest. cbn [g_reserved]. repeat split; [ f_equal; lia | lia | apply Hu, unwritten_repeat ].
Qed.

Lemma full_ok : forall o v n (h : heap T), 1 <= o_initial o -> 0 <= n ->
  exists h' b, full_ o v n h = Ok (h', b) /\ fresh h h' b (repeat v (Z.to_nat n)).
Proof.
  intros o v n h Hi Hn.
  destruct (filled_ok o (repeat v (Z.to_nat n)) h (fun i h' => store h' (zlen h) i (Some v)) Hi) as (h' & b & E & F).
  - intros i x h' Hx. apply nthZ_In in Hx. apply repeat_spec in Hx. subst x. reflexivity.
  - exists h', b. split; [ | exact F ]. rewrite <- E.
    replace (zlen (repeat v (Z.to_nat n))) with n by (rewrite zlen_repeat; lia).
    unfold full_. rewrite empty_eq by assumption. reflexivity.
Qed.
Lemma arange_ok : forall o n (h : heap T), 1 <= o_initial o -> 0 <= n ->
  exists h' b, arange_ of_int o n h = Ok (h', b) /\ fresh h h' b (map of_int (zseq 0 n)).
Proof.
  intros o n h Hi Hn.
  destruct (filled_ok o (map of_int (zseq 0 n)) h (fun i h' => store h' (zlen h) i (Some (of_int i))) Hi) as (h' & b & E & F).
  - intros i x h' Hx. rewrite nthZ_map in Hx. destruct (nthZ (zseq 0 n) i) eqn:E; [ | discriminate ].
    pose proof (nthZ_Some _ _ _ E) as R. rewrite zlen_zseq in R by lia. rewrite nthZ_zseq in E by lia.
    injection E as <-. cbn in Hx. injection Hx as <-. reflexivity.
  - exists h', b. split; [ | exact F ]. rewrite <- E.
    replace (zlen (map of_int (zseq 0 n))) with n by (rewrite zlen_map, zlen_zseq; lia).
    unfold arange_. rewrite empty_eq by assumption. reflexivity.
Qed.

Lemma peek_starts : forall h p l r i x, starts h p l r -> nthZ l i = Some x -> peek h p i = Ok (Some x).
Proof.
  intros h p l r i x (rest & H & _) Hx. unfold peek. rewrite (proj2 (rd_Ok h p _) H). cbn [bind].
  apply rd_Ok. rewrite nthZ_app, zlen_map. pose proof (nthZ_Some _ _ _ Hx).
  destruct (Z.ltb_spec i (zlen l)); [ | lia ]. rewrite nthZ_map, Hx. reflexivity.
Qed.

Lemma convert_ok : forall o f b l (h : heap T), 1 <= o_initial o -> starts h (g_ptr b) l (g_reserved b) ->
  g_length b = zlen l -> 1 <= g_reserved b ->
  exists h' b', convert_ o f b h = Ok (h', b') /\ fresh h h' b' (map f l).
Proof.
  intros o f b l h Hi Hs Hl Hr1. pose proof (starts_room _ _ _ _ Hs) as Hroom.
  unfold convert_. rewrite empty_eq by lia. cbn [bind g_ptr].
  destruct (fill_last h (repeat None (Z.to_nat (Z.max (o_initial o) (g_reserved b)))) (map f l)
     (fun i hh => let* x := getitem hh (g_ptr b) i in store hh (zlen h) i (Some (f x)))) as (rest & E & Hr & Hu).
  - rewrite zlen_repeat, zlen_map. lia.
  - intros i x blk' Hx. rewrite nthZ_map in Hx. destruct (nthZ l i) as [ y | ] eqn:Hy; [ | discriminate ].
    cbn in Hx. injection Hx as <-. unfold getitem.
    rewrite (peek_starts _ _ _ _ _ _ (starts_app _ blk' _ _ _ Hs) Hy). reflexivity.
  - rewrite zlen_map in E. rewrite Hl, E. cbn [bind]. unfold set_length. cbn [g_reserved].
    destruct (Z.ltb_spec (Z.max (o_initial o) (g_reserved b)) (zlen l)); [ lia | ]. cbn [bind g_ptr g_reserved].
    do 2 eexists. split; [ reflexivity | ]. rewrite zlen_repeat in Hr. exists rest. cbn [g_reserved].
    rewrite zlen_map in *. repeat split; [ f_equal; lia | lia | apply Hu, unwritten_repeat ].
Qed.

(** growing moves a buffer to a fresh block *)
Lemma set_reserved_ok : forall n b l (h : heap T), starts h (g_ptr b) l (g_reserved b) -> g_length b = zlen l ->
  1 <= g_reserved b ->
  (n <= g_reserved b /\ set_reserved n b h = Ok (h, b)) \/
  (g_reserved b < n /\ exists h' b', set_reserved n b h = Ok (h', b') /\ fresh h h' b' l /\ g_reserved b' = n).
Proof.
  intros n b l h Hs Hl H1. unfold set_reserved.
  pose proof (starts_room _ _ _ _ Hs). pose proof (zlen_nonneg l).
  destruct (Z.ltb_spec (g_reserved b) n); [ | left; split; [ lia | reflexivity ] ].
  right. split; [ assumption | ]. rewrite malloc_ok by lia. cbn [bind]. unfold memcpy. rewrite Hl.
  destruct (fill_last h (repeat None (Z.to_nat n)) l
     (fun i hh => let* x := peek hh (g_ptr b) i in store hh (zlen h) i x)) as (rest & E & Hr & Hu).
  - rewrite zlen_repeat. lia.
  - intros i x blk' Hx. rewrite (peek_starts _ _ _ _ _ _ (starts_app _ blk' _ _ _ Hs) Hx). reflexivity.
  - rewrite E. cbn [bind]. rewrite zlen_repeat in Hr. do 2 eexists. split; [ reflexivity | ]. split.
    + exists rest. cbn [g_reserved]. repeat split; [ f_equal; lia | lia | apply Hu, unwritten_repeat ].
    + reflexivity.
Qed.

(** one write after the items of a block with room: nothing else changes *)
Lemma store_next : forall (h : heap T) p l r x, starts h p l r -> zlen l < r ->
  exists h', store h p (zlen l) (Some x) = Ok h' /\ starts h' p (l ++ [x]) r /\ zlen h' = zlen h
    /\ forall q, q <> p -> nthZ h' q = nthZ h q.
Proof.
  intros h p l r x (rest & H & E) Hlt. pose proof (nthZ_Some _ _ _ H) as Hp.
  unfold store. rewrite (proj2 (rd_Ok h p _) H). cbn [bind].
  destruct rest as [ | y rest ]; [ rewrite zlen_nil in E; lia | ].
  pose proof (@wr_push _ (map Some l) y rest (Some x)) as W. rewrite zlen_map in W. rewrite W. cbn [bind].
  rewrite wr_Ok by assumption. eexists. split; [ reflexivity | ]. split.
  - exists rest. split.
    + rewrite nthZ_upd by lia. destruct (Z.eqb_spec p (Z.of_nat (Z.to_nat p))); [ | lia ].
      rewrite map_app. reflexivity.
    + rewrite zlen_app, zlen_cons, zlen_nil. rewrite zlen_cons in E. lia.
  - split; [ apply zlen_upd | ]. intros q Hq. rewrite nthZ_upd by lia.
    destruct (Z.eqb_spec q (Z.of_nat (Z.to_nat p))); [ lia | reflexivity ].
Qed.

(** ** the invariant *)
Definition holds_buf (h : heap T) (b : gbuf) (l : list T) : Prop :=
  starts h (g_ptr b) l (g_reserved b) /\ g_length b = zlen l /\ 1 <= g_reserved b.

(** the block of a snapshot still starts with its list; a buffer on the same block has at least these items *)
Definition holds_view (h : heap T) (bs : list gbuf) (v : view) (l : list T) : Prop :=
  v_length v = zlen l /\ (exists r, starts h (v_ptr v) l r)
  /\ forall b, In b bs -> g_ptr b = v_ptr v -> zlen l <= g_length b.

Record inv (st : state T) (s : lists) : Prop := mkInv {
  i_bufs : Forall2 (holds_buf (st_heap st)) (st_bufs st) (ls_bufs s);
  i_views : Forall2 (holds_view (st_heap st) (st_bufs st)) (st_views st) (ls_views s);
  i_alone : NoDup (map g_ptr (st_bufs st))
}.

Lemma Forall2_weaken : forall {A B} (P Q : A -> B -> Prop) l m, (forall a b, In a l -> P a b -> Q a b) -> Forall2 P l m -> Forall2 Q l m.
Proof. intros A B P Q l m H F. induction F; constructor; [ apply H; [ left; reflexivity | assumption ] | apply IHF; intros; apply H; [ right | ]; assumption ]. Qed.
Lemma Forall2_nthZ : forall {A B} (P : A -> B -> Prop) l m i y, Forall2 P l m -> nthZ m i = Some y -> exists x, nthZ l i = Some x /\ P x y.
Proof.
  intros A B P l m i y F. revert i. induction F as [ | a b l m H F IH ]; intros i Hi.
  - rewrite nthZ_nil in Hi. discriminate.
  - rewrite nthZ_cons in Hi; rewrite nthZ_cons. destruct (i =? 0); [ injection Hi as <-; exists a; auto | exact (IH _ Hi) ].
Qed.
Lemma Forall2_by_nthZ : forall {A B} (P : A -> B -> Prop) l m, zlen l = zlen m ->
  (forall i a b, nthZ l i = Some a -> nthZ m i = Some b -> P a b) -> Forall2 P l m.
Proof.
  induction l as [ | a l IH ]; intros [ | b m ] Hz H; [ constructor | exfalso | exfalso | constructor ];
    [ rewrite zlen_nil, zlen_cons in Hz; pose proof (zlen_nonneg m); lia | rewrite zlen_nil, zlen_cons in Hz; pose proof (zlen_nonneg l); lia | | ].
  - apply (H 0); reflexivity.
  - apply IH; [ rewrite !zlen_cons in Hz; lia | ]. intros i x y Hx Hy. pose proof (nthZ_Some _ _ _ Hx).
    apply (H (i + 1)); rewrite nthZ_cons; destruct (Z.eqb_spec (i + 1) 0); try lia; replace (i + 1 - 1) with i by lia; assumption.
Qed.
Lemma Forall2_upd : forall {A B} (P : A -> B -> Prop) l m n x y, Forall2 P l m -> P x y -> Forall2 P (upd l n x) (upd m n y).
Proof. intros A B P l m n x y F Hxy. revert n. induction F; intros [ | n ]; cbn; constructor; auto. Qed.
Lemma In_upd : forall {A} (l : list A) n x y, In y (upd l n x) -> y = x \/ In y l.
Proof. induction l; intros n x y H; [ destruct n; contradiction | ]. destruct n; cbn in H; destruct H; [ auto | right; right; assumption | subst; right; left; reflexivity | ]. destruct (IHl _ _ _ H); [ auto | right; right; assumption ]. Qed.
Lemma map_upd : forall {A B} (f : A -> B) l n x, map f (upd l n x) = upd (map f l) n (f x).
Proof. induction l; intros [ | n ] x; cbn; try rewrite IHl; reflexivity. Qed.
Lemma NoDup_upd : forall {A} (l : list A) n x, NoDup l -> ~ In x l -> NoDup (upd l n x).
Proof.
  induction l as [ | a l IH ]; intros n x N H; [ destruct n; constructor | ]. inversion N; subst.
  destruct n; cbn; constructor; auto.
  - intro. apply H. right. assumption.
  - intro. apply In_upd in H0. destruct H0; [ subst; apply H; left; reflexivity | auto ].
  - apply IH; auto. intro. apply H. right. assumption.
Qed.

Lemma bufs_range : forall st s b, inv st s -> In b (st_bufs st) -> 0 <= g_ptr b < zlen (st_heap st).
Proof.
  intros st s b I H. destruct I as [ F _ _ ]. revert F H. generalize (st_bufs st) (ls_bufs s). intros bs ls F H.
  induction F as [ | a l bs ls Hh F IH ]; [ contradiction | ]. destruct H as [ -> | H ]; [ | exact (IH H) ].
  exact (starts_range _ _ _ _ (proj1 Hh)).
Qed.

Lemma holds_buf_app : forall h k b l, holds_buf h b l -> holds_buf (h ++ [k]) b l.
Proof. intros h k b l (H1 & H2 & H3). split; [ apply starts_app; exact H1 | auto ]. Qed.

Lemma holds_view_app : forall h k bs bs' v l, holds_view h bs v l ->
  (forall b, In b bs' -> In b bs \/ g_ptr b = zlen h) -> holds_view (h ++ [k]) bs' v l.
Proof.
  intros h k bs bs' v l (H1 & (r & H2) & H3) Hb. split; [ exact H1 | ]. split; [ exists r; apply starts_app; exact H2 | ].
  intros b Hin Hp. destruct (Hb b Hin) as [ Hb' | Hb' ]; [ exact (H3 b Hb' Hp) | ].
  pose proof (starts_range _ _ _ _ H2). lia.
Qed.

(** a new buffer joins *)
Lemma inv_add : forall st s h' b l, inv st s -> fresh (st_heap st) h' b l ->
  inv (mkState h' (st_bufs st ++ [b]) (st_views st)) (mkLists (ls_bufs s ++ [l]) (ls_views s)).
Proof.
  intros st s h' b l I (rest & -> & -> & H1 & _). pose proof I as [ F V N ]. constructor; cbn.
  - apply Forall2_app.
    + eapply Forall2_weaken; [ | exact F ]. intros; apply holds_buf_app; assumption.
    + constructor; [ | constructor ]. split; [ apply starts_last | ]. split; [ reflexivity | exact H1 ].
  - eapply Forall2_weaken; [ | exact V ]. intros v lv _ Hv. eapply holds_view_app; [ exact Hv | ].
    intros b Hb. apply in_app_or in Hb. destruct Hb as [ Hb | [ <- | [] ] ]; [ left; exact Hb | right; reflexivity ].
  - rewrite map_app. cbn. apply NoDup_rev in N. rewrite <- (rev_involutive (map g_ptr (st_bufs st) ++ [zlen (st_heap st)])).
    apply NoDup_rev. rewrite rev_app_distr. cbn. constructor; [ | exact N ].
    intro Hin. apply in_rev in Hin. apply in_map_iff in Hin. destruct Hin as (b' & E & Hb').
    pose proof (bufs_range st s b' I Hb'). lia.
Qed.

(** a buffer is replaced by a fresh one *)
Lemma inv_move : forall st s h' b l i, inv st s -> fresh (st_heap st) h' b l -> 0 <= i < zlen (st_bufs st) ->
  inv (mkState h' (upd (st_bufs st) (Z.to_nat i) b) (st_views st)) (mkLists (upd (ls_bufs s) (Z.to_nat i) l) (ls_views s)).
Proof.
  intros st s h' b l i I (rest & -> & -> & H1 & _) Hi. pose proof I as [ F V N ]. constructor; cbn.
  - apply Forall2_upd.
    + eapply Forall2_weaken; [ | exact F ]. intros; apply holds_buf_app; assumption.
    + split; [ apply starts_last | ]. split; [ reflexivity | exact H1 ].
  - eapply Forall2_weaken; [ | exact V ]. intros v lv _ Hv. eapply holds_view_app; [ exact Hv | ].
    intros b Hb. apply In_upd in Hb. destruct Hb as [ -> | Hb ]; [ right; reflexivity | left; exact Hb ].
  - rewrite map_upd. apply NoDup_upd; [ exact N | ]. cbn.
    intro Hin. apply in_map_iff in Hin. destruct Hin as (b' & E & Hb').
    pose proof (bufs_range st s b' I Hb'). lia.
Qed.

Lemma upd_id : forall {A} (l : list A) i x, nthZ l i = Some x -> upd l (Z.to_nat i) x = l.
Proof.
  intros A l i x H. pose proof (nthZ_Some _ _ _ H) as R. apply list_eqZ; [ apply zlen_upd | ]. intros j Hj.
  rewrite nthZ_upd by lia. destruct (Z.eqb_spec j (Z.of_nat (Z.to_nat i))); [ | reflexivity ].
  replace j with i by lia. symmetry. exact H.
Qed.

Lemma upd_upd : forall {A} (l : list A) n x y, upd (upd l n x) n y = upd l n y.
Proof. induction l; intros [ | n ] x y; cbn; try rewrite IHl; reflexivity. Qed.

Lemma NoDup_nthZ : forall {A} (l : list A) i j x, NoDup l -> nthZ l i = Some x -> nthZ l j = Some x -> i = j.
Proof.
  intros A l i j x N Hi Hj. pose proof (nthZ_Some _ _ _ Hi). pose proof (nthZ_Some _ _ _ Hj).
  unfold nthZ in *. destruct (Z.ltb_spec i 0); [ lia | ]. destruct (Z.ltb_spec j 0); [ lia | ].
  rewrite NoDup_nth_error in N. specialize (N (Z.to_nat i) (Z.to_nat j)).
  assert (Z.to_nat i = Z.to_nat j) as E; [ | lia ]. apply N; [ unfold zlen in *; lia | congruence ].
Qed.

(** the write of append *)
Lemma inv_write : forall st s i b l x h', inv st s -> nthZ (st_bufs st) i = Some b -> nthZ (ls_bufs s) i = Some l ->
  starts h' (g_ptr b) (l ++ [x]) (g_reserved b) -> zlen h' = zlen (st_heap st) ->
  (forall q, q <> g_ptr b -> nthZ h' q = nthZ (st_heap st) q) ->
  inv (mkState h' (upd (st_bufs st) (Z.to_nat i) (mkGbuf (g_ptr b) (g_length b + 1) (g_reserved b))) (st_views st))
      (mkLists (upd (ls_bufs s) (Z.to_nat i) (l ++ [x])) (ls_views s)).
Proof.
  intros st s i b l x h' I Hb Hl Hs Hz Hq. pose proof I as [ F V N ].
  pose proof (nthZ_Some _ _ _ Hb) as Ri.
  destruct (Forall2_nthZ _ _ _ _ _ F Hl) as (b0 & Hb0 & Hold). rewrite Hb in Hb0. injection Hb0 as <-.
  destruct Hold as (Hst & Hlen & H1).
  assert (zlen (st_bufs st) = zlen (ls_bufs s)) as Hzl by (clear - F; revert F; generalize (st_bufs st) (ls_bufs s); intros bs ls F; induction F; [ reflexivity | rewrite !zlen_cons; lia ]).
  constructor; cbn.
  - assert (forall j a m, nthZ (st_bufs st) j = Some a -> nthZ (ls_bufs s) j = Some m -> j <> i -> holds_buf h' a m) as Hother.
    { intros j a m Ha Hm Hj. destruct (Forall2_nthZ _ _ _ _ _ F Hm) as (a0 & Ha0 & (rest & Hr & Er) & Hlm & H1m).
      rewrite Ha in Ha0. injection Ha0 as <-. split; [ | split; assumption ]. exists rest. split; [ | exact Er ].
      rewrite Hq; [ exact Hr | ]. intro E. apply Hj.
      apply (NoDup_nthZ (map g_ptr (st_bufs st)) j i (g_ptr b) N); rewrite nthZ_map; [ rewrite Ha | rewrite Hb ]; cbn; congruence. }
    apply Forall2_by_nthZ; [ rewrite !zlen_upd; exact Hzl | ]. intros j a m Ha Hm.
    rewrite nthZ_upd in Ha by lia. rewrite nthZ_upd in Hm by lia.
    destruct (Z.eqb_spec j (Z.of_nat (Z.to_nat i))) as [ -> | Hj ].
    + injection Ha as <-. injection Hm as <-. split; [ exact Hs | ]. cbn. split; [ rewrite zlen_app, zlen_cons, zlen_nil; lia | exact H1 ].
    + apply (Hother j); try assumption. lia.
  - eapply Forall2_weaken; [ | exact V ]. intros v lv _ (E1 & (r & Hr) & E3). split; [ exact E1 | ]. split.
    + destruct (Z.eq_dec (v_ptr v) (g_ptr b)) as [ Ep | Np ].
      * (* the snapshot lies on the block that is written: its list is a prefix *)
        assert (zlen lv <= zlen l) as Hle
          by (rewrite <- Hlen; apply E3; [ exact (nthZ_In _ _ _ Hb) | symmetry; exact Ep ]).
        destruct Hst as (r1 & N1 & _). destruct Hr as (r2 & N2 & _). rewrite Ep, N1 in N2. injection N2 as N2.
        assert (l = lv ++ slice (zlen lv) (zlen l) l) as Hpre.
        { assert (lv = slice 0 (zlen lv) l) as Hlv.
          { apply list_eqZ; [ rewrite zlen_slice; pose proof (zlen_nonneg lv); lia | ]. intros k Hk.
            rewrite nthZ_slice by lia. assert (nthZ (map Some l ++ r1) k = nthZ (map Some lv ++ r2) k) as Hk2 by (rewrite N2; reflexivity).
            rewrite !nthZ_app, !zlen_map in Hk2. destruct (Z.ltb_spec k (zlen l)); [ | lia ]. destruct (Z.ltb_spec k (zlen lv)); [ | lia ].
            rewrite !nthZ_map in Hk2. replace (0 + k) with k by lia.
            destruct (nthZ l k); destruct (nthZ lv k); cbn in Hk2; congruence. }
          rewrite Hlv at 1. rewrite <- slice_split by (pose proof (zlen_nonneg lv); lia).
          rewrite slice_full. reflexivity. }
        exists (g_reserved b). rewrite Ep. rewrite Hpre, <- app_assoc in Hs. exact (starts_prefix _ _ _ _ _ Hs).
      * exists r. destruct Hr as (rest & Hr & Er). exists rest. split; [ rewrite Hq; assumption | exact Er ].
    + intros b' Hb' Ep. apply In_upd in Hb'. destruct Hb' as [ -> | Hb' ]; [ | exact (E3 b' Hb' Ep) ].
      cbn in *. specialize (E3 b (nthZ_In _ _ _ Hb) Ep). lia.
  - rewrite map_upd. cbn. rewrite upd_id; [ exact N | ]. rewrite nthZ_map, Hb. reflexivity.
Qed.

Lemma inv_nth : forall st s i l, inv st s -> nthZ (ls_bufs s) i = Some l ->
  exists b, nthZ (st_bufs st) i = Some b /\ holds_buf (st_heap st) b l /\ 0 <= i < zlen (st_bufs st).
Proof.
  intros st s i l [ F _ _ ] H. destruct (Forall2_nthZ _ _ _ _ _ F H) as (b & Hb & Hh).
  exists b. repeat split; try assumption; try apply Hh; exact (proj1 (nthZ_Some _ _ _ Hb)) || exact (proj2 (nthZ_Some _ _ _ Hb)).
Qed.

Theorem perform_ok : forall o st s x s', growing o -> inv st s -> meaning of_int s x = Some s' ->
  exists st', perform of_int o st x = Ok st' /\ inv st' s'.
Proof.
  intros o st s x s' (Hi & Hg) I M. destruct x as [ | n | v n | n | f i | i d | i n | i | i ]; cbn in M; unfold perform.
  - injection M as <-. destruct (new_ok o (st_heap st) Hi) as (h' & b & E & F). rewrite E. cbn [add_buf bind].
    eexists. split; [ reflexivity | exact (inv_add _ _ _ _ _ I F) ].
  - destruct (Z.ltb_spec n 0); [ discriminate | ]. injection M as <-.
    destruct (empty_ok o n (st_heap st) Hi) as (h' & b & E & F); [ assumption | ]. rewrite E. cbn [add_buf bind].
    eexists. split; [ reflexivity | exact (inv_add _ _ _ _ _ I F) ].
  - destruct (Z.ltb_spec n 0); [ discriminate | ]. injection M as <-.
    destruct (full_ok o v n (st_heap st) Hi) as (h' & b & E & F); [ assumption | ]. rewrite E. cbn [add_buf bind].
    eexists. split; [ reflexivity | exact (inv_add _ _ _ _ _ I F) ].
  - destruct (Z.ltb_spec n 0); [ discriminate | ]. injection M as <-.
    destruct (arange_ok o n (st_heap st) Hi) as (h' & b & E & F); [ assumption | ]. rewrite E. cbn [add_buf bind].
    eexists. split; [ reflexivity | exact (inv_add _ _ _ _ _ I F) ].
  - destruct (nthZ (ls_bufs s) i) as [ l | ] eqn:Hl; [ | discriminate ]. injection M as <-.
    destruct (inv_nth _ _ _ _ I Hl) as (b & Hb & (Hs & Hlen & H1) & _). rewrite (proj2 (rd_Ok _ _ _) Hb). cbn [bind].
    destruct (convert_ok o f b l (st_heap st) Hi Hs Hlen H1) as (h' & b' & E & F). rewrite E. cbn [add_buf bind].
    eexists. split; [ reflexivity | exact (inv_add _ _ _ _ _ I F) ].
  - destruct (nthZ (ls_bufs s) i) as [ l | ] eqn:Hl; [ | discriminate ]. injection M as <-.
    destruct (inv_nth _ _ _ _ I Hl) as (b & Hb & (Hs & Hlen & H1) & Ri). rewrite (proj2 (rd_Ok _ _ _) Hb). cbn [bind].
    unfold append_. destruct (Z.eqb_spec (g_length b) (g_reserved b)) as [ Hfull | Hroom ].
    + destruct (set_reserved_ok (o_grow o (g_reserved b)) b l (st_heap st) Hs Hlen H1) as [ [ Hn _ ] | (Hn & h' & b' & E & F & Er) ];
        [ specialize (Hg (g_reserved b) H1); lia | ].
      rewrite E. cbn [bind]. pose proof (inv_move _ _ _ _ _ i I F Ri) as I'.
      pose proof F as (rest & Eh & Eb & _).
      assert (starts h' (g_ptr b') l (g_reserved b')) as Hs' by (rewrite Eh, Eb; cbn; apply starts_last).
      assert (g_length b' = zlen l) as Hl' by (rewrite Eb; reflexivity).
      destruct (store_next h' (g_ptr b') l (g_reserved b') d Hs') as (h2 & E2 & S2 & Z2 & Q2); [ lia | ].
      rewrite Hl', E2. cbn [bind put_buf]. rewrite wr_Ok by assumption. cbn [bind].
      eexists. split; [ reflexivity | ].
      pose proof (zlen_nonneg (st_bufs st)).
      assert (nthZ (upd (st_bufs st) (Z.to_nat i) b') i = Some b') as Hb'
        by (rewrite nthZ_upd by lia; destruct (Z.eqb_spec i (Z.of_nat (Z.to_nat i))); [ reflexivity | lia ]).
      pose proof (nthZ_Some _ _ _ Hl) as Rl.
      assert (nthZ (upd (ls_bufs s) (Z.to_nat i) l) i = Some l) as Hl2
        by (rewrite nthZ_upd by lia; destruct (Z.eqb_spec i (Z.of_nat (Z.to_nat i))); [ reflexivity | lia ]).
      pose proof (inv_write _ _ i b' l d h2 I' Hb' Hl2 S2 Z2 Q2) as I2. cbn in I2.
      rewrite !upd_upd, Hl' in I2. exact I2.
    + pose proof (starts_room _ _ _ _ Hs).
      destruct (store_next (st_heap st) (g_ptr b) l (g_reserved b) d Hs) as (h2 & E2 & S2 & Z2 & Q2); [ lia | ].
      cbn [bind]. rewrite Hlen, E2. cbn [bind put_buf]. rewrite wr_Ok by assumption. cbn [bind].
      eexists. split; [ reflexivity | ].
      rewrite <- Hlen. exact (inv_write _ _ i b l d h2 I Hb Hl S2 Z2 Q2).
  - destruct (nthZ (ls_bufs s) i) as [ l | ] eqn:Hl; [ | discriminate ]. injection M as <-.
    destruct (inv_nth _ _ _ _ I Hl) as (b & Hb & (Hs & Hlen & H1) & Ri). rewrite (proj2 (rd_Ok _ _ _) Hb). cbn [bind].
    destruct (set_reserved_ok n b l (st_heap st) Hs Hlen H1) as [ [ Hn E ] | (Hn & h' & b' & E & F & Er) ];
      rewrite E; cbn [put_buf bind]; rewrite wr_Ok by assumption; cbn [bind]; eexists; (split; [ reflexivity | ]).
    + rewrite (upd_id _ _ _ Hb). destruct st; exact I.
    + pose proof (inv_move _ _ _ _ _ i I F Ri) as I'. rewrite (upd_id _ _ _ Hl) in I'. destruct s; exact I'.
  - destruct (nthZ (ls_bufs s) i) as [ l | ] eqn:Hl; [ | discriminate ]. injection M as <-.
    destruct (inv_nth _ _ _ _ I Hl) as (b & Hb & (Hs & Hlen & H1) & Ri). rewrite (proj2 (rd_Ok _ _ _) Hb). cbn [bind].
    destruct (clear_ok o b (st_heap st) Hi) as (h' & b' & E & F). rewrite E. cbn [put_buf bind].
    rewrite wr_Ok by assumption. cbn [bind]. eexists. split; [ reflexivity | exact (inv_move _ _ _ _ _ i I F Ri) ].
  - destruct (nthZ (ls_bufs s) i) as [ l | ] eqn:Hl; [ | discriminate ]. injection M as <-.
    destruct (inv_nth _ _ _ _ I Hl) as (b & Hb & (Hs & Hlen & H1) & Ri). rewrite (proj2 (rd_Ok _ _ _) Hb). cbn [bind].
    eexists. split; [ reflexivity | ]. pose proof I as [ F V N ]. constructor; cbn; [ exact F | | exact N ].
    apply Forall2_app; [ exact V | ]. constructor; [ | constructor ]. unfold snapshot_, holds_view. cbn.
    split; [ exact Hlen | ]. split; [ exists (g_reserved b); exact Hs | ]. intros b' Hb' Ep.
    destruct (In_nthZ _ _ Hb') as (j & Hj).
    assert (j = i) as -> by (apply (NoDup_nthZ (map g_ptr (st_bufs st)) j i (g_ptr b) N); rewrite nthZ_map; [ rewrite Hj | rewrite Hb ]; cbn; congruence).
    rewrite Hb in Hj. injection Hj as <-. lia.
Qed.

Theorem performs_ok : forall o xs st s s', growing o -> inv st s -> meanings of_int s xs = Some s' ->
  exists st', performs of_int o st xs = Ok st' /\ inv st' s'.
Proof.
  intros o xs. induction xs as [ | x xs IH ]; intros st s s' G I M; cbn in M.
  - injection M as <-. exists st. auto.
  - destruct (meaning of_int s x) as [ s1 | ] eqn:E; [ | discriminate ].
    destruct (perform_ok o st s x s1 G I E) as (st1 & E1 & I1). cbn. rewrite E1. cbn [bind]. exact (IH _ _ _ G I1 M).
Qed.

Lemma inv_nothing : inv nothing (mkLists [] []).
Proof. constructor; cbn; constructor. Qed.

Lemma inv_reads : forall st s, inv st s ->
  Forall2 (fun b l => reads (st_heap st) (g_ptr b) (g_length b) l) (st_bufs st) (ls_bufs s)
  /\ Forall2 (fun v l => reads (st_heap st) (v_ptr v) (v_length v) l) (st_views st) (ls_views s).
Proof.
  intros st s [ F V N ]. split.
  - eapply Forall2_weaken; [ | exact F ]. intros b l _ (H & -> & _). exact (starts_reads _ _ _ _ H).
  - eapply Forall2_weaken; [ | exact V ]. intros v l _ (-> & (r & H) & _). exact (starts_reads _ _ _ _ H).
Qed.
End PGrowable.
