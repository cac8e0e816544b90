(** Strided arrays: broadcasting index arrays, slices with them, nested lists *)
From Verif Require Import Base BaseLemmas LoopLemmas OmapLemmas Content KRange KGetitem KCore Core SpecSlice SpecArray PRange PCore PCarry Strided SpecStrided PStrided PStrided2 PStrided3.
Local Open Scope list_scope.
Local Open Scope Z_scope.

(** ** The common shape *)
Definition fits (b sh : list Z) : Prop := Forall2 (fun c n => (n = c \/ n = 1) /\ (n = 1 -> c <> 0) /\ 0 <= n) b sh.
Definition merge (s m : list Z) : list Z := map (fun nm => if snd nm =? 0 then 0 else if fst nm <? snd nm then snd nm else fst nm) (combine s m).
Lemma fits_len b s : fits b s -> zlen s = zlen b.
Proof. induction 1; [reflexivity|rewrite !zlen_cons; lia]. Qed.
Lemma fits_merge : forall b s m, fits b s -> fits b m -> fits b (merge s m) /\ forall k c, nthZ b k = Some c -> nthZ s k = Some c \/ nthZ m k = Some c -> nthZ (merge s m) k = Some c.
Proof.
  intros b s m H. revert m. induction H as [|c n b s Hc H IH]; intros m Hm; inversion Hm as [|? x ? m' Hx Hm']; subst.
  - split; [constructor|]. intros k c E. pose proof (nthZ_Some _ _ _ E). change (zlen (@nil Z)) with 0 in *. lia.
  - destruct (IH m' Hm') as [I1 I2]. unfold merge. cbn [combine map fst snd]. set (r := if x =? 0 then 0 else if n <? x then x else n).
    assert (Hr : (r = c \/ r = 1) /\ (r = 1 -> c <> 0) /\ 0 <= r /\ (n = c \/ x = c -> r = c)). { unfold r. destruct (Z.eqb_spec x 0), (Z.ltb_spec n x); lia. }
    split; [constructor; [lia|exact I1]|]. intros k d. rewrite !nthZ_cons. destruct (Z.eqb_spec k 0).
    + intros E [E'|E']; injection E as ->; injection E' as ->; f_equal; apply Hr; auto.
    + intros E E'. apply (I2 (k - 1) d E). exact E'.
Qed.
Definition arrays_fit (b : list Z) (items : list nditem) : Prop := forall index shape strides, In (NArray index shape strides) items -> fits b shape.
Lemma sealed_shape_some b : forall items s, fits b s -> arrays_fit b items ->
  (forall k c, nthZ b k = Some c -> nthZ s k = Some c \/ exists index shape strides, In (NArray index shape strides) items /\ nthZ shape k = Some c) ->
  sealed_shape (Some s) items = Ok (Some b).
Proof.
  induction items as [|it items IH]; intros s Fs Fi H.
  - cbn [sealed_shape]. do 2 f_equal. apply list_eqZ; [apply fits_len, Fs|]. intros i Hi. rewrite (fits_len _ _ Fs) in Hi. destruct (nthZ_lt b i Hi) as (c & E). rewrite E. destruct (H i c E) as [X|(? & ? & ? & [] & _)]. exact X.
  - assert (Fi' : arrays_fit b items) by (intros x y z Hin; eapply Fi; right; eauto).
    assert (SKIP : is_array it = false -> forall k c, nthZ b k = Some c -> nthZ s k = Some c \/ exists index shape strides, In (NArray index shape strides) items /\ nthZ shape k = Some c).
    { intros Hn k c E. destruct (H k c E) as [X|(x & y & z & [->|Hin] & X)]; [auto|discriminate Hn|right; eauto 6]. }
    destruct it as [| | | |index shape strides]; cbn [sealed_shape]; auto.
    assert (Fa : fits b shape) by (eapply Fi; left; reflexivity). rewrite (fits_len _ _ Fs), (fits_len _ _ Fa), Z.eqb_refl. cbn [negb]. destruct (fits_merge b s shape Fs Fa) as [M1 M2]. apply IH; auto.
    intros k c E. destruct (H k c E) as [X|(x & y & z & [Y|Hin] & X)]; [left; apply M2; auto|injection Y as <- <- <-; left; apply M2; auto|right; eauto 6].
Qed.
Lemma sealed_shape_first b : forall items, existsb is_array items = true -> arrays_fit b items ->
  (forall k c, nthZ b k = Some c -> exists index shape strides, In (NArray index shape strides) items /\ nthZ shape k = Some c) ->
  sealed_shape None items = Ok (Some b).
Proof.
  induction items as [|it items IH]; intros A Fi H; [discriminate|]. cbn [existsb] in A. assert (Fi' : arrays_fit b items) by (intros x y z Hin; eapply Fi; right; eauto).
  destruct (is_array it) eqn:Ei.
  - destruct it as [| | | |index shape strides]; try discriminate. cbn [sealed_shape]. apply sealed_shape_some; auto; [eapply Fi; left; reflexivity|].
    intros k c E. destruct (H k c E) as (x & y & z & [Y|Hin] & X); [injection Y as <- <- <-; auto|right; eauto 6].
  - assert (sealed_shape None (it :: items) = sealed_shape None items) as -> by (destruct it; try discriminate; reflexivity). apply IH; auto.
    intros k c E. destruct (H k c E) as (x & y & z & [->|Hin] & X); [discriminate|eauto 6].
Qed.

(** ** Items *)
Lemma sealed_strides : forall b sh st, fits b sh -> zlen sh = zlen st ->
  exists st', mapres (fun nms : Z * (Z * Z) => let '(n, (m, s)) := nms in if m =? n then Ok s else if m =? 1 then Ok 0 else Err "cannot broadcast arrays in slice"%string) (combine b (combine sh st)) = Ok st' /\ zlen st' = zlen b /\
    forall p, inside b p -> dot p st' = dot (repeated p sh) st /\ inside sh (repeated p sh).
Proof.
  intros b sh st H. revert st. induction H as [|c n b sh Hc H IH]; intros st L.
  - exists []. split; [reflexivity|]. split; [reflexivity|]. intros p Hp. apply inside_nil in Hp as ->. split; [reflexivity|constructor].
  - destruct st as [|s st]; [rewrite zlen_cons, zlen_nil in L; pose proof (zlen_nonneg sh); lia|]. rewrite !zlen_cons in L. destruct (IH st ltac:(lia)) as (st' & E & L' & G).
    assert (X : exists s', (if n =? c then Ok s else if n =? 1 then Ok 0 else Err "cannot broadcast arrays in slice"%string) = Ok s' /\ forall i, 0 <= i < c -> i * s' = (if n =? 1 then 0 else i) * s /\ 0 <= (if n =? 1 then 0 else i) < n).
    { destruct (Z.eqb_spec n c) as [->|Hne].
      - exists s. split; [reflexivity|]. intros i Hi. destruct (Z.eqb_spec c 1); [assert (i = 0) as -> by lia; lia|lia].
      - destruct (Z.eqb_spec n 1) as [->|]; [|lia]. exists 0. split; [reflexivity|]. intros i Hi. lia. }
    destruct X as (s' & Es & Hs). exists (s' :: st'). cbn [combine mapres]. rewrite Es. cbn [bind]. rewrite E. split; [reflexivity|]. split; [rewrite !zlen_cons; lia|].
    intros p Hp. apply inside_inv in Hp as (i & q & -> & Hi & Hq). destruct (G q Hq) as [G1 G2]. destruct (Hs i Hi) as [S1 S2]. unfold repeated. cbn [combine map fst snd dot]. fold (repeated q sh). split; [rewrite G1, S1; reflexivity|]. apply inside_cons. auto.
Qed.
Lemma dot_zeros : forall p b : list Z, dot p (map (fun _ => 0) b) = 0.
Proof. induction p as [|i p IH]; intros [|x b]; cbn [map dot]; try reflexivity. rewrite IH. lia. Qed.
Lemma sealed_item_ok b it : item_ok it -> (forall index shape strides, it = NArray index shape strides -> fits b shape) -> exists it', sealed_item b it = Ok it' /\ seals b it it'.
Proof.
  intros O F. destruct it as [i|start stop step| | |index shape strides]; cbn [sealed_item seals]; try (eexists; split; reflexivity).
  - eexists; split; [reflexivity|]. eexists _, _. split; [reflexivity|]. split; [rewrite zlen_map; reflexivity|]. intros p _. rewrite dot_zeros. cbn [says]. split; [reflexivity|discriminate].
  - destruct O as (_ & L & _ & O). destruct (sealed_strides b shape strides (F _ _ _ eq_refl) L) as (st' & -> & L' & G). cbn [bind]. eexists; split; [reflexivity|]. eexists _, _. split; [reflexivity|]. split; [exact L'|].
    intros p Hp. destruct (G p Hp) as [G1 G2]. cbn [says]. rewrite G1. split; [reflexivity|apply O, G2].
Qed.
Lemma sealed_items b : forall items, Forall item_ok items -> arrays_fit b items -> exists items', mapres (sealed_item b) items = Ok items' /\ Forall2 (seals b) items items'.
Proof.
  induction 1 as [|it items O H IH]; intros F; [exists []; split; [reflexivity|constructor]|].
  destruct IH as (items' & E & S); [intros x y z Hin; eapply F; right; eauto|]. destruct (sealed_item_ok b it O) as (it' & E1 & S1); [intros x y z ->; eapply F; left; reflexivity|].
  exists (it' :: items'). cbn [mapres]. rewrite E1. cbn [bind]. rewrite E. split; [reflexivity|constructor; auto].
Qed.
Lemma seals_array b it it' : seals b it it' -> is_array it' = array_or_integer it.
Proof. destruct it; cbn [seals]; try (intros ->; reflexivity); intros (? & ? & -> & _); reflexivity. Qed.
Lemma seals_ellipsis b it it' : seals b it it' -> is_ellipsis it' = is_ellipsis it.
Proof. destruct it; cbn [seals]; try (intros ->; reflexivity); intros (? & ? & -> & _); reflexivity. Qed.
Lemma seals_ellipses b : forall l l', Forall2 (seals b) l l' -> zlen (filter is_ellipsis l') = ellipses l.
Proof. unfold ellipses. induction 1 as [|i i' l l' H1 H2 IH]; [reflexivity|]. cbn [filter]. rewrite (seals_ellipsis _ _ _ H1). destruct i; cbn [is_ellipsis]; rewrite ?zlen_cons, ?IH; reflexivity. Qed.

(** ** Adjacent items *)
Lemma drop_split : forall l, exists pre, l = pre ++ drop_to_array l /\ existsb is_array pre = false.
Proof.
  induction l as [|x l IH]; [exists []; auto|]. cbn [drop_to_array]. destruct (is_array x) eqn:E; [exists []; auto|]. destruct IH as (pre & E1 & E2). exists (x :: pre). cbn [app existsb]. rewrite <- E1, E. auto.
Qed.
Lemma drop_none pre l : existsb is_array pre = false -> drop_to_array (pre ++ l) = drop_to_array l.
Proof. induction pre as [|x pre IH]; [reflexivity|]. cbn [existsb app drop_to_array]. intros E. apply Bool.orb_false_iff in E as [-> E]. auto. Qed.
Lemma drop_array x l : is_array x = true -> drop_to_array (x :: l) = x :: l.
Proof. intros E. cbn [drop_to_array]. now rewrite E. Qed.
Lemma filter_none {A} (f : A -> bool) l : existsb f l = false -> filter f l = [].
Proof. induction l as [|x l IH]; [reflexivity|]. cbn [existsb filter]. intros E. apply Bool.orb_false_iff in E as [-> E]. auto. Qed.
Lemma filter_every {A} (f : A -> bool) l : forallb f l = true -> filter f l = l.
Proof. induction l as [|x l IH]; [reflexivity|]. cbn [forallb filter]. intros E. apply andb_prop in E as [-> E]. f_equal; auto. Qed.
Lemma filter_zlen {A} (f : A -> bool) l : zlen (filter f l) <= zlen l.
Proof. induction l as [|x l IH]; [reflexivity|]. cbn [filter]. destruct (f x); rewrite !zlen_cons; lia. Qed.
Lemma filter_zlen_all {A} (f : A -> bool) l : zlen (filter f l) = zlen l -> forallb f l = true.
Proof. induction l as [|x l IH]; [reflexivity|]. cbn [filter forallb]. pose proof (filter_zlen f l). destruct (f x); rewrite !zlen_cons; intros E; [apply IH; lia|lia]. Qed.
Lemma existsb_rev {A} (f : A -> bool) l : existsb f (rev l) = existsb f l.
Proof. induction l as [|x l IH]; [reflexivity|]. cbn [rev existsb]. rewrite existsb_app, IH. cbn [existsb]. rewrite Bool.orb_false_r. apply Bool.orb_comm. Qed.
Lemma forallb_rev {A} (f : A -> bool) l : forallb f (rev l) = forallb f l.
Proof. induction l as [|x l IH]; [reflexivity|]. cbn [rev forallb]. rewrite forallb_app, IH. cbn [forallb]. rewrite Bool.andb_true_r. apply Bool.andb_comm. Qed.
Lemma drop_adjacent pre mid post : existsb is_array pre = false -> existsb is_array post = false -> forallb is_array mid = true ->
  drop_to_array (rev (drop_to_array (pre ++ mid ++ post))) = rev mid.
Proof.
  intros E1 E2 E3. rewrite drop_none by exact E1. destruct mid as [|x mid].
  - cbn [app]. rewrite <- (app_nil_r post), drop_none by exact E2. reflexivity.
  - cbn [app]. cbn [forallb] in E3. apply andb_prop in E3 as [Ex E3]. rewrite drop_array by exact Ex. change (x :: mid ++ post) with ((x :: mid) ++ post). rewrite rev_app_distr, drop_none by (rewrite existsb_rev; exact E2).
    destruct (rev (x :: mid)) as [|y l] eqn:Er; [reflexivity|]. apply drop_array. assert (forallb is_array (rev (x :: mid)) = true) as H by (rewrite forallb_rev; cbn [forallb]; rewrite Ex; exact E3). rewrite Er in H. cbn [forallb] in H. apply andb_prop in H as [H _]. exact H.
Qed.
Lemma check_adjacent items : zlen (filter is_array items) = zlen (drop_to_array (rev (drop_to_array items))) ->
  exists pre mid post, items = pre ++ mid ++ post /\ existsb is_array pre = false /\ forallb is_array mid = true /\ existsb is_array post = false.
Proof.
  destruct (drop_split items) as (pre & E1 & P1). set (D := drop_to_array items) in *. destruct (drop_split (rev D)) as (post & E2 & P2). set (B := drop_to_array (rev D)) in *.
  intros H. exists pre, (rev B), (rev post). assert (ED : D = rev B ++ rev post) by (rewrite <- (rev_involutive D), E2, rev_app_distr; reflexivity).
  split; [rewrite E1, ED; reflexivity|]. split; [exact P1|]. split; [|rewrite existsb_rev; exact P2].
  rewrite forallb_rev. apply filter_zlen_all. rewrite <- H. rewrite E1, ED. rewrite !filter_app, (filter_none _ pre P1), (filter_none _ (rev post)) by (rewrite existsb_rev; exact P2). rewrite app_nil_r. cbn [app].
  assert (X : forall l, zlen (filter is_array (rev l)) = zlen (filter is_array l)). { induction l as [|x l IHl]; [reflexivity|]. cbn [rev]. rewrite filter_app, zlen_app, IHl. cbn [filter]. destruct (is_array x); rewrite ?zlen_cons, ?zlen_nil; lia. }
  rewrite X. reflexivity.
Qed.
Lemma seals_split b : forall l l', Forall2 (seals b) l l' -> forall pre mid post, l' = pre ++ mid ++ post -> existsb is_array pre = false -> forallb is_array mid = true -> existsb is_array post = false -> adjacent l.
Proof.
  intros l l' S pre mid post -> E1 E2 E3. apply Forall2_app_inv_r in S as (a & r & S1 & S2 & ->). apply Forall2_app_inv_r in S2 as (m & c & S2 & S3 & ->). exists a, m, c. split; [reflexivity|].
  assert (X : forall l l', Forall2 (seals b) l l' -> existsb is_array l' = existsb array_or_integer l) by (induction 1 as [|? ? ? ? H1 H2 IH]; [reflexivity|]; cbn [existsb]; rewrite (seals_array _ _ _ H1), IH; reflexivity).
  assert (Y : forall l l', Forall2 (seals b) l l' -> forallb is_array l' = forallb array_or_integer l) by (induction 1 as [|? ? ? ? H1 H2 IH]; [reflexivity|]; cbn [forallb]; rewrite (seals_array _ _ _ H1), IH; reflexivity).
  rewrite <- (X _ _ S1), <- (Y _ _ S2), <- (X _ _ S3). auto.
Qed.
Lemma seals_adjacent b l l' : Forall2 (seals b) l l' -> adjacent l -> zlen (filter is_array l') = zlen (drop_to_array (rev (drop_to_array l'))).
Proof.
  intros S (pre & mid & post & -> & E1 & E2 & E3). apply Forall2_app_inv_l in S as (a & r & S1 & S2 & ->). apply Forall2_app_inv_l in S2 as (m & c & S2 & S3 & ->).
  assert (X : forall l l', Forall2 (seals b) l l' -> existsb is_array l' = existsb array_or_integer l) by (induction 1 as [|? ? ? ? H1 H2 IH]; [reflexivity|]; cbn [existsb]; rewrite (seals_array _ _ _ H1), IH; reflexivity).
  assert (Y : forall l l', Forall2 (seals b) l l' -> forallb is_array l' = forallb array_or_integer l) by (induction 1 as [|? ? ? ? H1 H2 IH]; [reflexivity|]; cbn [forallb]; rewrite (seals_array _ _ _ H1), IH; reflexivity).
  rewrite drop_adjacent by (rewrite ?(X _ _ S1), ?(X _ _ S3), ?(Y _ _ S2); auto). rewrite !filter_app, (filter_none _ a), (filter_none _ c), (filter_every _ m) by (rewrite ?(X _ _ S1), ?(X _ _ S3), ?(Y _ _ S2); auto). rewrite app_nil_r, zlen_rev'. reflexivity.
Qed.

(** what the arrays become, or why not *)
Lemma become_sealed_ok b items : Forall item_ok items -> common_shape items b -> no_empty_broadcast items b ->
  existsb is_array items = true /\ nonneg b /\ 1 <= zlen b /\
  ((adjacent items /\ ellipses items <= 1 /\ exists items', become_sealed items = Ok items' /\ Forall2 (seals b) items items' /\ existsb is_array items' = true)
   \/ (~ (adjacent items /\ ellipses items <= 1) /\ exists m, become_sealed items = Err m)).
Proof.
  intros O ((i0 & s0 & t0 & Hin) & Hb & Hat) Hne.
  assert (A : existsb is_array items = true) by (apply existsb_exists; eexists; split; [exact Hin|reflexivity]).
  assert (AF : arrays_fit b items).
  { intros x y z Hx. pose proof (Hb x y z Hx) as B. pose proof (Hne x y z Hx) as B'. rewrite Forall_forall in O. specialize (O _ Hx). destruct O as (_ & _ & N & _). unfold fits. clear - B B' N. revert B' N. unfold broadcast_to in B. induction B as [|c n b y H B IH]; intros B' N; [constructor|].
    inversion B'; subst. inversion N; subst. constructor; [tauto|]. apply IH; auto. }
  split; [exact A|]. split.
  { pose proof (Hb _ _ _ Hin) as B. unfold nonneg. apply Forall_forall. intros c Hc. apply In_nthZ in Hc as (k & Hc). destruct (Hat k c Hc) as (x & y & z & Hx & Ex). rewrite Forall_forall in O. specialize (O _ Hx). destruct O as (_ & _ & N & _). rewrite Forall_forall in N. apply N. eapply nthZ_In; eauto. }
  split.
  { rewrite <- (fits_len _ _ (AF _ _ _ Hin)). rewrite Forall_forall in O. specialize (O _ Hin). destruct O as (N & _). destruct s0; [contradiction|]. rewrite zlen_cons. pose proof (zlen_nonneg s0). lia. }
  destruct (sealed_items b items O AF) as (items' & E & S). unfold become_sealed. rewrite (sealed_shape_first b items A AF Hat). cbn [bind]. rewrite E. cbn [bind]. rewrite (seals_ellipses b _ _ S).
  assert (A' : existsb is_array items' = true).
  { apply existsb_exists in A as (x & Hx & Ex). clear - S Hx Ex. induction S as [|y y' l l' H S IH]; [contradiction|]. cbn [existsb]. destruct Hx as [->|Hx]; [|rewrite IH by exact Hx; apply Bool.orb_true_r]. rewrite (seals_array _ _ _ H). destruct x; try discriminate; reflexivity. }
  destruct (Z.ltb_spec 1 (ellipses items)); [right; split; [intros [_ ?]; lia|eexists; reflexivity]|]. cbv zeta.
  destruct (Z.eqb_spec (zlen (filter is_array items')) (zlen (drop_to_array (rev (drop_to_array items'))))) as [Ec|Ec].
  - left. destruct (check_adjacent _ Ec) as (pre & mid & post & Es & E1 & E2 & E3). split; [eapply seals_split; eauto|]. split; [lia|]. eauto.
  - right. split; [|eexists; reflexivity]. intros [Ad _]. apply Ec. eapply seals_adjacent; eauto.
Qed.

Lemma advanced_slice a items b : wellformed a -> nd_shape a <> [] -> Forall item_ok items -> common_shape items b -> no_empty_broadcast items b -> zlen b <= 2 -> adjacent items -> ellipses items <= 1 ->
  match slice_shape (Some b) false items (nd_shape a) with
  | Some _ => exists s, nd_slice a items = Ok s /\ wellformed s /\ nd_itemsize s = nd_itemsize a /\ is_slice (Some b) items a s
  | None => exists m, nd_slice a items = Err m
  end.
Proof.
  intros W Hs O C NE D Ad El. destruct (become_sealed_ok b items O C NE) as (_ & Nb & Lb & [(_ & _ & items' & E & S & A)|(X & _)]); [|exfalso; apply X; auto].
  unfold nd_slice. rewrite E. cbn [bind]. unfold nd_getitem. rewrite A. destruct (contiguous_ok a W) as (c & Ec & Es & Et & Ei & G). pose proof (contiguous_wellformed a c W Ec) as (_ & _ & _ & Wc). rewrite Ec. cbn [bind].
  destruct W as (_ & F & Hi & W). destruct (nd_shape a) as [|n sh] eqn:Ea; [contradiction|]. rewrite Es, Et, Ei. cbn [cst].
  assert (R : reads (nd_mem c) (nd_offset c) (nd_itemsize a) (n :: sh) [0]).
  { intros x idx [<-|[]] I. rewrite Es in Wc. specialize (Wc idx I). unfold element in Wc. rewrite Et, Ei in Wc. rewrite Z.mul_0_l, Z.add_0_r. exact Wc. }
  pose proof (getitem_next_ok (nd_mem c) (nd_offset c) (nd_itemsize a) b Hi Nb ltac:(lia) (Datatypes.S (nd_fuel a items')) (nd_fuel a items') items items' (n :: sh) 1 [0] None 1
    ltac:(lia) ltac:(unfold nd_fuel; rewrite Ea; lia) F S O Logic.I R) as H.
  rewrite prod_cons in H. cbn [cst] in H. replace (nd_itemsize a * (n * prod sh)) with (n * (nd_itemsize a * prod sh)) in H by lia.
  unfold next_ok in H. cbn [is_some] in H. destruct (slice_shape (Some b) false items (n :: sh)) as [rs|] eqn:Er.
  - destruct H as (out & d & -> & Os & Ot & Oo & Oi & Fr & GG). cbn [bind]. eexists; split; [reflexivity|]. cbn [nd_itemsize]. rewrite Os, Ot, Oo. cbn [tl].
    assert (X : forall idx, inside rs idx -> exists src, source (Some b) None items (n :: sh) idx = Some src /\ inside (n :: sh) src /\ element (mkND (nd_mem out) rs (cst (nd_itemsize a) rs) 0 (nd_itemsize a)) idx = element a src).
    { intros idx I. destruct (GG 0 0 idx eq_refl I) as (src & S1 & S2 & S3). cbn [pidx] in S1. exists src. split; [exact S1|]. split; [exact S2|]. rewrite <- (G src S2). unfold element in *. rewrite Et, Ei. cbn [nd_mem nd_strides nd_offset nd_itemsize].
      rewrite Ot, Oo, Oi in S3. cbn [dot] in S3. rewrite !Z.mul_0_l in S3. rewrite !Z.add_0_l, ?Z.add_0_r in S3. rewrite Z.add_0_l. exact S3. }
    split; [|split; [reflexivity|]].
    + split; [cbn [nd_shape nd_strides]; rewrite cst_len; reflexivity|]. split; [exact Fr|]. split; [exact Hi|]. cbn [nd_shape]. intros idx I. destruct (X idx I) as (src & _ & S2 & S3). rewrite S3. apply W, S2.
    + split; [rewrite Ea; exact Er|]. cbn [nd_shape]. rewrite Ea. exact X.
  - destruct H as (m & ->). eexists; reflexivity.
Qed.
Lemma separated_slice a items b : Forall item_ok items -> common_shape items b -> no_empty_broadcast items b -> ~ (adjacent items /\ ellipses items <= 1) -> exists m, nd_slice a items = Err m.
Proof.
  intros O C NE X. destruct (become_sealed_ok b items O C NE) as (_ & _ & _ & [(? & ? & _)|(_ & m & E)]); [exfalso; apply X; auto|]. exists m. unfold nd_slice. rewrite E. reflexivity.
Qed.

(** ** Nested lists *)
Lemma nested_ext : forall sh f g, (forall idx, inside sh idx -> f idx = g idx) -> nested sh f = nested sh g.
Proof. induction sh as [|n sh IH]; intros f g H; cbn [nested]; [apply H; constructor|]. f_equal. apply map_ext_in. intros i Hi. apply In_zseq in Hi. apply IH. intros idx I. apply H. apply inside_cons. auto. Qed.
Lemma nest_ok dt xs : forall sh m N, 0 <= N -> 0 <= m -> zlen xs = N * prod sh -> Forall (fun n => 0 < n) sh ->
  exists c, nest (m :: sh) (Numpy dt xs) = Ok c /\ den c = Some (map (fun i => nested sh (fun idx => match nthZ xs (i * prod sh + dot idx (cst 1 sh)) with Some x => scalar dt x | None => VNone end)) (zseq 0 N)).
Proof.
  induction sh as [|k sh IH]; intros m N HN Hm L F.
  - cbn [nest]. eexists; split; [reflexivity|]. cbn [den]. f_equal. change (prod []) with 1 in *. apply list_eqZ; [rewrite !zlen_map, zlen_zseq by lia; lia|]. rewrite zlen_map. intros i Hi. rewrite !nthZ_map, nthZ_zseq by lia. cbn [option_map nested cst dot].
    destruct (nthZ_lt xs i Hi) as (x & Ex). rewrite Ex. replace ((0 + i) * 1 + 0) with i by lia. rewrite Ex. reflexivity.
  - inversion F as [|? ? Fk F']; subst. rewrite prod_cons in L. destruct (IH k (N * k) ltac:(nia) ltac:(lia) ltac:(lia) F') as (c & E & Dc). 
    change (nest (m :: k :: sh) (Numpy dt xs)) with (let* inner := nest (k :: sh) (Numpy dt xs) in mkRegular k m inner). rewrite E. cbn [bind].
    assert (DR : den (Regular k m c) = Some (map (fun i => nested (k :: sh) (fun idx => match nthZ xs (i * prod (k :: sh) + dot idx (cst 1 (k :: sh))) with Some x => scalar dt x | None => VNone end)) (zseq 0 N))).
    { cbn [den]. rewrite Dc. destruct (Z.ltb_spec 0 k); [|lia]. rewrite zlen_map, zlen_zseq by nia. rewrite Z.sub_0_r, Z.div_mul by lia.
      assert (X : forall l, (forall i, In i l -> 0 <= i < N) -> omap (fun i => sublist (map (fun i => nested sh (fun idx => match nthZ xs (i * prod sh + dot idx (cst 1 sh)) with Some x => scalar dt x | None => VNone end)) (zseq 0 (N * k))) (i * k) ((i + 1) * k)) l
         = Some (map (fun i => nested (k :: sh) (fun idx => match nthZ xs (i * prod (k :: sh) + dot idx (cst 1 (k :: sh))) with Some x => scalar dt x | None => VNone end)) l)).
      { induction l as [|i l IHl]; intros Hl; [reflexivity|]. cbn [omap map]. rewrite IHl by (intros; apply Hl; right; auto). specialize (Hl i (or_introl eq_refl)).
        unfold sublist. rewrite zlen_map, zlen_zseq by nia. destruct (Z.eqb_spec (i * k) ((i + 1) * k)); [lia|]. destruct (Z.leb_spec 0 (i * k)), (Z.leb_spec (i * k) ((i + 1) * k)), (Z.leb_spec ((i + 1) * k) (N * k - 0)); try nia. cbn [andb]. f_equal. f_equal. cbn [nested]. f_equal.
        rewrite slice_map. apply list_eqZ; [rewrite !zlen_map, zlen_slice, !zlen_zseq by (rewrite ?zlen_zseq; nia); lia|]. rewrite zlen_map, zlen_slice by (rewrite ?zlen_zseq; nia). intros j Hj.
        rewrite !nthZ_map, nthZ_slice, !nthZ_zseq by nia. cbn [option_map]. f_equal. apply nested_ext. intros idx I. cbn [cst dot]. rewrite prod_cons. replace ((0 + (i * k + j)) * prod sh + dot idx (cst 1 sh)) with (i * (k * prod sh) + ((0 + j) * (1 * prod sh) + dot idx (cst 1 sh))) by lia. reflexivity. }
      apply X. intros i Hi. apply In_zseq in Hi. lia. }
    exists (Regular k m c). split; [|exact DR]. unfold mkRegular. destruct (Z.ltb_spec k 0); [lia|]. pose proof (den_length _ _ DR) as LR. rewrite zlen_map, zlen_zseq in LR by lia. destruct (Z.ltb_spec (length_ (Regular k m c)) 0); [lia|reflexivity].
Qed.
Lemma items_ok decode a sh : 0 < nd_itemsize a -> nonneg sh -> (forall idx, inside sh idx -> element (mkND (nd_mem a) sh (cst (nd_itemsize a) sh) (nd_offset a) (nd_itemsize a)) idx <> None) ->
  exists xs, nd_items decode (nd_mem a) (nd_offset a) (nd_itemsize a) (prod sh) = Ok xs /\ zlen xs = prod sh /\
    forall idx, inside sh idx -> exists bs, element (mkND (nd_mem a) sh (cst (nd_itemsize a) sh) (nd_offset a) (nd_itemsize a)) idx = Some bs /\ nthZ xs (dot idx (cst 1 sh)) = Some (decode bs).
Proof.
  intros Hi N H. pose proof (prod_nonneg _ N) as PN. destruct a as [mem s0 t0 off isz]; cbn [nd_mem nd_offset nd_itemsize] in *. unfold element in H. cbn [nd_mem nd_offset nd_itemsize nd_strides] in H.
  assert (B : isz * prod sh = 0 \/ (0 <= off /\ off + isz * prod sh <= zlen mem)) by (apply box_in; auto).
  set (g := fun i => decode (slice (off + i * isz) (off + i * isz + isz) mem)).
  exists (map g (zseq 0 (prod sh))). split.
  - unfold nd_items. assert (X : forall l, (forall i, In i l -> 0 <= i < prod sh) -> mapres (fun i => let* b := bytes mem (off + i * isz) isz in Ok (decode b)) l = Ok (map g l)).
    { induction l as [|i l IHl]; intros Hl; [reflexivity|]. cbn [mapres map]. rewrite IHl by (intros; apply Hl; right; auto). specialize (Hl i (or_introl eq_refl)). unfold bytes. destruct (Z.eqb_spec isz 0); [lia|].
      destruct (Z.leb_spec 0 (off + i * isz)), (Z.leb_spec 0 isz), (Z.leb_spec (off + i * isz + isz) (zlen mem)); try nia. reflexivity. }
    apply X. intros i Hi'. apply In_zseq in Hi'. lia.
  - split; [rewrite zlen_map, zlen_zseq by lia; lia|]. intros idx I. pose proof (dot_cst 1 sh idx ltac:(lia) I) as D. specialize (H idx I). unfold element. cbn [nd_mem nd_offset nd_itemsize nd_strides]. destruct (block_Some _ _ _ H) as [B1 B2].
    rewrite dot_cst_scale in *. rewrite block_in by lia. eexists; split; [reflexivity|]. rewrite nthZ_map, nthZ_zseq by lia. cbn [option_map]. unfold g. do 3 f_equal; lia.
Qed.
Lemma regular_ok decode dt a : wellformed a -> nd_shape a <> [] -> Forall (fun n => 0 < n) (tl (tl (nd_shape a))) ->
  exists c vs, nd_toRegularArray decode dt a = Ok c /\ den c = Some vs /\
    VList vs = nested (nd_shape a) (fun idx => match element a idx with Some bs => scalar dt (decode bs) | None => VNone end).
Proof.
  intros W Hs F. unfold nd_toRegularArray. destruct (contiguous_ok a W) as (c & Ec & Es & Et & Ei & G). pose proof (contiguous_wellformed a c W Ec) as (_ & Nc & Hic & Wc). rewrite Ec. cbn [bind].
  destruct W as (_ & N & Hi & W). rewrite fold_left_prod, Z.mul_1_l.
  destruct (items_ok decode c (nd_shape a)) as (xs & -> & Lx & X); [lia|exact N| |].
  { intros idx I. rewrite Es in Wc. specialize (Wc idx I). unfold element in *. rewrite Et in Wc. cbn [nd_mem nd_offset nd_itemsize nd_strides]. rewrite Ei in *. exact Wc. }
  cbn [bind].
  assert (V : forall idx, inside (nd_shape a) idx -> match nthZ xs (dot idx (cst 1 (nd_shape a))) with Some x => scalar dt x | None => VNone end = match element a idx with Some bs => scalar dt (decode bs) | None => VNone end).
  { intros idx I. destruct (X idx I) as (bs & E1 & E2). rewrite E2, <- (G idx I). unfold element in *. cbn [nd_mem nd_offset nd_itemsize nd_strides] in E1. rewrite Et. rewrite Ei in *. rewrite E1. reflexivity. }
  destruct (nd_shape a) as [|n [|k sh]] eqn:Ea; [contradiction| |]; cbn [tl] in F; inversion N as [|? ? Nn N']; subst.
  - destruct (nest_ok dt xs [] n n Nn Nn) as (r & E & D); [rewrite Lx; cbn; lia|constructor|]. rewrite E. eexists _, _. split; [reflexivity|]. split; [exact D|]. cbn [nested]. f_equal. apply map_ext_in. intros i Hi'. apply In_zseq in Hi'. 
    rewrite <- (V [i]) by (apply inside_cons; split; [lia|constructor]). cbn [cst dot]. replace (i * prod [] + 0) with (i * (1 * prod []) + 0) by lia. reflexivity.
  - inversion N' as [|? ? Nk N'']; subst. rewrite !prod_cons in Lx. destruct (nest_ok dt xs sh k (n * k) ltac:(nia) Nk ltac:(lia) F) as (r & E & D).
    change (nest (n :: k :: sh) (Numpy dt xs)) with (let* inner := nest (k :: sh) (Numpy dt xs) in mkRegular k n inner). rewrite E. cbn [bind].
    assert (DR : den (Regular k n r) = Some (map (fun i => nested (k :: sh) (fun idx => match nthZ xs (dot (i :: idx) (cst 1 (n :: k :: sh))) with Some x => scalar dt x | None => VNone end)) (zseq 0 n))).
    { destruct (Z.eq_dec k 0) as [->|Hk].
      - cbn [den]. rewrite D. change (0 <? 0) with false. change (0 =? 0) with true. destruct (Z.leb_spec 0 n); [|lia]. cbn [andb]. f_equal. apply list_eqZ; [rewrite zlen_map, zlen_zseq by lia; unfold zlen; rewrite repeat_length; lia|].
        intros i Hi'. assert (Hin : 0 <= i < n) by (unfold zlen in Hi'; rewrite repeat_length in Hi'; lia). rewrite nthZ_map, nthZ_zseq by lia. cbn [option_map nested]. rewrite (zseq_nil 0 0) by lia. cbn [map].
        destruct (nthZ_lt (repeat (VList []) (Z.to_nat n)) i Hi') as (y & Ey). rewrite Ey. apply nthZ_In, repeat_spec in Ey. subst y. reflexivity.
      - destruct (nest_ok dt xs (k :: sh) n n Nn Nn ltac:(rewrite prod_cons; lia) ltac:(constructor; [lia|exact F])) as (r' & E' & D'). change (nest (n :: k :: sh) (Numpy dt xs)) with (let* inner := nest (k :: sh) (Numpy dt xs) in mkRegular k n inner) in E'. rewrite E in E'. cbn [bind] in E'.
        assert (r' = Regular k n r) as -> by (unfold mkRegular in E'; destruct (k <? 0); [discriminate|]; destruct (_ <? 0); [discriminate|]; congruence).
        rewrite D'. f_equal. apply map_ext. intros i. apply nested_ext. intros idx I. change (dot (i :: idx) (cst 1 (n :: k :: sh))) with (i * (1 * prod (k :: sh)) + dot idx (cst 1 (k :: sh))). rewrite Z.mul_1_l. reflexivity. }
    exists (Regular k n r), (map (fun i => nested (k :: sh) (fun idx => match nthZ xs (dot (i :: idx) (cst 1 (n :: k :: sh))) with Some x => scalar dt x | None => VNone end)) (zseq 0 n)).
    split; [|split; [exact DR|]].
    + unfold mkRegular. destruct (Z.ltb_spec k 0); [lia|]. pose proof (den_length _ _ DR) as LR. rewrite zlen_map, zlen_zseq in LR by lia. destruct (Z.ltb_spec (length_ (Regular k n r)) 0); [lia|reflexivity].
    + change (nested (n :: k :: sh)) with (fun f : list Z -> value => VList (map (fun i => nested (k :: sh) (fun idx => f (i :: idx))) (zseq 0 n))). cbv beta. f_equal. apply map_ext_in. intros i Hi'. apply In_zseq in Hi'. apply nested_ext. intros idx I. apply V. apply inside_cons. split; [lia|exact I].
Qed.
