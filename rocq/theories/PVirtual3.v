(** Proofs about virtual arrays: histories of requests. *)
From Verif Require Import Base BaseLemmas LoopLemmas OmapLemmas Content KCore Core KRange KConvert Convert KOption Option KAxis Axis KGetitem
  SpecArray SpecForm SpecSlice SpecOption PPromote PCore PRange PCarry PAt PList POption PForm PAxis PNat PNum Getitem SpecGetitem PGetitemK PGetitem1 PField PGetitem PGetitem2
  Virtual SpecVirtual PVirtual PVirtual2 ThmC03.
From Coq Require Import String.
From Coq Require Import List.
Import ListNotations.
Local Open Scope string_scope.
Local Open Scope list_scope.
Local Open Scope Z_scope.
Ltac Zify.zify_post_hook ::= idtac.

(** the array has these values, and this type up to missing values *)
Definition fine (c : content) (fv : form * list value) : Prop :=
  den c = Some (snd fv) /\ bare (form_of c) = bare (fst fv) /\ steady (layout c) = true.
Lemma fine_like c c' f vs ws : fine c (f, vs) -> like c c' -> den c' = Some ws -> fine c' (f, ws).
Proof. intros (D & B & S1) [L1 L2] D'. split; [exact D'|]. split; [cbn [fst]; rewrite L1; exact B|auto]. Qed.

Lemma range_request c f vs a b ws : fine c (f, vs) -> omap (nthZ vs) (py_slice (opt64 a) (opt64 b) 1 (zlen vs)) = Some ws ->
  exists c', getitem_range c a b = Ok c' /\ fine c' (f, ws) /\ layout c' = layout c.
Proof.
  intros (D & B & S1) Hw. destruct (getitem_range_den c vs a b D) as (c' & vs' & E & D' & P). exists c'. split; [exact E|]. destruct (getitem_range_layout _ _ _ _ S1 E) as [L1 L2]. split; [|exact L1].
  apply omap_picks in P. rewrite Hw in P. injection P as <-. split; [exact D'|]. split; [cbn [fst]; rewrite L2; exact B|rewrite L1; exact S1].
Qed.
Lemma nowrap_request c f vs a b : fine c (f, vs) -> 0 <= a <= b -> b <= zlen vs ->
  exists c', getitem_range_nowrap c a b = Ok c' /\ fine c' (f, slice a b vs).
Proof.
  intros F Ha Hb. destruct (range_den c vs a b (proj1 F) Ha Hb) as (c' & E & D'). exists c'. split; [exact E|]. exact (fine_like _ _ _ _ _ F (range_like _ _ _ _ E) D').
Qed.
Lemma py_slice_inside a b n : 0 <= a <= b -> b <= n -> n < kSliceNone -> py_slice (opt64 a) (opt64 b) 1 n = zseq a b.
Proof.
  intros Ha Hb Hn. pose proof (regularize_step1 a b n ltac:(lia)) as R. unfold regularize_rangeslice in R. 
  assert (negb (a =? kSliceNone) = true) as Ea by (destruct (Z.eqb_spec a kSliceNone); [lia|reflexivity]). assert (negb (b =? kSliceNone) = true) as Eb by (destruct (Z.eqb_spec b kSliceNone); [lia|reflexivity]).
  rewrite Ea, Eb in R. cbn [negb] in R.
  destruct (Z.ltb_spec a 0); [lia|]. destruct (Z.ltb_spec a 0); [lia|]. destruct (Z.ltb_spec n a); [lia|]. destruct (Z.ltb_spec b 0); [lia|]. destruct (Z.ltb_spec b 0); [lia|]. destruct (Z.ltb_spec n b); [lia|]. destruct (Z.ltb_spec b a); [lia|].
  symmetry. apply R.
Qed.
Lemma carry_elem vs idx ws : omap (nthZ vs) idx = Some ws -> omap (elem vs) idx = Some ws.
Proof.
  intros H. rewrite <- H. apply omap_ext. intros i Hi. pose proof (omap_nthZ_range _ _ _ H i Hi). unfold elem, wrap. destruct (Z.ltb_spec i 0); [lia|]. destruct (Z.leb_spec 0 i); [|lia]. destruct (Z.ltb_spec i (zlen vs)); [|lia]. reflexivity.
Qed.

Lemma F2_nth_r {A B} (R : A -> B -> Prop) l l' i y : Forall2 R l l' -> nthZ l' i = Some y -> exists x, nthZ l i = Some x /\ R x y.
Proof.
  intros F Hy. assert (F' : Forall2 (fun b a => R a b) l' l) by (clear -F; induction F; constructor; auto). destruct (F2_nthZ _ _ _ _ _ F' Hy) as (x & Hx & Rx). eauto.
Qed.
Section World.
Variable is64 : content -> bool.
Variable fuel : nat.
Variable make : Z -> res content.
Variable lost : nat -> bool.
Hypothesis Hfuel : (2 <= fuel)%nat.
Notation getitem_ := (getitem is64 fuel).
Notation generate := (slice_generate is64 fuel).
Notation arr := (array is64 fuel make lost).

Lemma fuel2 : exists n, fuel = S (S n).
Proof. clear -Hfuel. destruct fuel as [|[|n]]; [lia|lia|eauto]. Qed.

(** ** requests to the generated array *)
Definition direct (r : request) (c : content) : res item :=
  match r with
  | RRange a b => let* x := getitem_range c a b in Ok (IArray x)
  | RSlice a b s => getitem_ c [SRange a b s]
  | RIndex idx => getitem_ c [SArray [zlen idx] idx]
  | RField key => let* x := getitem_field key c in Ok (IArray x)
  | RCarry idx => let* x := carry c idx true in Ok (IArray x)
  end.
Lemma direct_ok r c fv fv' : fine c fv -> answer r fv = Some fv' -> exists c', direct r c = Ok (IArray c') /\ fine c' fv'.
Proof.
  destruct fv as [f vs]. intros F A. destruct fuel2 as [n En]. pose proof F as (D & B & S1). cbn [fst snd] in *. destruct r; cbn [answer direct] in *.
  - destruct (omap _ _) as [ws|] eqn:E; [|discriminate]. injection A as <-. destruct (range_request _ _ _ _ _ _ F E) as (c' & -> & F' & _). exists c'. split; [reflexivity|exact F'].
  - destruct (Z.eqb_spec step 0); [discriminate|]. destruct (omap _ _) as [ws|] eqn:E; [|discriminate]. injection A as <-.
    rewrite En. destruct (slice_request is64 n c vs _ _ _ ws D n0 E) as (c' & -> & D' & L). exists c'. split; [reflexivity|]. eapply fine_like; eassumption.
  - rewrite En. pose proof (index_request is64 n c vs index D) as R. destruct (omap (elem vs) index) as [ws|]; [|discriminate]. injection A as <-. destruct R as (c' & -> & D' & L). exists c'. split; [reflexivity|]. eapply fine_like; eassumption.
  - destruct (has_field key f) eqn:HF; [|discriminate]. rewrite <- has_field_bare, <- B, has_field_bare in HF. destruct (field_den key c vs HF D) as (x & ws & Ex & Ew & Dx). rewrite Ew in A. injection A as <-. rewrite Ex. exists x. split; [reflexivity|].
    destruct (field_layout key c x S1 Ex) as [_ S2]. split; [exact Dx|]. split; [|exact S2]. cbn [fst]. rewrite (field_bare key c x HF Ex), field_form_bare, B, <- field_form_bare. reflexivity.
  - destruct (omap _ _) as [ws|] eqn:E; [|discriminate]. injection A as <-. destruct (carry_den c vs index ws true D E) as (c' & E' & D'). rewrite E'. exists c'. split; [reflexivity|]. eapply fine_like; [exact F|exact (carry_like _ _ _ _ E')|exact D'].
Qed.

(** ** the array that a virtual array stands for *)
Definition decl (form : option lform) (len : Z) (c : content) : Prop := (form = None \/ form = Some (layout c)) /\ (len < 0 \/ len = length_ c).
Inductive stands (g : Z -> option content) : varray -> content -> Prop :=
| st_user id form len cached c : make id = Ok c -> g id = Some c -> decl form len c -> steady (layout c) = true -> stands g (VUser id form len cached) c
| st_slice id form len source w cs c : stands g source cs -> generate cs w = Ok c -> g id = Some c -> decl form len c -> steady (layout c) = true -> stands g (VSlice id form len source w) c.
(** the caches and the inferred forms agree with it *)
Definition good (g : Z -> option content) (w : world) : Prop :=
  (forall id c, lookup id (store w) = Some c -> g id = Some c) /\
  (forall id f, lookup id (inferred w) = Some f -> exists c, g id = Some c /\ f = layout c) /\
  (forall id c, g id = Some c -> id < fresh w).
Lemma stands_vid g v c : stands g v c -> g (vid v) = Some c. Proof. intros H. destruct H; assumption. Qed.
Lemma stands_decl g v c : stands g v c -> decl (vform v) (vlen v) c. Proof. intros H. destruct H; assumption. Qed.
Lemma stands_steady g v c : stands g v c -> steady (layout c) = true. Proof. intros H. destruct H; assumption. Qed.
Definition extends (g g' : Z -> option content) : Prop := forall id c, g id = Some c -> g' id = Some c.
Lemma stands_extends g g' v c : extends g g' -> stands g v c -> stands g' v c.
Proof. intros X H. induction H; econstructor; eauto. Qed.

Lemma check_ok g w id form len c : good g w -> g id = Some c -> decl form len c -> steady (layout c) = true ->
  exists w', check_generated id form len c w = Ok (c, w') /\ good g w'.
Proof.
  intros (G1 & G2 & G3) Hg [Hform Hlen] HS. unfold check_generated. assert ((0 <=? len) && (length_ c <? len) = false) as ->.
  { destruct Hlen as [Hl| ->]; [destruct (Z.leb_spec 0 len); [lia|reflexivity]|]. rewrite Z.ltb_irrefl. apply Bool.andb_false_r. }
  destruct Hform as [->| ->].
  - eexists. split; [reflexivity|]. split; [exact G1|]. split; [|exact G3]. cbn [inferred lookup]. intros i f Hf. destruct (Z.eqb_spec id i) as [<-|]; [injection Hf as <-; eauto|eauto].
  - rewrite form_equal_refl by exact HS. exists w. split; [reflexivity|]. split; [exact G1|split; [exact G2|exact G3]].
Qed.
Lemma cache_get_ok g w id : good g w -> exists o w', cache_get lost id w = (o, w') /\ good g w' /\ (forall c, o = Some c -> g id = Some c).
Proof.
  intros (G1 & G2 & G3). unfold cache_get. eexists _, _. split; [reflexivity|]. split; [split; [exact G1|split; [exact G2|exact G3]]|]. intros c Hc. destruct (lost (clock w)); [discriminate|eauto].
Qed.
Lemma array_ok g v c w : stands g v c -> good g w -> exists w', arr v w = Ok (c, w') /\ good g w'.
Proof.
  intros H. revert w. induction H; intros w0 G; cbn [array].
  - assert (X : exists o w1, (if cached then cache_get lost id w0 else (None, w0)) = (o, w1) /\ good g w1 /\ (forall c, o = Some c -> g id = Some c)).
    { destruct cached; [exact (cache_get_ok g w0 id G)|]. exists None, w0. split; [reflexivity|]. split; [exact G|discriminate]. }
    destruct X as (o & w1 & -> & G1 & Ho).
    assert (Y : exists w2, match o with Some c => Ok (c, w1) | None => let* out := make id in check_generated id form len out w1 end = Ok (c, w2) /\ good g w2).
    { destruct o as [c'|]; [specialize (Ho c' eq_refl); rewrite H0 in Ho; injection Ho as <-; eauto|]. rewrite H. cbn [bind]. exact (check_ok g w1 id form len c G1 H0 H1 H2). }
    destruct Y as (w2 & -> & G2). cbn [bind]. eexists. split; [reflexivity|]. destruct cached; [|exact G2]. destruct G2 as (A1 & A2 & A3). split; [|split; [exact A2|exact A3]].
    cbn [store cache_set lookup]. intros i x Hx. destruct (Z.eqb_spec id i) as [<-|]; [injection Hx as <-; exact H0|eauto].
  - destruct (IHstands w0 G) as (w1 & -> & G1). cbn [bind]. rewrite H0. cbn [bind]. exact (check_ok g w1 id form len c G1 H1 H2 H3).
Qed.
Lemma peek_ok g v c w : stands g v c -> good g w -> exists o w', peek lost v w = (o, w') /\ good g w' /\ (forall c', o = Some c' -> c' = c).
Proof.
  intros H G. pose proof (stands_vid _ _ _ H) as Hv. destruct v as [id form len [|]|id form len source wh]; cbn [peek vid] in *.
  - destruct (cache_get_ok g w id G) as (o & w' & -> & G' & Ho). exists o, w'. split; [reflexivity|]. split; [exact G'|]. intros c' Hc. specialize (Ho c' Hc). congruence.
  - exists None, w. split; [reflexivity|]. split; [exact G|discriminate].
  - exists None, w. split; [reflexivity|]. split; [exact G|discriminate].
Qed.
Lemma length_ok g v c w : stands g v c -> good g w -> exists w', v_length is64 fuel make lost v w = Ok (length_ c, w') /\ good g w'.
Proof.
  intros H G. unfold v_length. destruct (stands_decl _ _ _ H) as [_ [Hl|Hl]].
  - destruct (Z.ltb_spec (vlen v) 0); [|lia]. destruct (array_ok g v c w H G) as (w' & -> & G'). cbn [bind]. eauto.
  - destruct (Z.ltb_spec (vlen v) 0); [destruct (array_ok g v c w H G) as (w' & -> & G'); cbn [bind]; eauto|]. rewrite Hl. eauto.
Qed.
Lemma form_ok g v c w : stands g v c -> good g w -> generator_form v w = None \/ generator_form v w = Some (layout c).
Proof.
  intros H (_ & G2 & _). unfold generator_form. destruct (stands_decl _ _ _ H) as [[E0|E0] _]; rewrite E0; [|right; reflexivity]. destruct (lookup (vid v) (inferred w)) as [f|] eqn:E; [|left; reflexivity].
  destruct (G2 _ _ E) as (c' & Hc & ->). rewrite (stands_vid _ _ _ H) in Hc. injection Hc as <-. right; reflexivity.
Qed.

(** ** what a result shows *)
Definition shows (g : Z -> option content) (x : result) (fv : form * list value) : Prop :=
  exists c, fine c fv /\ match x with Lazy v => stands g v c | Now it => it = IArray c end.
Lemma shows_extends g g' x fv : extends g g' -> shows g x fv -> shows g' x fv.
Proof. intros X (c & F & H). exists c. split; [exact F|]. destruct x; [exact (stands_extends _ _ _ _ X H)|exact H]. Qed.
Definition answered (g : Z -> option content) (o : res (result * world)) (fv : form * list value) : Prop :=
  exists x w' g', o = Ok (x, w') /\ good g' w' /\ extends g g' /\ shows g' x fv.
Lemma answered_now g w c fv : good g w -> fine c fv -> answered g (Ok (Now (IArray c), w)) fv.
Proof. intros G F. exists (Now (IArray c)), w, g. split; [reflexivity|]. split; [exact G|]. split; [intros i x Hx; exact Hx|]. exists c. split; [exact F|reflexivity]. Qed.
Lemma answered_lazy g w v c fv : good g w -> stands g v c -> fine c fv -> answered g (Ok (Lazy v, w)) fv.
Proof. intros G H F. exists (Lazy v), w, g. split; [reflexivity|]. split; [exact G|]. split; [intros i x Hx; exact Hx|]. exists c. split; [exact F|exact H]. Qed.
Lemma answered_slice g w v c wh form len c' fv : good g w -> stands g v c -> generate c wh = Ok c' -> decl form len c' -> fine c' fv -> answered g (new_slice form len v wh w) fv.
Proof.
  intros (G1 & G2 & G3) H E Hd F. unfold new_slice. set (g' := fun i => if i =? fresh w then Some c' else g i).
  assert (X : extends g g'). { intros i x Hx. unfold g'. destruct (Z.eqb_spec i (fresh w)) as [->|]; [specialize (G3 _ _ Hx); lia|exact Hx]. }
  eexists _, _, g'. split; [reflexivity|]. split; [|split; [exact X|]].
  - split; [intros i x Hx; apply X, G1; exact Hx|]. split; [intros i f Hf; destruct (G2 i f Hf) as (x & Hx & ->); eauto|]. intros i x Hx. cbn [fresh]. unfold g' in Hx. destruct (Z.eqb_spec i (fresh w)) as [->|]; [lia|]. specialize (G3 _ _ Hx). lia.
  - exists c'. split; [exact F|]. eapply st_slice; [exact (stands_extends _ _ _ _ X H)|exact E| |exact Hd|exact (proj2 (proj2 F))]. unfold g'. rewrite Z.eqb_refl. reflexivity.
Qed.

Lemma form_range_steady f : steady f = true -> form_range f = f. Proof. destruct f; try reflexivity. discriminate. Qed.
Lemma range_nowrap_ok g w v c f vs a b : good g w -> stands g v c -> fine c (f, vs) -> 0 <= a <= b -> b <= zlen vs -> zlen vs < kSliceNone ->
  answered g (v_getitem_range_nowrap lost v a b w) (f, slice a b vs).
Proof.
  intros G H F Ha Hb Hn. unfold v_getitem_range_nowrap. destruct (peek_ok g v c w H G) as (o & w' & -> & G' & Ho). pose proof (den_length _ _ (proj1 F)) as HL. cbn [snd] in HL. destruct o as [c'|].
  - rewrite (Ho c' eq_refl). destruct (nowrap_request c f vs a b F Ha Hb) as (x & -> & Fx). cbn [bind]. apply answered_now; assumption.
  - destruct (stands_decl _ _ _ H) as [_ Hl]. destruct ((0 <=? vlen v) && (a =? 0) && (b =? vlen v)) eqn:E.
    + apply andb_prop in E. destruct E as [E Eb]. apply andb_prop in E. destruct E as [El Ea]. apply Z.leb_le in El. apply Z.eqb_eq in Ea, Eb. subst a b. assert (vlen v = zlen vs) as -> by lia. rewrite slice_full. eapply answered_lazy; eassumption.
    + assert (P : omap (nthZ vs) (py_slice (opt64 a) (opt64 b) 1 (zlen vs)) = Some (slice a b vs)) by (rewrite py_slice_inside by lia; apply omap_nthZ_zseq; lia).
      destruct (range_request c f vs a b _ F P) as (c' & Ec & Fc & Lc). eapply answered_slice; [exact G'|exact H|exact Ec| |exact Fc]. split.
      * destruct (form_ok g v c w' H G') as [E0|E0]; rewrite E0; [left; reflexivity|right]. cbn [option_map]. rewrite form_range_steady by exact (proj2 (proj2 F)). rewrite Lc. reflexivity.
      * right. rewrite (den_length _ _ (proj1 Fc)). cbn [snd]. rewrite zlen_slice by lia. reflexivity.
Qed.

Lemma ask_ok g w x r fv fv' : good g w -> shows g x fv -> answer r fv = Some fv' -> zlen (snd fv) < kSliceNone -> answered g (ask is64 fuel make lost x r w) fv'.
Proof.
  intros G (c & F & H) A Hn. destruct (direct_ok r c fv fv' F A) as (d & Ed & Fd). destruct x as [v|it].
  2:{ subst it. assert (ask is64 fuel make lost (Now (IArray c)) r w = let* it := direct r c in Ok (Now it, w)) as ->.
      { destruct r; cbn [ask direct]; try reflexivity; [destruct (getitem_range c start stop)|destruct (getitem_field key c)|destruct (carry c index true)]; reflexivity. }
      rewrite Ed. cbn [bind]. apply answered_now; assumption. }
  destruct fv as [f vs]. cbn [snd] in Hn. pose proof (den_length _ _ (proj1 F)) as HL. cbn [snd] in HL. pose proof (stands_decl _ _ _ H) as [HF Hl]. pose proof (zlen_nonneg vs) as Hn0.
  pose proof (den_length _ _ (proj1 Fd)) as HLd. destruct fuel2 as [n En].
  destruct r; cbn [ask].
  - (* getitem_range *) unfold v_getitem_range. cbn [direct] in Ed. apply bind_Ok in Ed. destruct Ed as (d' & Ed & E'). injection E' as ->. destruct (Z.ltb_spec (vlen v) 0).
    + destruct (array_ok g v c w H G) as (w' & -> & G'). cbn [bind]. rewrite Ed. cbn [bind]. apply answered_now; assumption.
    + destruct (peek_ok g v c w H G) as (o & w' & -> & G' & Ho). destruct o as [c'|].
      * rewrite (Ho c' eq_refl), Ed. cbn [bind]. apply answered_now; assumption.
      * assert (vlen v = zlen vs) as Hv by lia. rewrite Hv. pose proof (regularize_step1 start stop (zlen vs) Hn0) as R. destruct (regularize_rangeslice _ _ _ _ _ _) as [a b]. destruct R as (Ra & Rb & Rz).
        cbn [answer] in A. rewrite <- Rz, omap_nthZ_zseq in A by lia. injection A as <-. apply (range_nowrap_ok g w' v c f vs a b); assumption.
  - (* getitem with a range *) cbn [answer] in A. unfold v_getitem. destruct (peek_ok g v c w H G) as (o & w' & -> & G' & Ho). cbn [direct] in Ed. destruct o as [c'|].
    + rewrite (Ho c' eq_refl), Ed. cbn [bind]. apply answered_now; assumption.
    + destruct (Z.eqb_spec step 0) as [|Hs]; [discriminate|]. destruct (omap _ _) as [ws|] eqn:Ew; [|discriminate]. injection A as <-. destruct (Z.leb_spec 0 (vlen v)).
      2:{ destruct (array_ok g v c w' H G') as (w2 & -> & G2). cbn [bind]. rewrite Ed. cbn [bind]. apply answered_now; assumption. }
      assert (vlen v = zlen vs) as Hv by lia. rewrite Hv. pose proof (regularize_py start stop step (zlen vs) Hn0 Hs) as R. destruct (regularize_rangeslice _ _ _ _ _ _) as [a b]. destruct R as (_ & R & Ra & Rb & Rab).
      assert (Gx : exists d', generate c [SRange start stop step] = Ok d' /\ fine d' (f, ws)).
      { cbn [slice_generate]. destruct (Z.eqb_spec step 1) as [->|]; [destruct (range_request c f vs start stop ws F Ew) as (d' & E & Fd' & _); eauto|]. rewrite Ed. cbn [bind as_array]. eauto. }
      destruct Gx as (d' & Gx & Fd'). eapply answered_slice; [exact G'|exact H|exact Gx| |exact Fd']. split; [left; reflexivity|right].
      rewrite (den_length _ _ (proj1 Fd')). cbn [snd]. rewrite (omap_zlen _ _ _ Ew), <- R, zlen_py_range by exact Hs. unfold py_range_len. destruct (Z.ltb_spec 0 step).
      * destruct (Z.ltb_spec step 0); [lia|]. cbn [andb orb]. rewrite Bool.orb_false_r. destruct (Z.ltb_spec 0 (b - a)), (Z.ltb_spec a b); try lia. rewrite <- quot_ceil by lia. rewrite (Z.abs_eq step) by lia. rewrite Z.abs_neq by lia. replace (- (a - b)) with (b - a) by lia. destruct (negb _); lia.
      * destruct (Z.ltb_spec step 0); [|lia]. cbn [andb orb]. destruct (Z.ltb_spec (b - a) 0), (Z.ltb_spec b a); try lia. rewrite <- quot_ceil by lia. rewrite (Z.abs_neq step) by lia. rewrite Z.abs_eq by lia. destruct (negb _); lia.
  - (* getitem with an index array *) unfold v_getitem. destruct (peek_ok g v c w H G) as (o & w' & -> & G' & Ho). cbn [direct] in Ed. destruct o as [c'|].
    + rewrite (Ho c' eq_refl), Ed. cbn [bind]. apply answered_now; assumption.
    + cbn [answer] in A. destruct (omap _ _) as [ws|] eqn:Ew; [|discriminate]. injection A as <-. eapply answered_slice; [exact G'|exact H| |split; [left; reflexivity|right]|exact Fd].
      * cbn [slice_generate]. rewrite Ed. reflexivity.
      * rewrite HLd. cbn [snd]. symmetry. exact (omap_zlen _ _ _ Ew).
  - (* getitem_field *) unfold v_getitem_field. cbn [direct] in Ed. apply bind_Ok in Ed. destruct Ed as (d' & Ed & E'). injection E' as ->. destruct (peek_ok g v c w H G) as (o & w' & -> & G' & Ho). destruct o as [c'|].
    + rewrite (Ho c' eq_refl), Ed. cbn [bind]. apply answered_now; assumption.
    + cbn [answer] in A. destruct (has_field key f) eqn:Hf; [|discriminate]. rewrite <- has_field_bare, <- (proj1 (proj2 F) : bare (form_of c) = bare f), has_field_bare in Hf. destruct (omap (proj key) vs) as [ws|] eqn:Ew; [|discriminate]. injection A as <-.
      destruct (field_request is64 n key c vs (proj1 F) Hf) as (x & y & ws' & Ex & Ey & Ew' & Dx & Dy & L & Ly). rewrite Ed in Ex. injection Ex as <-. rewrite Ew in Ew'. injection Ew' as <-.
      destruct (field_layout key c d (proj2 (proj2 F)) Ed) as [Lf Sd]. specialize (Ly Sd).
      assert (X : exists form, (match generator_form v w' with Some f0 => let* g0 := form_field key f0 in Ok (Some g0) | None => Ok None end) = Ok form /\ (form = None \/ form = Some (layout y))).
      { destruct (form_ok g v c w' H G') as [E0|E0]; rewrite E0; [exists None; auto|]. rewrite Lf. cbn [bind]. eexists. split; [reflexivity|]. right. rewrite Ly. reflexivity. }
      destruct X as (form & -> & Hform). cbn [bind]. eapply answered_slice; [exact G'|exact H| |split; [exact Hform|]|exact (fine_like _ _ _ _ _ Fd L Dy)].
      * cbn [slice_generate]. rewrite En, Ey. reflexivity.
      * rewrite (den_length _ _ Dy), (omap_zlen _ _ _ Ew). lia.
  - (* carry *) unfold v_carry. cbn [direct] in Ed. apply bind_Ok in Ed. destruct Ed as (d' & Ed & E'). injection E' as ->. cbn [answer] in A. destruct (omap _ _) as [ws|] eqn:Ew; [|discriminate]. injection A as <-.
    destruct (iscontiguous_spec index) as (b & -> & Hb). cbn [bind]. destruct b.
    + assert (Hi : index = zseq 0 (zlen index)) by now apply Hb. pose proof (zlen_nonneg index). assert (Hle : zlen index <= zlen vs).
      { destruct (Z.eqb_spec (zlen index) 0); [lia|]. pose proof (omap_nthZ_range _ _ _ Ew (zlen index - 1)) as H1. rewrite Hi in H1. rewrite zlen_zseq in H1 by lia. rewrite In_zseq in H1. lia. }
      rewrite Hi, omap_nthZ_zseq in Ew by lia. injection Ew as <-. destruct (length_ok g v c w H G) as (w' & -> & G'). cbn [bind]. rewrite HL. destruct (Z.eqb_spec (zlen index) (zlen vs)) as [E|].
      * rewrite E, slice_full. eapply answered_lazy; eassumption.
      * apply (range_nowrap_ok g w' v c f vs); auto; lia.
    + destruct (peek_ok g v c w H G) as (o & w' & -> & G' & Ho). destruct o as [c'|].
      * rewrite (Ho c' eq_refl), Ed. cbn [bind]. apply answered_now; assumption.
      * pose proof (index_request is64 n c vs index (proj1 F)) as R. rewrite (carry_elem _ _ _ Ew) in R. destruct R as (y & Ey & Dy & Ly). eapply answered_slice; [exact G'|exact H| |split; [left; reflexivity|right]|exact (fine_like _ _ _ _ _ F Ly Dy)].
        -- cbn [slice_generate]. rewrite En, Ey. reflexivity.
        -- rewrite (den_length _ _ Dy), (omap_zlen _ _ _ Ew). reflexivity.
Qed.

(** ** reading *)
Lemma read_ok g w x fv : good g w -> shows g x fv -> exists c w', read is64 fuel make lost x w = Ok (IArray c, w') /\ good g w' /\ fine c fv.
Proof.
  intros G (c & F & H). destruct x as [v|it]; cbn [read].
  - destruct (array_ok g v c w H G) as (w' & -> & G'). cbn [bind]. eauto 6.
  - subst it. eauto 6.
Qed.
Lemma ask_length_ok g w x fv : good g w -> shows g x fv -> exists w', ask_length is64 fuel make lost x w = Ok (zlen (snd fv), w') /\ good g w'.
Proof.
  intros G (c & F & H). rewrite <- (den_length _ _ (proj1 F)). destruct x as [v|it]; cbn [ask_length].
  - exact (length_ok g v c w H G).
  - subst it. eauto.
Qed.
Lemma ask_at_ok g w x f vs i : good g w -> shows g x (f, vs) ->
  match elem vs i with
  | Some v => exists it w', ask_at is64 fuel make lost x i w = Ok (Now it, w') /\ good g w' /\ item_den it = Some v
  | None => exists m, ask_at is64 fuel make lost x i w = Err m
  end.
Proof.
  intros G (c & F & H). pose proof (den_length _ _ (proj1 F)) as HL. cbn [snd] in HL. destruct x as [v|it]; cbn [ask_at].
  - unfold v_getitem_at. assert (X : exists w1, (if i <? 0 then v_length is64 fuel make lost v w else Ok (0, w)) = Ok (if i <? 0 then zlen vs else 0, w1) /\ good g w1).
    { destruct (i <? 0); [rewrite <- HL; exact (length_ok g v c w H G)|eauto]. }
    destruct X as (w1 & -> & G1). cbn [bind]. destruct (length_ok g v c w1 H G1) as (w2 & -> & G2). cbn [bind]. rewrite HL. unfold elem, wrap.
    replace (i + (if i <? 0 then zlen vs else 0)) with (if i <? 0 then i + zlen vs else i) by (destruct (i <? 0); lia). set (k := if i <? 0 then i + zlen vs else i).
    destruct ((0 <=? k) && (k <? zlen vs)) eqn:Ek; cbn [negb]; [|eauto]. apply andb_prop in Ek. destruct (nthZ_lt vs k ltac:(lia)) as [x Hx]. rewrite Hx.
    destruct (array_ok g v c w2 H G2) as (w3 & -> & G3). cbn [bind]. destruct (at_den c vs k x (proj1 F) Hx) as (it & -> & D). cbn [bind]. eauto 6.
  - subst it. destruct (getitem_at_den c vs i (proj1 F)) as [(it & v & -> & Hv & D)|(Hv & m & ->)].
    + assert (elem vs i = Some v) as ->. { unfold elem, wrap. pose proof (nthZ_Some _ _ _ Hv). destruct (Z.leb_spec 0 (if i <? 0 then i + zlen vs else i)); [|lia]. destruct (Z.ltb_spec (if i <? 0 then i + zlen vs else i) (zlen vs)); [|lia]. exact Hv. }
      cbn [bind]. eauto 6.
    + assert (elem vs i = None) as ->. { unfold elem, wrap. destruct ((0 <=? _) && _); [exact Hv|reflexivity]. } cbn [bind]. eauto.
Qed.

(** ** histories *)
Lemma history_ok acts : forall g w pool expected expected', good g w -> Forall2 (shows g) pool expected -> outcomes acts expected = Some expected' ->
  (forall fv, In fv expected' -> zlen (snd fv) < kSliceNone) ->
  exists pool' w' g', history is64 fuel make lost acts pool w = Ok (pool', w') /\ good g' w' /\ Forall2 (shows g') pool' expected'.
Proof.
  assert (Mono : forall acts a b, outcomes acts a = Some b -> forall x, In x a -> In x b).
  { clear. induction acts as [|a acts IH]; intros p q E x Hx; cbn [outcomes] in E; [injection E as <-; exact Hx|]. destruct (after a p) as [p'|] eqn:Ea; [|discriminate]. apply (IH _ _ E).
    destruct a; cbn [after] in Ea; destruct (nthZ p which) as [[f0 v0]|]; try discriminate; try (injection Ea as <-; exact Hx).
    - destruct (answer r (f0, v0)); [|discriminate]. injection Ea as <-. apply in_or_app; left; exact Hx.
    - destruct (elem v0 at_); [|discriminate]. injection Ea as <-. exact Hx. }
  induction acts as [|a acts IH]; intros g w pool expected expected' G F E Hn; cbn [outcomes history] in *; [injection E as <-; eauto 7|].
  destruct (after a expected) as [ex1|] eqn:Ea; [|discriminate].
  assert (X : exists pool1 w1 g1, act is64 fuel make lost a pool w = Ok (pool1, w1) /\ good g1 w1 /\ Forall2 (shows g1) pool1 ex1).
  { assert (N : forall k fv, nthZ expected k = Some fv -> exists x, rd pool k = Ok x /\ shows g x fv /\ zlen (snd fv) < kSliceNone).
    { intros k fv Hk. assert (In fv expected') by (apply (Mono _ _ _ E); assert (In fv expected) as Hi by (eapply nthZ_In; exact Hk); destruct a; cbn [after] in Ea; destruct (nthZ expected which) as [[f0 v0]|]; try discriminate; try (injection Ea as <-; exact Hi);
        [destruct (answer r (f0, v0)); [|discriminate]; injection Ea as <-; apply in_or_app; left; exact Hi|destruct (elem v0 at_); [|discriminate]; injection Ea as <-; exact Hi]).
      destruct (F2_nth_r _ _ _ _ _ F Hk) as (x & Hx & Sx). exists x. split; [apply rd_Ok; exact Hx|]. split; [exact Sx|]. apply Hn. assumption. }
    destruct a; cbn [after act] in *; destruct (nthZ expected which) as [[f0 v0]|] eqn:Ek; try discriminate; destruct (N _ _ Ek) as (x & -> & Sx & Hlen); cbn [bind].
    - destruct (answer r (f0, v0)) as [y|] eqn:Er; [|discriminate]. injection Ea as <-. destruct (ask_ok g w x r _ _ G Sx Er Hlen) as (x' & w' & g' & -> & G' & Xe & Sx'). cbn [bind fst snd]. exists (pool ++ [x']), w', g'. split; [reflexivity|]. split; [exact G'|].
      apply Forall2_app; [|constructor; [exact Sx'|constructor]]. clear -F Xe. induction F; constructor; auto. eapply shows_extends; eassumption.
    - injection Ea as <-. destruct (read_ok g w x _ G Sx) as (c & w' & -> & G' & _). cbn [bind snd]. eauto 7.
    - injection Ea as <-. destruct (ask_length_ok g w x _ G Sx) as (w' & -> & G'). cbn [bind snd]. eauto 7.
    - pose proof (ask_at_ok g w x f0 v0 at_ G Sx) as R. destruct (elem v0 at_); [|discriminate]. injection Ea as <-. destruct R as (it & w' & -> & G' & _). cbn [bind snd]. eauto 7. }
  destruct X as (pool1 & w1 & g1 & -> & G1 & F1). cbn [bind fst snd]. eapply IH; eassumption.
Qed.
End World.
