(** Proofs about Astype.v: the structure is kept and every number is converted. *)
From Verif Require Import Base BaseLemmas OmapLemmas LoopLemmas Content KCore Core KOption Option Strided SpecArray SpecForm Astype SpecAstype PCore PForm POption.

Section Rel.
Context {A : Type} (R : A -> A -> Prop).
Lemma F2_zlen l l' : Forall2 R l l' -> zlen l = zlen l'.
Proof. induction 1; [reflexivity|]. rewrite !zlen_cons. lia. Qed.
Lemma F2_nth l l' i x : Forall2 R l l' -> nthZ l i = Some x -> exists y, nthZ l' i = Some y /\ R x y.
Proof.
  intros H. revert i. induction H as [|a b l l' Hab _ IH]; intros i Hx; [rewrite nthZ_nil in Hx; discriminate|].
  assert (Hi := nthZ_Some _ _ _ Hx). destruct (Z.eq_dec i 0) as [->|Hn].
  - rewrite nthZ_cons in Hx |- *. cbn in *. injection Hx as <-. eauto.
  - rewrite nthZ_cons in Hx |- *. destruct (Z.eqb_spec i 0); [lia|]. exact (IH _ Hx).
Qed.
Lemma F2_intro l : forall l', zlen l = zlen l' -> (forall i x y, nthZ l i = Some x -> nthZ l' i = Some y -> R x y) -> Forall2 R l l'.
Proof.
  induction l as [|a l IH]; intros [|b l'] HZ H; [constructor|pose proof (zlen_nonneg l')|pose proof (zlen_nonneg l)|]; rewrite ?zlen_cons in HZ; try (change (zlen (@nil A)) with 0 in HZ; lia).
  constructor; [apply (H 0); reflexivity|]. apply IH; [lia|]. intros i x y Hx Hy. pose proof (nthZ_Some _ _ _ Hx). apply (H (i + 1)); rewrite nthZ_cons; (destruct (Z.eqb_spec (i + 1) 0); [lia|]); replace (i + 1 - 1) with i by lia; assumption.
Qed.
Lemma F2_slice l l' a b : Forall2 R l l' -> Forall2 R (slice a b l) (slice a b l').
Proof.
  intros H. unfold slice. assert (HS : forall n (l l' : list A), Forall2 R l l' -> Forall2 R (skipn n l) (skipn n l')).
  { induction n as [|n IH]; intros m m' Hm; [exact Hm|]. destruct Hm; [constructor|]. cbn. now apply IH. }
  assert (HF : forall n (l l' : list A), Forall2 R l l' -> Forall2 R (firstn n l) (firstn n l')).
  { induction n as [|n IH]; intros m m' Hm; [constructor|]. destruct Hm; [constructor|]. cbn. constructor; [assumption|]. now apply IH. }
  auto.
Qed.
Lemma omap_F2 {B} (f g : B -> option A) l us :
  (forall x u, In x l -> f x = Some u -> exists w, g x = Some w /\ R u w) -> omap f l = Some us -> exists ws, omap g l = Some ws /\ Forall2 R us ws.
Proof.
  revert us. induction l as [|x l IH]; intros us H E; cbn in E.
  - injection E as <-. exists []. split; [reflexivity|constructor].
  - destruct (f x) as [u|] eqn:Eu; [|discriminate]. destruct (omap f l) as [us'|] eqn:El; [|discriminate]. injection E as <-.
    destruct (H x u (or_introl eq_refl) Eu) as (w & Ew & Rw). destruct (IH us') as (ws & Ews & Rws); [intros; eapply H; [right|]; eassumption|reflexivity|].
    exists (w :: ws). cbn. rewrite Ew, Ews. split; [reflexivity|]. constructor; assumption.
Qed.
End Rel.

Section Proofs.
Variables positive zero : Z -> bool.
Variable whole : Z -> option Z.
Variable nearest : Z -> Z.
Variable Hpz : forall x, positive x = true -> zero x = false.
Variable t : ntype.
Variable Ht : proper_type t.
Notation VA := (value_as zero whole nearest t).
Notation conv := (convert positive whole nearest).
Notation totype := (numbers_to_type positive whole nearest t).

Lemma wrap_to_spec s n z : 1 < n -> in_type s n (wrap_to s n z) /\ exists k, z = wrap_to s n z + k * 2 ^ n.
Proof.
  intros Hn. unfold wrap_to, in_type. assert (0 < 2 ^ (n - 1)) by (apply Z.pow_pos_nonneg; lia).
  assert (E : 2 ^ n = 2 * 2 ^ (n - 1)) by (rewrite <- Z.pow_succ_r by lia; f_equal; lia). rewrite E. destruct s.
  - pose proof (Z.mod_pos_bound (z + 2 ^ (n - 1)) (2 * 2 ^ (n - 1)) ltac:(lia)). split; [lia|].
    exists ((z + 2 ^ (n - 1)) / (2 * 2 ^ (n - 1))). pose proof (Z.div_mod (z + 2 ^ (n - 1)) (2 * 2 ^ (n - 1)) ltac:(lia)). nia.
  - pose proof (Z.mod_pos_bound z (2 * 2 ^ (n - 1)) ltac:(lia)). split; [lia|].
    exists (z / (2 * 2 ^ (n - 1))). pose proof (Z.div_mod z (2 * 2 ^ (n - 1)) ltac:(lia)). nia.
Qed.
Lemma representable_spec s n z : in_type s n z -> representable s n z = true.
Proof. unfold in_type, representable. destruct s; intros; apply andb_true_intro; split; (apply Z.leb_le || apply Z.ltb_lt); lia. Qed.

Lemma convert_spec dt x : convertible positive zero whole t (scalar dt x) -> exists y, conv dt t x = Ok y /\ number_as zero whole nearest t (scalar dt x) (scalar (dtype_of t) y).
Proof.
  intros H. destruct t as [|s n| |]; [| | |contradiction Ht]; cbn in Ht; destruct dt; cbn in *.
  - eexists; split; [reflexivity|]. cbn. destruct (Z.eqb_spec x 0); reflexivity.
  - eexists; split; [reflexivity|]. cbn. destruct (Z.ltb_spec 0 x); cbn; split; intros; try lia; try discriminate; reflexivity.
  - eexists; split; [reflexivity|]. cbn. destruct (positive x) eqn:Ep; cbn; split; intros; try discriminate; auto. destruct H; congruence.
  - eexists; split; [reflexivity|]. cbn. destruct (Z.eqb_spec x 0); reflexivity.
  - eexists; split; [reflexivity|]. apply wrap_to_spec. exact Ht.
  - destruct H as (z & -> & Hz). rewrite representable_spec by exact Hz. eexists; split; [reflexivity|]. cbn. auto.
  - eexists; split; [reflexivity|]. cbn. destruct (Z.eqb_spec x 0); reflexivity.
  - eexists; split; [reflexivity|]. reflexivity.
  - eexists; split; [reflexivity|]. reflexivity.
Qed.

Lemma fill_to_spec dt data : Forall (convertible positive zero whole t) (map (scalar dt) data) ->
  exists out, as_type positive whole nearest dt t data (zlen data) = Ok out /\ Forall2 VA (map (scalar dt) data) (map (scalar (dtype_of t)) out).
Proof.
  intros H. assert (HO : exists g, (forall i x, nthZ data i = Some x -> conv dt t x = Ok (g i) /\ number_as zero whole nearest t (scalar dt x) (scalar (dtype_of t) (g i)))).
  { exists (fun i => match nthZ data i with Some x => match conv dt t x with Ok y => y | _ => 0 end | None => 0 end).
    intros i x Hx. rewrite Hx. destruct (convert_spec dt x) as (y & E & N); [|rewrite E; auto].
    rewrite Forall_forall in H. apply H. apply in_map. eapply nthZ_In; exact Hx. }
  destruct HO as (g & Hg). pose proof (zlen_nonneg data). exists (map g (zseq 0 (zlen data))).
  assert (E : awkward_NumpyArray_fill_to (alloc (zlen data)) 0 data (zlen data) (conv dt t) = Ok (map g (zseq 0 (zlen data)))).
  { unfold awkward_NumpyArray_fill_to. apply for_fill_all; [apply zlen_alloc; lia|]. intros i out' Hi _.
    destruct (nthZ_lt data i Hi) as [x Hx]. apply rd_Ok in Hx as Hr. rewrite Hr. cbn [bind]. destruct (Hg i x Hx) as (-> & _). reflexivity. }
  split; [unfold as_type; destruct t; [exact E|exact E|exact E|contradiction Ht]|].
  clear E. apply F2_intro; [rewrite !zlen_map, zlen_zseq; lia|]. intros i v w Hv Hw. rewrite nthZ_map in Hv, Hw. destruct (nthZ data i) as [x|] eqn:Hx; [|discriminate].
  pose proof (nthZ_Some _ _ _ Hx). rewrite nthZ_map, nthZ_zseq in Hw by lia. cbn in Hv, Hw. injection Hv as <-. injection Hw as <-. apply as_number. apply (Hg _ _ Hx).
Qed.

Lemma sublist_F2 vs ws a b u : Forall2 VA vs ws -> sublist vs a b = Some u -> exists w, sublist ws a b = Some w /\ VA u w.
Proof.
  intros HF. unfold sublist. destruct (a =? b).
  - intros E. injection E as <-. eexists. split; [reflexivity|]. apply as_list. constructor.
  - rewrite (F2_zlen _ _ _ HF). destruct (_ && _); [|discriminate]. intros E. injection E as <-. eexists. split; [reflexivity|]. apply as_list. now apply F2_slice.
Qed.
Lemma row_F2 keys us ws : Forall2 VA us ws -> VA (mkrow keys us) (mkrow keys ws).
Proof.
  intros H. destruct keys as [ks|]; [|now apply as_tuple]. cbn. apply as_record.
  - revert ks. induction H; intros [|k ks]; cbn; try reflexivity. f_equal. auto.
  - revert ks. induction H; intros [|k ks]; cbn; try constructor; auto.
Qed.

Definition good (c : content) : Prop := forall vs, den c = Some vs -> all_numbers (convertible positive zero whole t) c ->
  exists c' ws, totype c = Ok c' /\ den c' = Some ws /\ Forall2 VA vs ws /\ form_of c' = retype t (form_of c).

Lemma contents_good cs vss : Forall good cs -> omap den cs = Some vss ->
  (fix all (cs : list content) : Prop := match cs with [] => True | c :: cs => all_numbers (convertible positive zero whole t) c /\ all cs end) cs ->
  exists cs' wss, mapres totype cs = Ok cs' /\ omap den cs' = Some wss /\ Forall2 (Forall2 VA) vss wss /\ map form_of cs' = map (retype t) (map form_of cs).
Proof.
  intros HG. revert vss. induction HG as [|c cs Hc _ IH]; intros vss Hd HA.
  - cbn in Hd. injection Hd as <-. exists [], []. repeat split; constructor.
  - cbn [omap] in Hd. destruct (den c) as [vs|] eqn:Ec; [|discriminate]. destruct (omap den cs) as [vss'|] eqn:Ecs; [|discriminate]. injection Hd as <-.
    destruct HA as [HA HA']. destruct (Hc vs Ec HA) as (c' & ws & T & D & F & Y). destruct (IH vss' eq_refl HA') as (cs' & wss & T' & D' & F' & Y').
    exists (c' :: cs'), (ws :: wss). cbn [mapres omap map]. rewrite T, D, T', D', Y, Y'. repeat split. constructor; assumption.
Qed.

Lemma masked_F2 mask vw vs ws : Forall2 VA vs ws ->
  Forall2 VA (map (fun mv => if Bool.eqb (negb (fst mv =? 0)) vw then snd mv else VNone) (combine mask vs))
             (map (fun mv => if Bool.eqb (negb (fst mv =? 0)) vw then snd mv else VNone) (combine mask ws)).
Proof.
  intros H. revert mask. induction H; intros [|m mask]; cbn; try constructor; auto. destruct (Bool.eqb _ _); [assumption|apply as_none].
Qed.

Lemma all_good c : good c.
Proof.
  induction c using content_ind'; intros vs Hd HA; pose proof Hd as Hd0; cbn [numbers_to_type all_numbers retype form_of] in *.
  - cbn in Hd. injection Hd as <-. exists Empty, []. repeat split; constructor.
  - cbn in Hd. injection Hd as <-. destruct (fill_to_spec dt data HA) as (out & E & F). rewrite E. cbn [bind]. eexists _, _. repeat split. exact F.
  - cbn [den] in Hd. destruct (den c) as [us|] eqn:Ec; [|discriminate]. destruct (Z.leb_spec (zlen starts) (zlen stops)); [|discriminate].
    destruct (IHc us Ec HA) as (c' & ws & T & D & F & Y). rewrite T. cbn [bind]. unfold mkListA. destruct (Z.ltb_spec (zlen stops) (zlen starts)); [lia|].
    eapply (omap_F2 VA _ (fun ab => sublist ws (fst ab) (snd ab))) in Hd; [|intros x u _ Hu; eapply sublist_F2; eassumption]. destruct Hd as (rs & E & G).
    exists (ListA starts stops c'), rs. cbn [den form_of]. rewrite D, Y, E. destruct (Z.leb_spec (zlen starts) (zlen stops)); [|lia]. auto.
  - cbn [den] in Hd. destruct (den c) as [us|] eqn:Ec; [|discriminate]. destruct (Z.leb_spec 1 (zlen offsets)); [|discriminate].
    destruct (IHc us Ec HA) as (c' & ws & T & D & F & Y). rewrite T. cbn [bind]. unfold mkListOffset. destruct (Z.eqb_spec (zlen offsets) 0); [lia|].
    eapply (omap_F2 VA _ (fun ab => sublist ws (fst ab) (snd ab))) in Hd; [|intros x u _ Hu; eapply sublist_F2; eassumption]. destruct Hd as (rs & E & G).
    exists (ListOffset offsets c'), rs. cbn [den form_of]. rewrite D, Y, E. destruct (Z.leb_spec 1 (zlen offsets)); [|lia]. auto.
  - pose proof (den_length _ _ Hd) as HL. cbn [den] in Hd. destruct (den c) as [us|] eqn:Ec; [|discriminate].
    destruct (IHc us Ec HA) as (c' & ws & T & D & F & Y). rewrite T. cbn [bind]. pose proof (F2_zlen _ _ _ F) as HZ. pose proof (zlen_nonneg vs).
    assert (L : length_ (Regular size zl c') = length_ (Regular size zl c)) by (cbn [length_]; rewrite (den_length _ _ D), (den_length _ _ Ec), HZ; reflexivity).
    unfold mkRegular. rewrite L, HL. destruct (Z.ltb_spec (zlen vs) 0); [lia|]. destruct (Z.ltb_spec size 0).
    { destruct (Z.ltb_spec 0 size); [lia|]. destruct (Z.eqb_spec size 0); [lia|]. discriminate. }
    cbn [den form_of]. destruct (0 <? size) eqn:Es.
    + eapply (omap_F2 VA _ (fun i => sublist ws (i * size) ((i + 1) * size))) in Hd; [|intros x u _ Hu; eapply sublist_F2; eassumption]. destruct Hd as (rs & E & G).
      exists (Regular size zl c'), rs. cbn [den form_of]. rewrite D, Y, Es, <- HZ, E. auto.
    + exists (Regular size zl c'), vs. cbn [den form_of]. rewrite D, Y, Es. destruct (_ && _); [|discriminate]. injection Hd as <-. split; [reflexivity|]. split; [reflexivity|]. split; [|reflexivity].
      clear. induction (Z.to_nat zl) as [|n IH]; cbn [repeat]; constructor; [apply as_list; constructor|exact IH].
  - cbn [den] in Hd. destruct (den c) as [us|] eqn:Ec; [|discriminate].
    destruct (IHc us Ec HA) as (c' & ws & T & D & F & Y). rewrite T. cbn [bind].
    eapply (omap_F2 VA _ (nthZ ws)) in Hd; [|intros x u _ Hu; eapply F2_nth; eassumption]. destruct Hd as (rs & E & G).
    exists (Indexed index c'), rs. cbn [den form_of]. rewrite D, Y, E. auto.
  - cbn [den] in Hd. destruct (den c) as [us|] eqn:Ec; [|discriminate].
    destruct (IHc us Ec HA) as (c' & ws & T & D & F & Y). rewrite T. cbn [bind].
    eapply (omap_F2 VA _ (fun i => if i <? 0 then Some VNone else nthZ ws i)) in Hd.
    2: { intros x u _ Hu. cbv beta in *. destruct (x <? 0); [injection Hu as <-; eexists; split; [reflexivity|apply as_none]|]. eapply F2_nth; eassumption. }
    destruct Hd as (rs & E & G). exists (IndexedOption index c'), rs. cbn [den form_of]. rewrite D, Y, E. auto.
  - cbn [den] in Hd. destruct (den c) as [us|] eqn:Ec; [|discriminate]. destruct (Z.leb_spec (zlen mask) (zlen us)); [|discriminate]. injection Hd as <-.
    destruct (IHc us Ec HA) as (c' & ws & T & D & F & Y). rewrite T. cbn [bind]. pose proof (F2_zlen _ _ _ F) as HZ. unfold mkByteMasked. rewrite (den_length _ _ D).
    destruct (Z.ltb_spec (zlen ws) (zlen mask)); [lia|]. eexists _, _. split; [reflexivity|]. cbn [den form_of]. rewrite D, Y. destruct (Z.leb_spec (zlen mask) (zlen ws)); [|lia].
    split; [reflexivity|]. split; [|reflexivity]. now apply masked_F2.
  - destruct (to_byte_masked _ _ Hd0) as (m & v & c1 & E & HD & HM); [left; do 5 eexists; reflexivity|].
    assert (c1 = c) as ->. { cbn [toByteMaskedArray] in E. binv E. mkinv E. congruence. }
    rewrite E. cbn [bind]. cbn [den] in HD. destruct (den c) as [us|] eqn:Ec; [|discriminate]. destruct (Z.leb_spec (zlen m) (zlen us)); [|discriminate]. injection HD as <-.
    destruct (IHc us Ec HA) as (c' & ws & T & D & F & Y). rewrite T. cbn [bind]. pose proof (F2_zlen _ _ _ F) as HZ. unfold mkByteMasked. rewrite (den_length _ _ D).
    destruct (Z.ltb_spec (zlen ws) (zlen m)); [lia|]. eexists _, _. split; [reflexivity|]. cbn [den form_of]. rewrite D, Y. destruct (Z.leb_spec (zlen m) (zlen ws)); [|lia].
    split; [reflexivity|]. split; [|reflexivity]. now apply masked_F2.
  - cbn [den] in Hd. destruct (IHc vs Hd HA) as (c' & ws & T & D & F & Y). rewrite T. cbn [bind]. exists (Unmasked c'), ws. cbn [den form_of]. rewrite D, Y. auto.
  - cbn [den] in Hd. destruct (omap den cs) as [vss|] eqn:Ec; [|discriminate]. destruct (_ && _) eqn:Eb; [|discriminate]. apply andb_true_iff in Eb as [El Ek].
    destruct (contents_good cs vss H Ec HA) as (cs' & wss & T & D & F & Y). rewrite T. cbn [bind].
    assert (HZ : zlen cs' = zlen cs) by (rewrite <- (zlen_map form_of cs'), Y, !zlen_map; reflexivity).
    assert (EM : mkRecord keys len cs' = Ok (Record keys len cs')).
    { unfold mkRecord. destruct keys as [ks|]; [|reflexivity]. cbn in Ek. rewrite HZ, Ek. reflexivity. }
    rewrite EM. eapply (omap_F2 VA _ (fun i => option_map (mkrow keys) (omap (fun vs => nthZ vs i) wss))) in Hd.
    2: { intros x u _ Hu. cbv beta in *. destruct (omap (fun vs0 => nthZ vs0 x) vss) as [row|] eqn:Er; [|discriminate]. cbn in Hu. injection Hu as <-.
         assert (HR : exists row', omap (fun vs0 => nthZ vs0 x) wss = Some row' /\ Forall2 VA row row').
         { clear -F Er. revert row Er. induction F as [|a b l l' Hab _ IH]; intros row Er; cbn in Er; [injection Er as <-; exists []; split; [reflexivity|constructor]|].
           destruct (nthZ a x) as [v|] eqn:Ev; [|discriminate]. destruct (omap _ l) as [r|] eqn:El; [|discriminate]. injection Er as <-.
           destruct (F2_nth _ _ _ _ _ Hab Ev) as (w & Ew & Rw). destruct (IH r eq_refl) as (r' & Er' & Rr). exists (w :: r'). cbn. rewrite Ew, Er'. split; [reflexivity|constructor; assumption]. }
         destruct HR as (row' & -> & HR). cbn. eexists. split; [reflexivity|]. now apply row_F2. }
    destruct Hd as (rs & E & G). exists (Record keys len cs'), rs. cbn [den form_of]. rewrite D, Y, HZ, El, Ek. cbn [andb]. rewrite E. auto.
  - cbn [den] in Hd. destruct (omap den cs) as [vss|] eqn:Ec; [|discriminate]. destruct (_ && _) eqn:Eb; [|discriminate]. apply andb_true_iff in Eb as [El Ek].
    destruct (contents_good cs vss H Ec HA) as (cs' & wss & T & D & F & Y). rewrite T. cbn [bind].
    assert (HZ : zlen cs' = zlen cs) by (rewrite <- (zlen_map form_of cs'), Y, !zlen_map; reflexivity).
    assert (EM : mkUnion tags index cs' = Ok (Union tags index cs')).
    { unfold mkUnion. apply Z.leb_le in El, Ek. destruct cs'; [change (zlen (@nil content)) with 0 in HZ; lia|]. destruct (Z.ltb_spec (zlen index) (zlen tags)); [lia|reflexivity]. }
    rewrite EM. eapply (omap_F2 VA _ (fun ti => match nthZ wss (fst ti) with Some vs => nthZ vs (snd ti) | None => None end)) in Hd.
    2: { intros x u _ Hu. cbv beta in *. destruct (nthZ vss (fst x)) as [v|] eqn:Ev; [|discriminate]. destruct (F2_nth _ _ _ _ _ F Ev) as (w & -> & Rw). eapply F2_nth; eassumption. }
    destruct Hd as (rs & E & G). exists (Union tags index cs'), rs. cbn [den form_of]. rewrite D, Y, HZ, El, Ek. cbn [andb]. rewrite E. auto.
Qed.
End Proofs.
