(** The word of a shape takes the commands of a value and appends it to the outputs *)
From Coq Require Import String.
From Verif Require Import Base BaseLemmas SpecArray Content Forms Forth PForthOut PForthRun PForthStep PForthRead PForthRead2 SpecForthRun PForthLoop LayoutBuild SpecLayout PLayoutVm PLayoutWord.
Local Open Scope list_scope.
Local Open Scope Z_scope.

Fixpoint few_f (cs : list shape) (j : nat) (vs : list value) : Prop :=
  match cs with [] => True | c :: cs => few c (map (field_of j) vs) /\ few_f cs (S j) vs end.
Lemma few_rec : forall ks cs vs, few (SRec ks cs) vs <-> zlen vs < 2^31 /\ few_f cs 0 vs.
Proof.
  intros ks cs vs. cbn [few]. assert (E : forall j, (fix all (cs : list shape) (j : nat) := match cs with [] => True | c :: cs => few c (map (field_of j) vs) /\ all cs (S j) end) cs j <-> few_f cs j vs).
  { induction cs as [ | c cs IH ]; intros j; cbn [few_f]; [ tauto | ]. rewrite IH. tauto. }
  rewrite E. tauto.
Qed.
Lemma few_prefix : forall s a b, few s (a ++ b) -> few s a.
Proof.
  induction s using shape_ind'; intros a b Hf.
  - cbn [few] in *. rewrite zlen_app in Hf. pose proof (zlen_nonneg b). split; [ lia | exact I ].
  - cbn [few] in *. rewrite zlen_app in Hf. pose proof (zlen_nonneg b). split; [ lia | ]. rewrite map_app, concat_app in Hf. eapply IHs. apply Hf.
  - apply few_rec in Hf. apply few_rec. rewrite zlen_app in Hf. pose proof (zlen_nonneg b). split; [ lia | ]. destruct Hf as [ _ Hf ]. revert Hf. generalize 0%nat.
    induction H as [ | c cs Hc _ IH ]; intros j Hf; cbn [few_f] in *; [ exact I | ]. rewrite map_app in Hf. split; [ eapply Hc; apply Hf | apply IH, Hf ].
Qed.
Lemma few_len : forall s a, few s a -> zlen a < 2^31.
Proof. intros [ | | ] a H; apply H. Qed.

Lemma height_pos : forall s, 0 <= height s.
Proof. induction s using shape_ind'; cbn [height]; [ lia | lia | ]. assert (0 <= fold_right Z.max 0 (map height cs)) by (clear H; induction cs; cbn; lia). lia. Qed.

(** the first command of a value *)
Lemma first_cmd : forall m s b k v, word m s b k -> of_shape s v -> exists c0 rest, cmds_of s v = c0 :: rest /\ zlen (fst c0) <= 8 /\ snd c0 <> 3.
Proof.
  intros m. induction s using shape_ind'; intros b k v W O1.
  - exists (bytes_of v, leaf_state l), []. split; [ reflexivity | ]. split; [ apply (cmd_small _ _ O1) | destruct l; cbn; lia ].
  - eexists _, _. split; [ reflexivity | ]. cbn. split; [ change (zlen (@nil Z)) with 0; lia | lia ].
  - apply word_rec in W. destruct W as (bs & _ & N & W). apply of_rec in O1. rewrite cmds_rec. destruct cs as [ | c cs ]; [ congruence | ].
    destruct bs as [ | b0 bs ]; [ destruct W | ]. destruct W as (_ & W & _). destruct (fields_of v) as [ | x xs ]; [ destruct O1 | ]. destruct O1 as [ O1 _ ].
    inversion H as [ | ? ? Hc ? ]; subst. destruct (Hc _ _ _ W O1) as (c0 & rest & E & L). exists c0, (rest ++ cmds_fields cs xs). cbn [cmds_fields]. rewrite E. auto.
Qed.

Definition eats (m : machine) (s : shape) : Prop := forall b k v us c0 rest st vs is os fr,
  word m s b k -> 0 <= k -> of_shape s v -> cmds_of s v = c0 :: rest -> holds s k us os -> few s (us ++ [v]) -> fed c0 is ->
  zlen fr + 3 * height s + 2 <= 1024 -> zlen st + height s + 4 <= 1024 ->
  exists is' os', runs m rest (mkCfg (snd c0 :: st) vs is os ((b, 0) :: fr)) (mkCfg st vs is' os' fr)
    /\ holds s k (us ++ [v]) os' /\ inok is' /\ (forall o, ~ (k <= o < k + size s) -> nthZ os' o = nthZ os o) /\ zlen os' = zlen os.

Ltac nx t := eapply steps_next; [ discriminate | t | ].
Ltac by_n := first [ reflexivity | vm_compute; reflexivity ].

Lemma buf_upd : forall os k b t vs, 0 <= k < zlen os -> otype b = t -> 0 < reserved b -> good b vs -> buf (upd os (Z.to_nat k) b) k t vs.
Proof.
  intros os k b t vs K T R G. exists b. split; [ | auto ]. rewrite nthZ_upd by lia. rewrite Z2Nat.id, Z.eqb_refl by lia. reflexivity.
Qed.
Lemma upd_other : forall (os : list outbuf) k b o, 0 <= k < zlen os -> o <> k -> nthZ (upd os (Z.to_nat k) b) o = nthZ os o.
Proof. intros os k b o K N. rewrite nthZ_upd by lia. rewrite Z2Nat.id by lia. destruct (Z.eqb_spec o k); [ congruence | ]. reflexivity. Qed.

Lemma eat_num : forall m l, vm_ok m -> eats m (SNum l).
Proof.
  intros m l V b k v us c0 rest st vs is os fr (b1 & b2 & W & W1) K O1 E H F (r & p & -> & Lr) R1 R2. cbn [cmds_of] in E. injection E as <- <-. cbn [fst snd] in *.
  cbn [height] in *. cbn [holds] in H. destruct H as (bf & N & T & Rb & G). destruct (nthZ_Some _ _ _ N) as [ K0 K1 ].
  destruct (step_read m b1 _ W1 4 (leaf_format l) (leaf_fmt l) k (bytes_of v) r bf (map code_of us) (code_of v) st vs os ((b, 6) :: fr)) as (bf' & SR & G' & R' & T');
    [ by_n | by_n | by_n | apply leaf_in | apply leaf_fmt_ok | apply (leaf_bytes _ _ O1) | lia | exact N | exact G | exact Rb | apply (vm_grow m V) | rewrite T; apply (leaf_item m l v V O1) | ].
  eexists _, (upd os (Z.to_nat k) bf'). split.
  { apply runs_done.
    nx ltac:(eapply (step_literal m b _ W 0); [ by_n | by_n | rewrite zlen_cons, (vm_stack m V); lia ]).
    nx ltac:(eapply (step_eq m b _ W 2); by_n). rewrite Z.eqb_refl. cbn [bool_of].
    nx ltac:(eapply (step_ifelse_yes m b _ W 3 b1); [ by_n | by_n | rewrite (vm_rec m V); lia ]).
    nx ltac:(eapply (step_literal m b1 _ W1 0); [ by_n | by_n | rewrite (vm_stack m V); lia ]).
    nx ltac:(eapply (step_seek0 m b1 _ W1 2); by_n).
    nx ltac:(exact SR).
    nx ltac:(exact (step_end m b1 _ _ _ _ _ _ W1)).
    nx ltac:(exact (step_end m b _ _ _ _ _ _ W)). apply steps_refl. }
  split; [ cbn [holds]; rewrite map_app; apply buf_upd; [ lia | congruence | exact R' | exact G' ] | ].
  split; [ exists (bytes_of v ++ r), (zlen (bytes_of v)); auto | ].
  split; [ | apply zlen_upd ]. intros o Ho. apply upd_other; [ lia | ]. cbn [size] in Ho. lia.
Qed.

(** the loop of a list *)
Lemma eat_items : forall m w c, vm_ok m -> eats m c -> forall b b1 b2 b3 b4 cb k, 0 <= b2 -> 0 <= b4 -> 0 <= cb -> 0 <= k ->
  code_seg m b [0; 2; 52; 3; 66 + b1; 0; 0; 66 + b2; 7] -> code_seg m b2 [2; 32; 0; 3; 51; 4; 66 + b3; 66 + b4] -> code_seg m b3 [33; 20; k; 10; 2] ->
  code_seg m b4 [66 + cb; 46] -> word m c cb (k + 1) ->
  forall items us done st vs is os fr, Forall (of_shape c) items ->
  buf os k (off_type w) (totals us) -> holds c (k + 1) (concat (map items_of us) ++ done) os ->
  few c (concat (map items_of us) ++ done ++ items) -> inok is -> zlen fr + 3 * (1 + height c) + 2 <= 1024 -> zlen st + (1 + height c) + 4 <= 1024 ->
  exists is' os', runs m (concat (map (cmds_of c) items) ++ [([], 3)]) (mkCfg (zlen done :: st) vs is os ((b2, 0) :: (b, 8) :: fr)) (mkCfg st vs is' os' fr)
    /\ buf os' k (off_type w) (totals us ++ [zlen (concat (map items_of us)) + zlen (done ++ items)])
    /\ holds c (k + 1) (concat (map items_of us) ++ done ++ items) os' /\ inok is'
    /\ (forall o, ~ (k <= o < k + (1 + size c)) -> nthZ os' o = nthZ os o) /\ zlen os' = zlen os.
Proof.
  intros m w c V IHc b b1 b2 b3 b4 cb k B2 B4 CB K W W2 W3 W4 WC. pose proof (height_pos c) as HP.
  induction items as [ | x items IH ]; intros us done st vs is os fr OA Hb Hc F Hi R1 R2.
  - destruct Hb as (bf & N & T & Rb & G). destruct (nthZ_Some _ _ _ N) as [ K0 K1 ]. rewrite app_nil_r in *. pose proof (few_len _ _ F) as FL. rewrite zlen_app in FL.
    pose proof (zlen_nonneg done). pose proof (zlen_nonneg (concat (map items_of us))).
    destruct (write_add_ok m bf (totals us) (zlen done) (zlen (concat (map items_of us)) + zlen done) (vm_grow m V) Rb G) as (bf' & WA & G' & R' & T').
    { rewrite T. destruct (totals_last us) as (base & ->). rewrite last_last. destruct w; cbn [off_type]; unfold oadd, cast_out, fits, wrapS, wrapU; cbn [Z.leb Z.compare];
        change (2 ^ (32 - 1)) with (2^31); change (2 ^ (64 - 1)) with (2^63);
        rewrite ?(Z.mod_small (zlen done + 2^31)), ?(Z.mod_small (zlen done + 2^63)), ?(Z.mod_small (zlen done)) by lia.
      all: repeat match goal with |- context [ ?x + ?y - ?y ] => replace (x + y - y) with x by lia end.
      all: try (rewrite Z.mod_small by lia; reflexivity).
      all: match goal with |- context [ (?a <=? ?b) && (?c <? ?d) ] => destruct (Z.leb_spec a b); [ | lia ]; destruct (Z.ltb_spec c d); [ | lia ] end;
        cbn [andb negb]; rewrite andb_false_r; f_equal; rewrite Z.mod_small by lia; lia. }
    exists (feed_ins [] is), (upd os (Z.to_nat k) bf'). cbn [map concat app]. split.
    { eapply runs_next; [ apply steps_refl | discriminate | eapply (pause_here m b2 _ W2 0); [ by_n | by_n ] | cbn [k_stk]; rewrite zlen_cons, (vm_stack m V); lia | exact Hi | cbn; change (zlen (@nil Z)) with 0; lia | ].
      apply runs_done. unfold feed; cbn [k_stk k_vars k_ins k_outs k_frames fst snd].
      nx ltac:(eapply (step_dup m b2 _ W2 1); [ by_n | rewrite zlen_cons, (vm_stack m V); lia ]).
      nx ltac:(eapply (step_literal m b2 _ W2 2 3); [ by_n | by_n | rewrite !zlen_cons, (vm_stack m V); lia ]).
      nx ltac:(eapply (step_eq m b2 _ W2 4); by_n). change (bool_of (3 =? 3)) with (-1).
      nx ltac:(eapply (step_ifelse_yes m b2 _ W2 5 b3); [ by_n | by_n | rewrite zlen_cons, (vm_rec m V); lia ]).
      nx ltac:(eapply (step_drop m b3 _ W3 0); by_n).
      nx ltac:(eapply (step_write_add m b3 _ W3 1 k); [ by_n | by_n | exact N | exact WA ]).
      nx ltac:(eapply (step_exit2 m b3 _ W3 3); [ by_n | by_n | reflexivity ]). apply steps_refl. }
    split; [ apply buf_upd; [ lia | congruence | exact R' | exact G' ] | ].
    split; [ eapply holds_frame; [ exact Hc | intros o Ho; apply upd_other; lia ] | ].
    split; [ eapply fed_inok; apply (feed_fed ([], 3)); [ exact Hi | vm_compute; discriminate ] | ].
    split; [ intros o Ho; pose proof (size_pos c); apply upd_other; lia | apply zlen_upd ].
  - inversion OA as [ | ? ? Ox OA' ]; subst. cbn [map concat]. destruct (first_cmd m c cb (k + 1) x WC Ox) as (c0 & rest & E & L0 & L3).
    assert (D : done ++ x :: items = (done ++ [x]) ++ items) by (rewrite <- app_assoc; reflexivity). rewrite D in *.
    destruct (IHc cb (k + 1) x (concat (map items_of us) ++ done) c0 rest (zlen done :: st) vs (feed_ins (fst c0) is) os ((b4, 1) :: (b2, 8) :: (b, 8) :: fr)) as (is1 & os1 & RN & H1 & I1 & O1 & Z1);
      [ exact WC | lia | exact Ox | exact E | exact Hc | | apply feed_fed; assumption | rewrite !zlen_cons; lia | rewrite zlen_cons; lia | ].
    { rewrite app_assoc in F. eapply few_prefix. rewrite <- app_assoc. eapply few_prefix. rewrite <- !app_assoc in F |- *. rewrite app_nil_r. exact F. }
    assert (FL : zlen done < 2^31 - 1).
    { pose proof (few_len _ _ F) as FL. rewrite !zlen_app, zlen_cons in FL. change (zlen (@nil value)) with 0 in FL. pose proof (zlen_nonneg items). pose proof (zlen_nonneg (concat (map items_of us))). lia. }
    pose proof (zlen_nonneg done).
    destruct (IH us (done ++ [x]) st vs is1 os1 fr OA') as (is2 & os2 & RN2 & B & H2 & I2 & O2 & Z2); [ | rewrite app_assoc; exact H1 | exact F | exact I1 | exact R1 | exact R2 | ].
    { eapply buf_frame; [ exact Hb | apply O1; lia ]. }
    exists is2, os2. split; [ | split; [ exact B | split; [ exact H2 | split; [ exact I2 | split; [ | lia ] ] ] ] ].
    + rewrite E, <- app_assoc. cbn [app]. rewrite zlen_app in RN2. change (zlen [x]) with 1 in RN2.
      eapply runs_next; [ apply steps_refl | discriminate | eapply (pause_here m b2 _ W2 0); [ by_n | by_n ] | cbn [k_stk]; rewrite zlen_cons, (vm_stack m V); lia | exact Hi | exact L0 | ].
      unfold feed; cbn [k_stk k_vars k_ins k_outs k_frames]. eapply runs_pre; [ | eapply runs_app; [ exact RN | eapply runs_pre; [ | exact RN2 ] ] ].
      * nx ltac:(eapply (step_dup m b2 _ W2 1); [ by_n | rewrite zlen_cons, (vm_stack m V); lia ]).
        nx ltac:(eapply (step_literal m b2 _ W2 2 3); [ by_n | by_n | rewrite !zlen_cons, (vm_stack m V); lia ]).
        nx ltac:(eapply (step_eq m b2 _ W2 4); by_n). destruct (Z.eqb_spec (snd c0) 3); [ congruence | ]. cbn [bool_of].
        nx ltac:(eapply (step_ifelse_no m b2 _ W2 5); by_n).
        nx ltac:(eapply (step_call m b2 _ W2 7 b4); [ by_n | lia | rewrite zlen_cons, (vm_rec m V); lia ]).
        nx ltac:(eapply (step_call m b4 _ W4 0 cb); [ by_n | lia | rewrite !zlen_cons, (vm_rec m V); lia ]). apply steps_refl.
      * nx ltac:(eapply (step_add1 m b4 _ W4 1); [ by_n | apply (vm_width m V) | lia ]).
        nx ltac:(exact (step_end m b4 _ _ _ _ _ _ W4)).
        nx ltac:(exact (step_end m b2 _ _ _ _ _ _ W2)).
        nx ltac:(eapply (step_again m b _ W 8); by_n).
        nx ltac:(eapply (step_call m b _ W 7 b2); [ by_n | lia | rewrite (vm_rec m V); lia ]). apply steps_refl.
    + intros o Ho. rewrite O2 by exact Ho. apply O1. lia.
Qed.

Lemma eat_list : forall m w c, vm_ok m -> eats m c -> eats m (SList w c).
Proof.
  intros m w c V IHc b k v us c0 rest st vs is os fr (b1 & b2 & b3 & b4 & cb & (B2 & B4 & CB) & W & W2 & W3 & W4 & WC) K O1 E H F Hi R1 R2.
  apply of_list in O1. destruct O1 as (items & -> & OA). cbn [cmds_of items_of] in E. injection E as <- <-. cbn [height] in *. cbn [holds] in H. destruct H as [ Hb Hc ].
  pose proof (height_pos c).
  destruct (eat_items m w c V IHc b b1 b2 b3 b4 cb k B2 B4 CB K W W2 W3 W4 WC items us [] st vs is os fr OA Hb) as (is' & os' & RN & B & H' & I' & O' & Z');
    [ rewrite app_nil_r; exact Hc | | apply (fed_inok _ _ Hi) | lia | lia | ].
  { cbn [app]. cbn [few] in F. rewrite map_app, concat_app in F. cbn [map concat items_of] in F. rewrite app_nil_r in F. apply F. }
  exists is', os'. cbn [app] in *. split; [ | split; [ | split; [ exact I' | split; [ exact O' | exact Z' ] ] ] ].
  - eapply runs_pre; [ | exact RN ]. cbn [fst snd].
    nx ltac:(eapply (step_literal m b _ W 0 2); [ by_n | by_n | rewrite zlen_cons, (vm_stack m V); lia ]).
    nx ltac:(eapply (step_ne m b _ W 2); by_n). change (bool_of (negb (2 =? 2))) with 0.
    nx ltac:(eapply (step_if_no m b _ W 3); by_n).
    nx ltac:(eapply (step_literal m b _ W 5 0); [ by_n | by_n | rewrite (vm_stack m V); lia ]).
    nx ltac:(eapply (step_call m b _ W 7 b2); [ by_n | lia | rewrite (vm_rec m V); lia ]). apply steps_refl.
  - cbn [holds]. rewrite totals_snoc, map_app, concat_app. cbn [map concat items_of]. rewrite app_nil_r. split; assumption.
Qed.

Lemma code_at : forall (pre l : list Z) i, 0 <= i -> nthZ (pre ++ l) (zlen pre + i) = nthZ l i.
Proof. intros pre l i Hi. rewrite nthZ_app. destruct (Z.ltb_spec (zlen pre + i) (zlen pre)); [ lia | ]. f_equal. lia. Qed.

Lemma holds_f_frame : forall l k j us os os', holds_f l j k us os -> (forall o, k <= o < k + fold_right Z.add 0 (map size l) -> nthZ os' o = nthZ os o) -> holds_f l j k us os'.
Proof.
  induction l as [ | y l IHl ]; intros k j us os os' Hh E; cbn [holds_f map fold_right] in *; [ exact I | ]. pose proof (size_pos y).
  assert (0 <= fold_right Z.add 0 (map size l)) by (clear; induction l as [ | z l IH ]; cbn; [ lia | pose proof (size_pos z); lia ]).
  split; [ eapply holds_frame; [ apply Hh | intros o Ho; apply E; lia ] | eapply IHl; [ apply Hh | intros o Ho; apply E; lia ] ].
Qed.

Lemma eat_fields : forall m v, vm_ok m -> forall cs, Forall (eats m) cs -> forall b bs pre, code_seg m b (pre ++ rec_code bs) ->
  forall k j, words m cs bs k -> 0 <= k -> cs <> [] ->
  forall xs us c0 rest st vs is os fr, of_fields cs xs -> (forall i, nth_error xs i = nth_error (fields_of v) (j + i)) -> cmds_fields cs xs = c0 :: rest -> holds_f cs j k us os -> few_f cs j (us ++ [v]) -> fed c0 is ->
  zlen fr + 3 * (1 + fold_right Z.max 0 (map height cs)) + 2 <= 1024 -> zlen st + (1 + fold_right Z.max 0 (map height cs)) + 4 <= 1024 ->
  exists is' os', runs m rest (mkCfg (snd c0 :: st) vs is os ((b, zlen pre) :: fr)) (mkCfg st vs is' os' fr)
    /\ holds_f cs j k (us ++ [v]) os' /\ inok is' /\ (forall o, ~ (k <= o < k + fold_right Z.add 0 (map size cs)) -> nthZ os' o = nthZ os o) /\ zlen os' = zlen os.
Proof.
  intros m v V. induction cs as [ | c cs IH ]; intros HA b bs pre W k j WS K NE xs us c0 rest st vs is os fr OF XS E H F Hi R1 R2; [ congruence | ].
  inversion HA as [ | ? ? Hc HA' ]; subst. destruct bs as [ | b0 bs ]; [ destruct WS | ]. destruct WS as (B0 & WC & WS). destruct xs as [ | x xs ]; [ destruct OF | ].
  destruct OF as [ Ox OF ]. cbn [map fold_right] in *. pose proof (height_pos c). assert (HM : 0 <= fold_right Z.max 0 (map height cs)) by (clear; induction cs; cbn; lia).
  assert (SM : 0 <= fold_right Z.add 0 (map size cs)) by (clear; induction cs as [ | y cs IH ]; cbn; [ lia | pose proof (size_pos y); lia ]). pose proof (size_pos c) as SC.
  destruct (first_cmd m c b0 k x WC Ox) as (d0 & drest & Ed & L0 & _). cbn [cmds_fields] in E. rewrite Ed in E. cbn [app] in E. injection E as <- <-.
  cbn [holds_f] in H. destruct H as [ Hx Hr ]. cbn [few_f] in F. destruct F as [ Fx Fr ].
  assert (FX : field_of j v = x).
  { unfold field_of. specialize (XS 0%nat). cbn [nth_error] in XS. rewrite Nat.add_0_r in XS. symmetry in XS. apply (nth_error_nth _ _ VNone) in XS. exact XS. }
  rewrite map_app in Fx. cbn [map] in Fx. rewrite FX in Fx.
  assert (C0 : nthZ (pre ++ rec_code (b0 :: bs)) (zlen pre) = Some (66 + b0)).
  { replace (zlen pre) with (zlen pre + 0) by lia. rewrite code_at by lia. reflexivity. }
  destruct (Hc b0 k x (map (field_of j) us) d0 drest st vs is os ((b, zlen pre + 1) :: fr)) as (is1 & os1 & RN & H1 & I1 & O1 & Z1);
    [ exact WC | exact K | exact Ox | exact Ed | exact Hx | exact Fx | exact Hi | rewrite zlen_cons; lia | lia | ].
  assert (CALL : steps m (mkCfg (snd d0 :: st) vs is os ((b, zlen pre) :: fr)) (mkCfg (snd d0 :: st) vs is os ((b0, 0) :: (b, zlen pre + 1) :: fr))).
  { nx ltac:(eapply (step_call m b _ W (zlen pre) b0); [ exact C0 | exact B0 | rewrite (vm_rec m V); lia ]). apply steps_refl. }
  destruct cs as [ | c1 cs ].
  - destruct xs; [ | destruct OF ]. destruct bs; [ | destruct WS ]. exists is1, os1. split; [ | split; [ | split; [ exact I1 | split; [ | exact Z1 ] ] ] ].
    + cbn [cmds_fields]. rewrite app_nil_r. eapply runs_pre; [ exact CALL | ]. eapply runs_post; [ exact RN | ].
      replace (zlen pre + 1) with (zlen (pre ++ rec_code [b0])) by (rewrite zlen_app; reflexivity).
      nx ltac:(exact (step_end m b _ _ _ _ _ _ W)). apply steps_refl.
    + cbn [holds_f]. rewrite map_app. cbn [map]. rewrite FX. auto.
    + intros o Ho. apply O1. cbn [map fold_right] in Ho. lia.
  - destruct bs as [ | b1 bs ]; [ destruct WS | ]. destruct xs as [ | x1 xs ]; [ destruct OF | ].
    assert (W' : code_seg m b ((pre ++ [66 + b0; 2]) ++ rec_code (b1 :: bs))) by (rewrite <- app_assoc; exact W).
    assert (Ec : exists e0 erest, cmds_fields (c1 :: cs) (x1 :: xs) = e0 :: erest /\ zlen (fst e0) <= 8).
    { destruct WS as (_ & W1 & _). destruct OF as [ O2 _ ]. destruct (first_cmd m c1 b1 _ x1 W1 O2) as (e0 & er & Ee & Le & _). exists e0, (er ++ cmds_fields cs xs). cbn [cmds_fields]. rewrite Ee. auto. }
    destruct Ec as (e0 & erest & Ee & Le).
    destruct (IH HA' b (b1 :: bs) _ W' (k + size c) (S j) WS ltac:(lia) ltac:(discriminate) (x1 :: xs) us e0 erest st vs (feed_ins (fst e0) is1) os1 fr OF) as (is2 & os2 & RN2 & H2 & I2 & O2 & Z2);
      [ intros i; specialize (XS (S i)); cbn [nth_error] in XS; rewrite <- plus_n_Sm in XS; exact XS | exact Ee | | exact Fr | apply feed_fed; assumption | lia | lia | ].
    { eapply holds_f_frame; [ exact Hr | intros o Ho; apply O1; lia ]. }
    exists is2, os2. split; [ | split; [ | split; [ exact I2 | split; [ | lia ] ] ] ].
    + rewrite Ee. eapply runs_pre; [ exact CALL | ]. eapply runs_app; [ exact RN | ].
      assert (CP : nthZ (pre ++ rec_code (b0 :: b1 :: bs)) (zlen pre + 1) = Some 2) by (rewrite code_at by lia; reflexivity).
      eapply runs_next; [ apply steps_refl | discriminate | eapply (pause_here m b _ W (zlen pre + 1)); [ exact CP | ] | cbn [k_stk]; rewrite (vm_stack m V); lia | exact I1 | exact Le | ].
      { rewrite zlen_app. change (rec_code (b0 :: b1 :: bs)) with ((66 + b0) :: 2 :: rec_code (b1 :: bs)). rewrite !zlen_cons. assert (0 < zlen (rec_code (b1 :: bs))) by (cbn [rec_code]; rewrite zlen_cons; match goal with |- 0 < zlen ?l + 1 => pose proof (zlen_nonneg l); lia end). lia. }
      unfold feed; cbn [k_stk k_vars k_ins k_outs k_frames]. rewrite zlen_app in RN2. change (zlen [66 + b0; 2]) with 2 in RN2. replace (zlen pre + 1 + 1) with (zlen pre + 2) by lia. exact RN2.
    + cbn [holds_f]. rewrite map_app. cbn [map]. rewrite FX. split; [ | exact H2 ]. eapply holds_frame; [ exact H1 | ]. intros o Ho. apply O2. lia.
    + intros o Ho. cbn [map fold_right] in *. rewrite O2 by lia. apply O1. lia.
Qed.

Lemma eat : forall m s, vm_ok m -> eats m s.
Proof.
  intros m s V. induction s using shape_ind'; [ apply eat_num; exact V | apply eat_list; assumption | ].
  intros b k v us c0 rest st vs is os fr W K O1 E Hh F Hi R1 R2. apply word_rec in W. destruct W as (bs & W & NE & WS). apply of_rec in O1. rewrite cmds_rec in E. apply holds_rec in Hh.
  apply few_rec in F. destruct F as [ _ F ].
  destruct (eat_fields m v V cs H b bs [] W k 0 WS K NE (fields_of v) us c0 rest st vs is os fr O1 ltac:(reflexivity) E Hh F Hi R1 R2) as (is' & os' & RN & H' & I' & O' & Z').
  exists is', os'. split; [ exact RN | split; [ apply holds_rec; exact H' | split; [ exact I' | split; [ exact O' | exact Z' ] ] ] ].
Qed.

