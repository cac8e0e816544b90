(** Proofs about getitem_field. *)
From Verif Require Import Base BaseLemmas OmapLemmas Content KCore Core KOption Option SpecArray SpecForm SpecOption PCore PCarry PList POption PAxis PPromote PMergeR PMerge PTidy PLift PForm PNat PGetitem1.
From Verif Require Import Getitem SpecGetitem.
From Coq Require Import String.
From Coq Require Import List.
Import ListNotations.
Local Open Scope Z_scope.

Section OptLift.
Variable R : value -> value -> Prop.
Hypothesis R_none : R VNone VNone.
Notation FR := (Forall2 R).
Lemma indexedoption_lift index c c' ws us vs : den c = Some ws -> den c' = Some us -> FR ws us -> den (IndexedOption index c) = Some vs ->
  exists vs', den (IndexedOption index c') = Some vs' /\ FR vs vs'.
Proof.
  intros D D' H. cbn [den]. rewrite D, D'. apply omap_F2. intros i v _ Hv. destruct (i <? 0); [injection Hv as <-; eauto|].
  exact (F2_nthZ _ _ _ _ _ H Hv).
Qed.
Lemma bytemasked_lift mask vw c c' ws us vs : den c = Some ws -> den c' = Some us -> FR ws us -> den (ByteMasked mask vw c) = Some vs ->
  exists vs', den (ByteMasked mask vw c') = Some vs' /\ FR vs vs'.
Proof.
  intros D D' H. cbn [den]. rewrite D, D', (F2_zlen _ _ _ H). destruct (zlen mask <=? zlen us); [|discriminate]. intros E; injection E as <-. eexists; split; [reflexivity|].
  revert mask. clear D D'. induction H as [|a b ws us Hab _ IH]; intros [|m mask]; simpl; try constructor; [destruct (Bool.eqb _ _); assumption|apply IH].
Qed.
Lemma bitmasked_lift mask vw lsb len c c' ws us vs : den c = Some ws -> den c' = Some us -> FR ws us -> den (BitMasked mask vw lsb len c) = Some vs ->
  exists vs', den (BitMasked mask vw lsb len c') = Some vs' /\ FR vs vs'.
Proof.
  intros D D' H. cbn [den]. rewrite D, D', (F2_zlen _ _ _ H). destruct (_ && _); [|discriminate]. apply omap_F2. intros i v _ Hv.
  destruct (mask_bit mask lsb i) as [b|]; [|discriminate]. destruct (nthZ ws i) as [w|] eqn:E; [|discriminate]. injection Hv as <-.
  destruct (F2_nthZ _ _ _ _ _ H E) as (u & -> & Hu). eexists; split; [reflexivity|]. destruct (Bool.eqb b vw); assumption.
Qed.
End OptLift.

Lemma F2_omap {A B} (f : A -> option B) l l' : Forall2 (fun x y => f x = Some y) l l' <-> omap f l = Some l'.
Proof.
  split.
  - induction 1 as [|x y l l' E _ IH]; [reflexivity|]. cbn [omap]. now rewrite E, IH.
  - revert l'; induction l as [|x l IH]; intros l' H; cbn [omap] in H; [injection H as <-; constructor|].
    destruct (f x) eqn:E; [|discriminate]. destruct (omap f l); [|discriminate]. injection H as <-. constructor; auto.
Qed.

Lemma key_index_find ks key i (vals : list value) : zlen ks = zlen vals -> existsb (String.eqb key) ks = true ->
  exists j, key_index ks key i = Some (i + j) /\ 0 <= j < zlen ks /\ option_map snd (find (fun kx => String.eqb (fst kx) key) (combine ks vals)) = nthZ vals j.
Proof.
  revert i vals; induction ks as [|k ks IH]; intros i vals Hl He; [discriminate|].
  destruct vals as [|v vals]; [rewrite zlen_cons, zlen_nil in Hl; pose proof (zlen_nonneg ks); lia|]. rewrite !zlen_cons in Hl. cbn [existsb] in He. cbn [key_index combine find fst].
  rewrite String.eqb_sym in He. pose proof (zlen_nonneg ks). destruct (String.eqb k key); [exists 0; rewrite zlen_cons; repeat split; [f_equal; lia|lia|lia]|].
  cbn [orb] in He. destruct (IH (i + 1) vals ltac:(lia) He) as (j & -> & Hj & Hf). exists (j + 1). rewrite zlen_cons. repeat split; [f_equal; lia|lia|lia|].
  rewrite Hf, nthZ_cons. destruct (Z.eqb_spec (j + 1) 0); [lia|]. f_equal. lia.
Qed.
Lemma fieldindex_spec keys key cs : keys_ok keys (zlen cs) = true -> has_field key (FRecord keys (map form_of cs)) = true ->
  exists j, fieldindex keys key (zlen cs) = Ok j /\ 0 <= j < zlen cs /\ forall vals, zlen vals = zlen cs -> proj key (mkrow keys vals) = nthZ vals j.
Proof.
  intros Hk Hf. destruct keys as [ks|]; cbn [has_field keys_ok] in *; rewrite zlen_map in Hf.
  - apply Z.eqb_eq in Hk. apply andb_prop in Hf. destruct Hf as [_ Hf].
    assert (G : forall vals, zlen vals = zlen cs -> exists j, key_index ks key 0 = Some j /\ 0 <= j < zlen ks /\ proj key (mkrow (Some ks) vals) = nthZ vals j).
    { intros vals Hv. destruct (key_index_find ks key 0 vals ltac:(lia) Hf) as (j & E & Hj & Hp). exists j. rewrite E. split; [f_equal; lia|]. split; [lia|exact Hp]. }
    destruct (G (map (fun _ => VNone) cs) ltac:(apply zlen_map)) as (j & E & Hj & _). exists j. unfold fieldindex. rewrite E. repeat split; [lia|lia|].
    intros vals Hv. destruct (G vals Hv) as (j' & E' & _ & Hp). congruence.
  - unfold fieldindex. cbn [mkrow proj]. destruct (stoi key) as [i|]; [|discriminate]. rewrite Hf. exists i. repeat split; try lia. 
Qed.
Lemma mkByteMasked_den mask vw c vs : den (ByteMasked mask vw c) = Some vs -> mkByteMasked mask vw c = Ok (ByteMasked mask vw c).
Proof.
  intros Hd. unfold mkByteMasked. cbn [den] in Hd. destruct (den c) as [ws|] eqn:E; [|discriminate]. rewrite (den_length _ _ E). destruct (Z.leb_spec (zlen mask) (zlen ws)); [|discriminate].
  destruct (Z.ltb_spec (zlen ws) (zlen mask)); [lia|reflexivity].
Qed.
Lemma mkBitMasked_den mask vw lsb len c vs : den (BitMasked mask vw lsb len c) = Some vs -> mkBitMasked mask vw lsb len c = Ok (BitMasked mask vw lsb len c).
Proof.
  intros Hd. unfold mkBitMasked. cbn [den] in Hd. destruct (den c) as [ws|] eqn:E; [|discriminate]. rewrite (den_length _ _ E).
  destruct (Z.leb_spec 0 len); [|discriminate]. destruct (Z.leb_spec len (zlen ws)); [|discriminate]. destruct (Z.leb_spec len (8 * zlen mask)); [|discriminate].
  destruct (Z.ltb_spec (zlen mask) (Z.quot len 8 + (if Z.rem len 8 =? 0 then 0 else 1))) as [Hlt|_].
  { exfalso. rewrite Z.quot_div_nonneg, Z.rem_mod_nonneg in Hlt by lia. destruct (Z.eqb_spec (len mod 8) 0); lia. }
  destruct (Z.ltb_spec (zlen ws) len); [exfalso; lia|]. reflexivity.
Qed.
Lemma omap_col (vss : list (list value)) i row j col : omap (fun vs => nthZ vs i) vss = Some row -> nthZ vss j = Some col -> nthZ row j = nthZ col i.
Proof. intros H Hj. destruct (omap_nth _ _ _ _ _ H Hj) as [E _]. auto. Qed.

Lemma field_den key c : forall vs, has_field key (form_of c) = true -> den c = Some vs ->
  exists c' ws, getitem_field key c = Ok c' /\ omap (proj key) vs = Some ws /\ den c' = Some ws.
Proof.
  pose (R := fun x y => proj key x = Some y).
  assert (RL : forall l l', Forall2 R l l' -> R (VList l) (VList l')) by (intros l l' H; unfold R in *; cbn [proj]; apply F2_omap in H; now rewrite H).
  assert (RN : R VNone VNone) by reflexivity.
  induction c using content_ind'; intros vs Hf Hd; cbn [form_of has_field] in Hf; try discriminate Hf.
  all: cbn [getitem_field].
  all: try (destruct (content_inv1 _ _ Hd) as [ws Hws]; cbn [below] in Hws; destruct (IHc ws Hf Hws) as (next & us & -> & Hus & Hn); cbn [bind]; apply F2_omap in Hus; fold R in Hus).
  - destruct (lista_lift R RL _ _ _ _ _ _ _ Hws Hn Hus Hd) as (vs' & Hd' & HF). rewrite (mkListA_den _ _ _ _ Hd'). apply F2_omap in HF. eauto.
  - destruct (listoffset_lift R RL _ _ _ _ _ _ Hws Hn Hus Hd) as (vs' & Hd' & HF). rewrite (mkListOffset_den _ _ _ Hd'). apply F2_omap in HF. eauto.
  - assert (Hd2 : den (Regular size (length_ (Regular size zl c)) c) = Some vs).
    { pose proof (den_length _ _ Hd) as HL. destruct (regular_inv _ _ _ _ Hd) as (ws' & segs & Ec & Hs & -> & _ & _ & Hz & _). destruct (Z.eqb_spec size 0) as [->|Hne].
      - rewrite HL, zlen_map. rewrite <- (Hz eq_refl). exact Hd.
      - cbn [den] in *. rewrite Ec in *. destruct (Z.ltb_spec 0 size); [exact Hd|lia]. }
    destruct (regular_lift R RL _ _ _ _ _ _ _ Hws Hn Hus Hd2) as (vs' & Hd' & HF). rewrite (mkRegular_den _ _ _ _ Hd'). apply F2_omap in HF. eauto.
  - destruct (indexed_lift R _ _ _ _ _ _ Hws Hn Hus Hd) as (vs' & Hd' & HF). apply F2_omap in HF. destruct (simplify_den _ _ Hd' eq_refl) as (r & -> & Hr & _). eauto.
  - destruct (indexedoption_lift R RN _ _ _ _ _ _ Hws Hn Hus Hd) as (vs' & Hd' & HF). apply F2_omap in HF. destruct (simplify_den _ _ Hd' eq_refl) as (r & -> & Hr & _). eauto.
  - destruct (bytemasked_lift R RN _ _ _ _ _ _ _ Hws Hn Hus Hd) as (vs' & Hd' & HF). apply F2_omap in HF. rewrite (mkByteMasked_den _ _ _ _ Hd'). cbn [bind]. destruct (simplify_den _ _ Hd' eq_refl) as (r & -> & Hr & _). eauto.
  - destruct (bitmasked_lift R RN _ _ _ _ _ _ _ _ _ Hws Hn Hus Hd) as (vs' & Hd' & HF). apply F2_omap in HF. rewrite (mkBitMasked_den _ _ _ _ _ _ Hd'). cbn [bind]. destruct (simplify_den _ _ Hd' eq_refl) as (r & -> & Hr & _). eauto.
  - apply F2_omap in Hus. change (den (Unmasked c)) with (den c) in Hd. rewrite Hws in Hd. injection Hd as <-. assert (Hd' : den (Unmasked next) = Some us) by exact Hn. destruct (simplify_den _ _ Hd' eq_refl) as (r & -> & Hr & _). eauto.
  - destruct (record_cols _ _ _ _ Hd) as (vss & Hc & Hlen & Hk & Hz & Hr). destruct (fieldindex_spec keys key cs Hk Hf) as (j & -> & Hj & Hp). cbn [bind].
    destruct (nthZ_lt cs j Hj) as [x Hx]. rewrite (proj2 (rd_Ok _ _ _) Hx). cbn [bind]. pose proof (omap_zlen _ _ _ Hc) as Hzc.
    destruct (omap_nth _ _ _ _ _ Hc Hx) as (E & col & Hcol). rewrite Hcol in E. symmetry in E.
    assert (Hrow : forall i v, nthZ vs i = Some v -> proj key v = nthZ col i /\ exists y, nthZ col i = Some y).
    { intros i v Hv. destruct (omap_nth' _ _ _ _ _ Hr Hv) as (i' & Hi' & Hm). pose proof (nthZ_Some _ _ _ Hi') as Hi. rewrite zlen_zseq in Hi by lia. rewrite nthZ_zseq in Hi' by lia. injection Hi' as <-. rewrite Z.add_0_l in Hm.
      destruct (omap (fun vs => nthZ vs i) vss) as [row|] eqn:Er; [|discriminate]. injection Hm as <-. rewrite (Hp row) by (rewrite (omap_zlen _ _ _ Er); lia).
      rewrite (omap_col _ _ _ _ _ Er E). split; [reflexivity|]. destruct (omap_nth _ _ _ _ _ Er E) as (_ & y & Hy). eauto. }
    assert (Hcl : len <= zlen col).
    { destruct (Z.eqb_spec len 0); [pose proof (zlen_nonneg col); lia|]. destruct (nthZ_lt vs (len - 1) ltac:(lia)) as [v Hv]. destruct (Hrow _ _ Hv) as (_ & y & Hy). apply nthZ_Some in Hy. lia. }
    destruct (range_den _ _ 0 len Hcol ltac:(lia) Hcl) as (x' & -> & Hd'). exists x', (slice 0 len col). split; [reflexivity|]. split; [|exact Hd'].
    apply omap_intro; [rewrite zlen_slice by lia; lia|]. intros i v Hv. pose proof (nthZ_Some _ _ _ Hv). rewrite nthZ_slice by lia. apply (Hrow _ _ Hv).
Qed.
