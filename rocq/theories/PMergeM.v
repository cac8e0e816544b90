(** Concatenation: the recursion over all the classes. *)
From Coq Require Import Permutation.
From Verif Require Import Base BaseLemmas OmapLemmas LoopLemmas Content SpecArray SpecForm SpecOption SpecMerge KCore Core KConvert Convert KOption Option KMerge Merge
  PCore PCarry PList PConvert POption PForm PTidy PPromote PMergeable PMergeK PMerge PMergeC PMergeR.

Section PM.
Variable rc : Z -> Z.
Variable narrow : content -> bool.
Variable mb : bool.
Notation pr := (promotes rc).
Notation fm := (fmerge mb).
Notation fmc := (fmc mb).
Notation pre := (pre mb).
Notation post := (post rc mb).
Notation summ := (summ mb).
Notation excuse := (excuse narrow).
Notation outcome := (outcome rc narrow mb).

Lemma pre_self self self' others vss v : pre self others vss -> den self = Some v -> den self' = Some v -> form_of self' = form_of self -> tidy self' -> pre self' others vss.
Proof.
  intros (HD & HT & HO & HP) D D' HF HT'. inversion HD; inversion HT; inversion HP as [|? ? HA HB]; subst. split; [constructor; [congruence|assumption]|]. split; [constructor; assumption|]. split.
  - destruct HO as [HO|HO]; [left; exact HO|right]. inversion HO; subst. constructor; [|assumption]. unfold ofree in *. rewrite HF. assumption.
  - constructor; [|exact HB]. unfold PMerge.fmc in *. rewrite HF. exact HA.
Qed.
Lemma outcome_empty others vss v r : others <> [] -> den Empty = Some v -> outcome others vss r -> outcome (Empty :: others) (v :: vss) r.
Proof.
  intros HN Hv H. cbn [den] in Hv. injection Hv as <-. destruct r as [c'| |]; [| |exact H].
  - destruct H as (vs' & D & P & T & W & O & U & M). exists vs'. split; [exact D|]. split; [exact P|]. split; [exact T|]. split; [sw; lia|]. split; [|split].
    + intros HF. apply O. inversion HF; assumption.
    + intros HF. apply U. inversion HF; assumption.
    + intros g HF. apply M. inversion HF; assumption.
  - revert H. apply excuse_mono; [|sw; lia]. intros HF; inversion HF; assumption.
Qed.
Lemma lo_to_lista offsets c vs : den (ListOffset offsets c) = Some vs -> exists starts stops, make_starts offsets = Ok starts /\ make_stops offsets = Ok stops /\ mkListA starts stops c = Ok (ListA starts stops c) /\ den (ListA starts stops c) = Some vs.
Proof.
  intros Hd. destruct (list_inv _ _ _ _ Hd eq_refl) as (ws & Dc & HO & HV). cbn [den] in Hd. rewrite Dc in Hd. destruct (Z.leb_spec 1 (zlen offsets)); [|discriminate].
  rewrite make_starts_spec, make_stops_spec by lia. exists (slice 0 (zlen offsets - 1) offsets), (slice 1 (zlen offsets) offsets). split; [reflexivity|]. split; [reflexivity|]. unfold mkListA. cbn [den]. rewrite Dc, !zlen_slice by lia.
  destruct (Z.ltb_spec (zlen offsets - 1) (zlen offsets - 1 - 0)); [lia|]. destruct (Z.leb_spec (zlen offsets - 1 - 0) (zlen offsets - 1)); [|lia]. split; [reflexivity|]. rewrite combine_starts_stops by lia. exact Hd.
Qed.

Lemma masked_outcome f : (forall self others vss, pre self others vss -> (sumw (self :: others) + length others <= f)%nat -> outcome (self :: others) vss (mergemany rc narrow f self others)) ->
  forall self others vss v, pre self others vss -> den self = Some v -> tidy self -> (sumw (self :: others) + length others <= S f)%nat ->
  (exists m v c', self = ByteMasked m v c') \/ (exists m v l n c', self = BitMasked m v l n c') \/ (exists c', self = Unmasked c') ->
  outcome (self :: others) vss (let* o := toIndexedOptionArray64 self in IndexedArray_mergemany narrow (mergemany rc narrow f) o others).
Proof.
  intros IH self others vss v HP Ds Ts Hf HS. destruct (to_indexed_option _ _ Ds HS) as (i & c' & E & D & _). destruct (toindexedoption_shape _ _ E) as (i' & Ei). injection Ei as _ ->. destruct (toindexedoption_same _ _ E) as (i2 & c2 & _ & HF & _).
  assert (HW : weight (IndexedOption i (below self)) = weight self /\ tidy (IndexedOption i (below self))) by (destruct HS as [(? & ? & ? & ->)|[(? & ? & ? & ? & ? & ->)|(? & ->)]]; split; try reflexivity; exact Ts).
  destruct HW as [HW HT]. rewrite E. cbn [bind]. apply (outcome_self rc narrow mb self (IndexedOption i (below self))); [congruence|lia|].
  eapply indexed_outcome; [exact IH|eauto| |sw; lia]. eapply pre_self; [exact HP|exact Ds|exact D|congruence|exact HT].
Qed.

Theorem mergemany_ok : forall f self others vss, pre self others vss -> (sumw (self :: others) + length others <= f)%nat -> outcome (self :: others) vss (mergemany rc narrow f self others).
Proof.
  induction f as [|f IH]; intros self others vss HP Hf; [rewrite sumw_cons in Hf; pose proof (weight_pos self); lia|].
  pose proof HP as (HD & HT & HO & HPP). inversion HD as [|? v ? vss' Ds Dl]; subst. inversion HT as [|? ? Ts Tl]; subst.
  cbn [mergemany]. destruct others as [|o0 rest].
  { inversion Dl; subst. exists v. cbn [concat]. rewrite app_nil_r. split; [exact Ds|]. split; [apply prs_refl|]. apply (summ_refl narrow). exact Ts. }
  set (others := o0 :: rest) in *.
  destruct self as [|dt data|starts stops c|offsets c|size zl c|index c|index c|mask vw c|mask vw lsb len c|c|keys len cs|tags index cs].
  - apply outcome_empty; [discriminate|exact Ds|]. unfold others in *. inversion Dl as [|? v0 ? vss0 D0 D1]; subst. inversion Tl; subst. destruct rest as [|r1 rest].
    + inversion D1; subst. exists v0. cbn [concat]. rewrite app_nil_r. split; [exact D0|]. split; [apply prs_refl|]. apply (summ_refl narrow); assumption.
    + apply IH; [|sw; simpl length in *; simpl weight in Hf; lia]. split; [exact Dl|]. split; [exact Tl|]. split; [destruct HO as [HO|HO]; [left|right]; inversion HO; assumption|inversion HPP; assumption].
  - eapply numpy_outcome; [exact IH|reflexivity|exact HP|exact Hf].
  - eapply list_outcome; [exact IH|eauto|exact HP|exact Hf].
  - destruct (lo_to_lista _ _ _ Ds) as (starts & stops & -> & -> & E & DL). cbn [bind]. rewrite E. cbn [bind]. apply (outcome_self rc narrow mb (ListOffset offsets c) (ListA starts stops c)); [reflexivity|simpl; lia|].
    eapply list_outcome; [exact IH|eauto| |sw; simpl weight in *; exact Hf]. eapply pre_self; [exact HP|exact Ds|exact DL|reflexivity|exact Ts].
  - destruct (regular_inv _ _ _ _ Ds) as (ws & segs & _ & _ & -> & _). destruct (regular_to_listoffset _ _ _ _ Ds) as (c'' & tail & E & D1 & D2 & HTd & HW). rewrite E. cbn [bind].
    pose proof (listoffset_den segs c'' tail D1) as DLO. destruct (lo_to_lista _ _ _ DLO) as (starts & stops & -> & -> & E' & DL). cbn [bind]. rewrite E'. cbn [bind].
    apply (outcome_self rc narrow mb (Regular size zl c) (ListA starts stops c'')); [destruct (tolistoffset_same _ _ _ _ E) as (o & c3 & E3 & HF & _); injection E3 as _ ->; simpl in *; congruence|simpl; lia|].
    eapply list_outcome; [exact IH|eauto| |sw; simpl weight in *; lia]. eapply pre_self; [exact HP|exact Ds|exact DL| |apply HTd; exact Ts].
    destruct (tolistoffset_same _ _ _ _ E) as (o & c3 & E3 & HF & _). injection E3 as _ ->. simpl in *. congruence.
  - eapply indexed_outcome; [exact IH|eauto|exact HP|exact Hf].
  - eapply indexed_outcome; [exact IH|eauto|exact HP|exact Hf].
  - apply (masked_outcome f IH _ _ _ v HP Ds Ts Hf); eauto 10.
  - apply (masked_outcome f IH _ _ _ v HP Ds Ts Hf); eauto 10.
  - apply (masked_outcome f IH _ _ _ v HP Ds Ts Hf); eauto 10.
  - eapply record_outcome; [exact IH|reflexivity|exact HP|exact Hf].
  - eapply union_outcome; [exact IH|eauto|exact HP|exact Hf].
Qed.
End PM.
