(** Slicing: facts about [exact] and [has_regular], and about the specification. *)
From Verif Require Import Base BaseLemmas LoopLemmas OmapLemmas Content KCore Core KRange KConvert Convert KOption Option KAxis Axis KGetitem SpecArray SpecForm SpecSlice SpecOption
  PCore PRange PCarry PList POption PForm PAxis PNum Getitem SpecGetitem PGetitemK.

(** ** has_regular *)
Lemma mapres_reg (f : content -> res content) cs cs' : Forall (fun c => forall c', f c = Ok c' -> has_regular c' = has_regular c) cs -> mapres f cs = Ok cs' -> existsb has_regular cs' = existsb has_regular cs.
Proof.
  intros HF; revert cs'; induction HF as [|c cs Hc _ IH]; intros cs' H; simpl in H; [injection H as <-; reflexivity|].
  binv H. injection H as <-. simpl. rewrite (Hc _ E), (IH _ E0). reflexivity.
Qed.
Lemma range_reg c : forall a b c', getitem_range_nowrap c a b = Ok c' -> has_regular c' = has_regular c.
Proof.
  induction c using content_ind'; intros a' b' c' H0; simpl in H0; binv H0; try (mkinv H0; subst; reflexivity).
  - mkinv H0; subst. simpl. eapply IHc; eassumption.
  - mkinv H0; subst. simpl. eapply IHc; eassumption.
  - injection H0 as <-. simpl. eapply IHc; eassumption.
  - destruct cs as [|c0 cs]; [mkinv H0; subst; reflexivity|]. binv H0; [injection H0 as <-; reflexivity|].
    mkinv H0; subst. simpl. change (has_regular c0 || existsb has_regular cs) with (existsb has_regular (c0 :: cs)).
    eapply mapres_reg; [|exact E]. eapply Forall_impl; [|exact H]. intros x Hx x' Hx'. eapply Hx; exact Hx'.
Qed.
Lemma contiguous_reg c cry kk c' : carry_contiguous c cry kk = Ok c' -> (kk tt = Ok c' -> has_regular c' = has_regular c) -> has_regular c' = has_regular c.
Proof.
  unfold carry_contiguous; intros H Hk. binv H.
  - injection H as <-. reflexivity.
  - eapply range_reg; exact H.
  - auto.
Qed.
Lemma carry_reg c : forall cry lz c', carry c cry lz = Ok c' -> has_regular c' = has_regular c.
Proof.
  induction c using content_ind'; intros cry lz c' H0; cbn [carry] in H0;
    try (eapply contiguous_reg; [exact H0|clear H0; intros H0; cbv beta in H0]); binv H0; try (mkinv H0; subst; reflexivity).
  - mkinv H0; subst. simpl. eapply IHc; eassumption.
  - eapply (contiguous_reg (ByteMasked a vw c)); [exact H0|clear H0; intros H0; cbv beta in H0]. binv H0. mkinv H0; subst. simpl. eapply IHc; eassumption.
  - injection H0 as <-. simpl. eapply IHc; eassumption.
  - eapply contiguous_reg; [exact H0|clear H0; intros H0; cbv beta in H0]. binv H0. mkinv H0; subst. simpl.
    eapply mapres_reg; [|exact E]. eapply Forall_impl; [|exact H]. intros x Hx x' Hx'. eapply Hx; exact Hx'.
Qed.

(** ** exact *)
Lemma exact_fields len cs : fold_right and True (map (fun x => length_ x = len /\ exact x) cs) <-> (forall x, In x cs -> length_ x = len /\ exact x).
Proof. induction cs as [|c cs IH]; simpl; [split; [intros _ _ []|auto]|]. rewrite IH. split; [intros [A B] x [<-|Hx]; auto|intros H; split; auto]. Qed.
Lemma exact_all cs : fold_right and True (map exact cs) <-> (forall x, In x cs -> exact x).
Proof. induction cs as [|c cs IH]; simpl; [split; [intros _ _ []|auto]|]. rewrite IH. split; [intros [A B] x [<-|Hx]; auto|intros H; split; auto]. Qed.
Lemma omap_In' {A B} (f : A -> option B) l ys x y : omap f l = Some ys -> In x l -> f x = Some y -> In y ys.
Proof. intros H Hx Hf. destruct (omap_In _ _ _ _ H Hx) as (y' & E & Hy). congruence. Qed.
Lemma mapres_In {A B} (f : A -> res B) l l' y : mapres f l = Ok l' -> In y l' -> exists x, In x l /\ f x = Ok y.
Proof.
  revert l'; induction l as [|x l IH]; intros l' H Hy; simpl in H; [injection H as <-; destruct Hy|].
  binv H. injection H as <-. destruct Hy as [<-|Hy]; [exists x; split; [now left|assumption]|]. destruct (IH _ E0 Hy) as (x' & Hx' & E'); exists x'; split; [now right|exact E'].
Qed.
Lemma record_cols keys len cs vs : den (Record keys len cs) = Some vs -> exists vss, omap den cs = Some vss /\ 0 <= len /\ keys_ok keys (zlen cs) = true /\ zlen vs = len /\
  omap (fun i => option_map (mkrow keys) (omap (fun vs => nthZ vs i) vss)) (zseq 0 len) = Some vs.
Proof.
  intros Hd. cbn [den] in Hd. destruct (omap den cs) as [vss|]; [|discriminate]. exists vss. split; [reflexivity|].
  destruct (Z.leb_spec 0 len); [|discriminate]. destruct (keys_ok keys (zlen cs)); [|discriminate]. cbn [andb] in Hd. pose proof (omap_zlen _ _ _ Hd) as Hz. rewrite zlen_zseq in Hz by lia. repeat split; auto; lia.
Qed.
Lemma range_exact c : forall vs a b c', den c = Some vs -> exact c -> 0 <= a <= b -> b <= zlen vs -> getitem_range_nowrap c a b = Ok c' -> exact c'.
Proof.
  induction c using content_ind'; intros vs a0 b0 c' Hd HE Ha Hb H0; cbn [getitem_range_nowrap] in H0; binv H0; try (mkinv H0; subst; exact HE).
  - mkinv H0; subst. cbn [exact] in *. destruct (regular_inv _ _ _ _ Hd) as (ws & segs & Ec & Hs & -> & Hl & Hseg & Hz1 & Hz2).
    eapply IHc; [exact Ec|exact HE| | |exact E]; [nia|]. rewrite zlen_map in Hb. pose proof (zlen_nonneg ws). destruct (Z.eqb_spec size 0) as [->|]; [lia|]. specialize (Hz2 ltac:(lia)).
    assert (b0 <= zlen ws / size) by lia. nia.
  - mkinv H0; subst. cbn [exact] in *. pose proof (den_length _ _ Hd) as HL. cbn [length_] in HL. cbn [den] in Hd. destruct (den c) as [ws|] eqn:Ec; [|discriminate]. destruct (Z.leb_spec (zlen mask) (zlen ws)); [|discriminate].
    eapply IHc; [reflexivity|exact HE|exact Ha| |exact E0]. lia.
  - mkinv H0; subst. cbn [exact] in *. pose proof (den_length _ _ Hd) as HL. cbn [length_] in HL. cbn [den] in Hd. destruct (den c) as [ws|] eqn:Ec; [|discriminate].
    destruct (Z.leb_spec len (zlen ws)); [|rewrite andb_false_r in Hd; discriminate].
    eapply IHc; [reflexivity|exact HE|exact Ha| |exact E2]. lia.
  - injection H0 as <-. cbn [exact] in *. eapply IHc; [exact Hd|exact HE|exact Ha|exact Hb|exact E].
  - destruct (record_cols _ _ _ _ Hd) as (vss & Hc & Hlen & Hk & Hz & _). cbn [exact] in HE. destruct HE as [Hne HE]. rewrite exact_fields in HE.
    destruct cs as [|c0 cs]; [congruence|]. binv H0; [injection H0 as <-; cbn [exact]; split; [exact Hne|rewrite exact_fields; exact HE]|].
    mkinv H0; subst. cbn [exact]. split; [intros ->; apply mapres_Ok in E; rewrite zlen_cons in E; pose proof (zlen_nonneg cs); change (zlen (@nil content)) with 0 in E; lia|].
    rewrite exact_fields. intros x Hx. destruct (mapres_In _ _ _ _ E Hx) as (y & Hy & Ey). destruct (omap_In _ _ _ _ Hc Hy) as (col & Hcol & _).
    destruct (HE y Hy) as [HL HX]. rewrite (den_length _ _ Hcol) in HL.
    destruct (range_den _ _ a0 b0 Hcol ltac:(lia) ltac:(lia)) as (y' & Ey' & Hy'). rewrite Ey' in Ey. injection Ey as ->.
    split; [rewrite (den_length _ _ Hy'), zlen_slice; lia|]. rewrite Forall_forall in H. eapply (H y Hy); [exact Hcol|exact HX| | |exact Ey']; lia.
Qed.
Lemma iscontig_prefix cry b : awkward_Index_iscontiguous cry (zlen cry) = Ok b -> b = true -> cry = zseq 0 (zlen cry).
Proof. destruct (iscontiguous_spec cry) as (b' & E & Hb). intros E'. rewrite E' in E. injection E as ->. apply Hb. Qed.
Lemma contiguous_exact c vs cry ws kk c' : den c = Some vs -> omap (nthZ vs) cry = Some ws -> exact c -> carry_contiguous c cry kk = Ok c' -> (kk tt = Ok c' -> exact c') -> exact c'.
Proof.
  unfold carry_contiguous; intros Hd Ho HE H Hk. binv H.
  - injection H as <-. exact HE.
  - pose proof (iscontig_prefix _ _ E eq_refl) as Hc. pose proof (zlen_nonneg cry). eapply range_exact; [exact Hd|exact HE| | |exact H]; [lia|].
    destruct (Z.eqb_spec (zlen cry) 0); [pose proof (zlen_nonneg vs); lia|]. assert (Hi : In (zlen cry - 1) (zseq 0 (zlen cry))) by (apply In_zseq; lia). rewrite <- Hc in Hi.
    pose proof (omap_nthZ_range _ _ _ Ho _ Hi). lia.
  - auto.
Qed.
Lemma bytemasked_exact mask vw c ws cry vs xs lz c' : den c = Some ws -> den (ByteMasked mask vw c) = Some vs -> omap (nthZ vs) cry = Some xs ->
  carry c cry lz = Ok c' -> (forall ys, omap (nthZ ws) cry = Some ys -> exact c') -> exact c'.
Proof.
  intros Hc Hd Ho E IH. pose proof (den_length _ _ Hd) as HL. cbn [length_] in HL. cbn [den] in Hd. rewrite Hc in Hd. destruct (Z.leb_spec (zlen mask) (zlen ws)); [|discriminate].
  destruct (omap_nthZ_total ws cry) as [ys Hys]; [|exact (IH _ Hys)]. intros i Hi. pose proof (omap_nthZ_range _ _ _ Ho i Hi). lia.
Qed.
Lemma carry_exact c : forall vs cry ws lz c', den c = Some vs -> omap (nthZ vs) cry = Some ws -> exact c -> carry c cry lz = Ok c' -> exact c'.
Proof.
  induction c using content_ind'; intros vs cry xs lz c' Hd Ho HE H0; cbn [carry] in H0;
    try (eapply contiguous_exact; [exact Hd|exact Ho|exact HE|exact H0|clear H0; intros H0; cbv beta in H0]); binv H0; try (mkinv H0; subst; exact HE).
  - mkinv H0; subst. cbn [exact] in *. destruct (regular_inv _ _ _ _ Hd) as (ws & segs & Ec & Hs & -> & Hl & Hseg & _).
    rewrite regular_nextcarry in E by (auto; rewrite ?zlen_alloc; pose proof (zlen_nonneg cry); nia). injection E as <-.
    destruct (omap_nthZ_total ws (concat (map (fun c => zseq (c * size) ((c + 1) * size)) cry))) as [ys Hys].
    { intros i Hi. apply in_concat in Hi. destruct Hi as (l & Hl1 & Hl2). apply in_map_iff in Hl1. destruct Hl1 as (j & <- & Hj). apply In_zseq in Hl2.
      pose proof (omap_nthZ_range _ _ _ Ho j Hj) as Hr. rewrite zlen_map in Hr. destruct (nthZ_lt segs j Hr) as [sg Hsg]. destruct (Hseg _ _ Hsg). nia. }
    eapply IHc; [exact Ec|exact Hys|exact HE|exact E0].
  - mkinv H0; subst. cbn [exact] in *. destruct (den c) as [ws|] eqn:Ec; [|cbn [den] in Hd; rewrite Ec in Hd; discriminate].
    eapply bytemasked_exact; [exact Ec|exact Hd|exact Ho|exact E0|]. intros ys Hys. eapply IHc; [reflexivity|exact Hys|exact HE|exact E0].
  - destruct (bitmasked_den _ _ _ _ _ _ Hd) as [Hlen Hd2]. rewrite bytemask0_spec in E by lia. injection E as <-. set (bm := map _ _) in *. cbn [exact] in HE.
    eapply (contiguous_exact (ByteMasked bm vw c)); [exact Hd2|exact Ho|exact HE|exact H0|clear H0; intros H0; cbv beta in H0]. binv H0. mkinv H0; subst. cbn [exact].
    destruct (den c) as [ws|] eqn:Ec; [|cbn [den] in Hd; rewrite Ec in Hd; discriminate].
    eapply bytemasked_exact; [exact Ec|exact Hd2|exact Ho|eassumption|]. intros ys Hys. eapply IHc; [reflexivity|exact Hys|exact HE|eassumption].
  - injection H0 as <-. cbn [exact] in *. eapply IHc; [exact Hd|exact Ho|exact HE|exact E].
  - eapply contiguous_exact; [exact Hd|exact Ho|exact HE|exact H0|clear H0; intros H0; cbv beta in H0]. binv H0. mkinv H0; subst.
    destruct (record_cols _ _ _ _ Hd) as (vss & Hc & Hlen & Hk & Hz & _). cbn [exact] in HE. destruct HE as [Hne HE]. rewrite exact_fields in HE.
    cbn [exact]. split; [intros ->; apply mapres_Ok in E; destruct cs as [|c0 cs]; [congruence|]; rewrite zlen_cons in E; pose proof (zlen_nonneg cs); change (zlen (@nil content)) with 0 in E; lia|].
    rewrite exact_fields. intros x Hx. destruct (mapres_In _ _ _ _ E Hx) as (y & Hy & Ey). destruct (omap_In _ _ _ _ Hc Hy) as (col & Hcol & _).
    destruct (HE y Hy) as [HL HX]. rewrite (den_length _ _ Hcol) in HL.
    destruct (omap_nthZ_total col cry) as [ys Hys]. { intros i Hi. pose proof (omap_nthZ_range _ _ _ Ho i Hi). lia. }
    destruct (carry_den _ _ _ _ false Hcol Hys) as (y' & Ey' & Hy'). rewrite Ey' in Ey. injection Ey as ->.
    split; [rewrite (den_length _ _ Hy'); apply (omap_zlen _ _ _ Hys)|]. rewrite Forall_forall in H. eapply (H y Hy); [exact Hcol|exact Hys|exact HX|exact Ey'].
Qed.

(** ** the specification *)
Lemma thru_mkrow f keys vals : keys_ok keys (zlen vals) = true -> thru f (mkrow keys vals) = option_map (mkrow keys) (omap (thru f) vals).
Proof.
  intros Hk. destruct keys as [ks|]; cbn [mkrow thru].
  - cbn [keys_ok] in Hk. apply Z.eqb_eq in Hk.
    assert (G : (fix go (fs : list (string * value)) : option (list (string * value)) := match fs with [] => Some [] | (k, x) :: t => match thru f x, go t with Some y, Some t' => Some ((k, y) :: t') | _, _ => None end end) (combine ks vals)
       = option_map (combine ks) (omap (thru f) vals)).
    { revert vals Hk. induction ks as [|k ks IH]; intros [|v vals] Hk; try reflexivity.
      - rewrite zlen_cons, zlen_nil in Hk. pose proof (zlen_nonneg vals). lia.
      - rewrite !zlen_cons in Hk. cbn [combine omap]. rewrite (IH vals) by lia. destruct (thru f v); [|reflexivity]. destruct (omap (thru f) vals); reflexivity. }
    rewrite G. destruct (omap (thru f) vals); reflexivity.
  - reflexivity.
Qed.
Lemma fold_and_map {A} (P : A -> Prop) l : fold_right and True (map P l) <-> Forall P l.
Proof. induction l as [|c cs IH]; simpl; [split; auto|]. rewrite IH. split; [intros []; constructor; assumption|intros H; inversion H; auto]. Qed.
Lemma short_mkrow m keys vals : keys_ok keys (zlen vals) = true -> short m (mkrow keys vals) -> Forall (short m) vals.
Proof.
  intros Hk H. destruct keys as [ks|]; cbn [mkrow short] in H; [|apply fold_and_map; exact H].
  cbn [keys_ok] in Hk. apply Z.eqb_eq in Hk. rewrite (fold_and_map (fun kx : string * value => short m (snd kx))) in H. rewrite Forall_forall in *. intros v Hv.
  apply In_nthZ in Hv. destruct Hv as (i & Hi). destruct (nthZ_lt ks i) as [k Hki]; [apply nthZ_Some in Hi; lia|].
  apply (H (k, v)). apply (nthZ_In _ i). rewrite nthZ_combine, Hki, Hi. reflexivity.
Qed.
Lemma short_list m l : short m (VList l) <-> zlen l <= m /\ Forall (short m) l.
Proof. cbn [short]. now rewrite fold_and_map. Qed.

Lemma arrays_cons it t : arrays (it :: t) = arrays t + match it with SArray _ _ => 1 | _ => 0 end.
Proof. unfold arrays. cbn [filter]. destruct it; rewrite ?zlen_cons; lia. Qed.
Lemma arrays_nonneg t : 0 <= arrays t.
Proof. apply zlen_nonneg. Qed.
(** without index arrays the position does not matter *)
Lemma thru_ext f g v : (forall v, f v = g v) -> thru f v = thru g v.
Proof.
  intros E. revert v. fix IH 1. intros [z|b|z| |l|fs|l]; cbn [thru]; try apply E; [reflexivity| |].
  - f_equal. induction fs as [|[k x] fs IHf]; [reflexivity|]. rewrite (IH x), IHf. reflexivity.
  - f_equal. induction l as [|x l IHf]; [reflexivity|]. rewrite (IH x), IHf. reflexivity.
Qed.
Lemma pick_indep items : arrays items = 0 -> forall k k' v, pick items k v = pick items k' v.
Proof.
  induction items as [|it t IH]; intros Ha k k' v; [reflexivity|]. rewrite arrays_cons in Ha. pose proof (arrays_nonneg t).
  assert (Ht : arrays t = 0) by (destruct it; lia). specialize (IH Ht). destruct it; cbn [pick]; try reflexivity; try lia.
  - apply thru_ext. intros [ | | | |l| | ]; try reflexivity. destruct (elem l at_); auto.
  - apply thru_ext. intros [ | | | |l| | ]; try reflexivity. destruct (omap _ _); [|reflexivity]. f_equal. apply omap_ext. intros x _. apply IH.
  - now rewrite (IH k k').
  - destruct (proj key v); auto.
Qed.
