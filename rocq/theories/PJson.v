(** Proofs about JSON: what is written, what is read. *)
From Coq Require Import String DecimalString.
From Verif Require Import Base BaseLemmas OmapLemmas Content KCore Core KOption Option KReduce Merge Builder SpecArray SpecBuilder PCore PAt PValid PForm
  PBuilder PBuilderUnion PBuilderSnap PBuilderSpec PBuilderAll ThmC22 Types Json SpecJson.
Local Open Scope string_scope.
Local Open Scope list_scope.
Local Open Scope Z_scope.

Section JInd.
Variable P : json -> Prop.
Hypothesis Hnull : P JNull.
Hypothesis Hbool : forall b, P (JBool b).
Hypothesis Hint : forall z, P (JInt z).
Hypothesis Hreal : forall r, P (JReal r).
Hypothesis Hstring : forall s, P (JString s).
Hypothesis Hlist : forall l, Forall P l -> P (JList l).
Hypothesis Hobject : forall fs, Forall (fun f => P (snd f)) fs -> P (JObject fs).
Fixpoint json_ind' (d : json) : P d :=
  match d with
  | JNull => Hnull | JBool b => Hbool b | JInt z => Hint z | JReal r => Hreal r | JString s => Hstring s
  | JList l => Hlist l ((fix go l : Forall P l := match l with [] => Forall_nil P | x :: l => Forall_cons x (json_ind' x) (go l) end) l)
  | JObject fs => Hobject fs ((fix go (fs : list (string * json)) : Forall (fun f => P (snd f)) fs :=
                                 match fs with [] => Forall_nil _ | f :: fs => Forall_cons f (json_ind' (snd f)) (go fs) end) fs)
  end.
End JInd.
Lemma fold_and {A} (P : A -> Prop) l : fold_right and True (map P l) <-> Forall P l.
Proof. induction l as [|x l IH]; cbn; [split; auto|]. rewrite IH. split; [intros [? ?]; now constructor|intros H; inversion H; auto]. Qed.
Lemma wrap_id z : int64_range z -> wrap64 z = z.
Proof. unfold int64_range, wrap64. change (2 ^ 63) with 9223372036854775808. intros H. rewrite Z.mod_small by lia. lia. Qed.

Section Proofs.
Variables (isnan isinf signbit : Z -> bool) (quiet_nan infinity minus_infinity : Z).
Variable o : options.
Notation document := (document isnan isinf signbit o).
Notation showable := (showable isnan isinf signbit o).
Notation write_scalar := (write_scalar isnan isinf signbit o).
Notation record_tokens := record_tokens.

(** ** Writing *)
Lemma scalar_text dt x : showable (scalar dt x) -> [write_scalar dt x] = text (document (scalar dt x)).
Proof.
  destruct dt; cbn [scalar SpecJson.showable SpecJson.document text Json.write_scalar]; intros H; [reflexivity|now rewrite wrap_id|].
  unfold write_real, real_document, special in *. destruct (isnan x); cbn [orb] in *.
  - destruct (nan_string o); [reflexivity|]. exfalso. now apply H.
  - assert (E : match nan_string o with Some _ | _ => true end = true) by (destruct (nan_string o); reflexivity). clear E.
    destruct (isinf x); cbn [andb] in *; [destruct (signbit x); cbn [negb]|].
    + destruct (nan_string o), (infinity_string o), (minus_infinity_string o); try reflexivity; exfalso; now apply H.
    + destruct (nan_string o), (infinity_string o); try reflexivity; exfalso; now apply H.
    + destruct (nan_string o), (infinity_string o), (minus_infinity_string o); reflexivity.
Qed.
Lemma document_row keys row n : keys_ok keys n = true -> zlen row = n -> document (mkrow keys row) = JObject (combine (record_keys keys n) (map document row)).
Proof.
  destruct keys as [ks|]; cbn [mkrow record_keys SpecJson.document]; intros _ <-; [|reflexivity]. f_equal. clear. revert row; induction ks as [|k ks IH]; intros [|v row]; cbn; [reflexivity..|]. now rewrite IH.
Qed.
Definition row_text (v : value) : list token := text (document v).
Lemma concat_map_text vs : concat (map row_text vs) = flat_map row_text vs.
Proof. symmetry. apply flat_map_concat_map. Qed.
Section Part.
Variable f : item -> res (list token).
Variable fuel : nat.
Hypothesis Hf : forall it v, item_den it = Some v -> showable v -> (vdepth v < fuel)%nat -> f it = Ok (row_text v).
Lemma rows_text c vs : den c = Some vs -> Forall showable vs -> Forall (fun v => (vdepth v < fuel)%nat) vs -> rows_tokens f c = Ok (flat_map row_text vs).
Proof.
  intros Hd Hs Hv. unfold rows_tokens. rewrite (mapres_intro _ _ (map row_text vs)); [cbn [bind]; now rewrite concat_map_text| |].
  - rewrite (den_length _ _ Hd), zlen_map, zlen_zseq by apply zlen_nonneg. lia.
  - rewrite (den_length _ _ Hd). intros i x y Hx Hy. rewrite nthZ_map in Hy. destruct (nthZ vs i) as [v|] eqn:Ev; [|discriminate]. injection Hy as <-. pose proof (nthZ_Some _ _ _ Ev).
    rewrite nthZ_zseq in Hx by lia. injection Hx as <-. rewrite Z.add_0_l. destruct (at_den c vs i v Hd Ev) as (it & -> & Hit). cbn [bind].
    rewrite Forall_forall in Hs, Hv. apply Hf; [exact Hit|apply Hs|apply Hv]; eapply nthZ_In; exact Ev.
Qed.
Lemma showable_row keys row : keys_ok keys (zlen row) = true -> showable (mkrow keys row) -> Forall showable row.
Proof.
  destruct keys as [ks|]; cbn [mkrow SpecJson.showable keys_ok]; intros HL H; [|apply fold_and in H; exact H].
  apply (fold_and (fun f => showable (snd f))) in H. apply Z.eqb_eq in HL. clear Hf fuel f. revert row HL H; induction ks as [|k ks IH]; intros [|v row] HL H; [constructor| | |].
  - rewrite zlen_cons, zlen_nil in HL. pose proof (zlen_nonneg row). lia.
  - constructor.
  - rewrite !zlen_cons in HL. inversion H; subst. constructor; [assumption|]. apply IH; [lia|assumption].
Qed.
Lemma depth_row keys row : keys_ok keys (zlen row) = true -> (vdepth (mkrow keys row) < S fuel)%nat -> Forall (fun v => (vdepth v < fuel)%nat) row.
Proof.
  intros HL H. apply Forall_forall. intros w Hw. assert (vdepth w < vdepth (mkrow keys row))%nat; [|lia]. unfold mkrow. destruct keys as [ks|].
  - cbn [keys_ok] in HL. apply Z.eqb_eq in HL. cbn [vdepth]. clear -Hw HL. revert row HL Hw; induction ks as [|k ks IH]; intros [|v row] HL Hw; try (destruct Hw; fail).
    + rewrite zlen_cons, zlen_nil in HL. pose proof (zlen_nonneg row). lia.
    + rewrite !zlen_cons in HL. cbn. destruct Hw as [->|Hw]; [lia|]. specialize (IH row ltac:(lia) Hw). lia.
  - cbn [vdepth]. pose proof (vdepths_In _ _ Hw). unfold vdepths in *. lia.
Qed.
Lemma record_text keys len cs vs i v : den (Record keys len cs) = Some vs -> nthZ vs i = Some v -> showable v -> (vdepth v < S fuel)%nat ->
  record_tokens f keys cs i = Ok (row_text v).
Proof.
  intros Hd Hv Hs Hf'. cbn [den] in Hd. destruct (omap den cs) as [vss|] eqn:Ecs; [|discriminate]. destruct ((0 <=? len) && keys_ok keys (zlen cs)) eqn:Ek; [|discriminate].
  apply andb_true_iff in Ek. destruct Ek as [E0 Ek]. apply Z.leb_le in E0. destruct (omap_nth' _ _ _ _ _ Hd Hv) as (i' & Hi' & Hr). pose proof (nthZ_Some _ _ _ Hv).
  assert (Hlen : zlen vs = zlen (zseq 0 len)) by (apply (omap_zlen _ _ _ Hd)). pose proof (nthZ_Some _ _ _ Hi') as Hb. rewrite zlen_zseq in Hb by exact E0.
  rewrite nthZ_zseq in Hi' by lia. injection Hi' as <-. rewrite Z.add_0_l in Hr. destruct (omap (fun ws => nthZ ws i) vss) as [row|] eqn:Er; [|discriminate]. injection Hr as <-.
  assert (Lr : zlen row = zlen cs) by (rewrite (omap_zlen _ _ _ Er); apply (omap_zlen _ _ _ Ecs)).
  pose proof (showable_row keys row ltac:(rewrite Lr; exact Ek) Hs) as HS. pose proof (depth_row keys row ltac:(rewrite Lr; exact Ek) Hf') as HD. rewrite Forall_forall in HS, HD.
  unfold row_text. rewrite (document_row keys row (zlen cs) Ek Lr). cbn [text]. unfold Json.record_tokens.
  set (K := record_keys keys (zlen cs)). assert (LK : zlen K = zlen cs).
  { unfold K, record_keys. destruct keys as [ks|]; [cbn [keys_ok] in Ek; lia|]. rewrite zlen_map, zlen_zseq by apply zlen_nonneg. lia. }
  rewrite (mapres_intro _ _ (map (fun f => TKey (fst f) :: text (snd f)) (combine K (map document row)))); [cbn [bind]; now rewrite flat_map_concat_map| |].
  - rewrite zlen_map, zlen_combine by (rewrite zlen_map; lia). rewrite zlen_zseq by apply zlen_nonneg. lia.
  - intros j x y Hx Hy. pose proof (nthZ_Some _ _ _ Hx) as Hj. rewrite zlen_zseq in Hj by apply zlen_nonneg. rewrite nthZ_zseq in Hx by lia. injection Hx as <-. rewrite Z.add_0_l.
    destruct (nthZ_lt K j) as [k Kj]; [lia|]. destruct (nthZ_lt cs j) as [c Cj]; [lia|]. destruct (nthZ_lt row j) as [w Wj]; [lia|].
    rewrite nthZ_map, nthZ_combine, nthZ_map, Kj, Wj in Hy. cbn in Hy. injection Hy as <-. rewrite Kj, Cj.
    destruct (omap_nth' _ _ _ _ _ Er Wj) as (ws & Hws & Hw). destruct (omap_nth' _ _ _ _ _ Ecs Hws) as (c' & Hc' & Hdc). rewrite Cj in Hc'. injection Hc' as <-.
    destruct (at_den c ws i w Hdc Hw) as (it & -> & Hit). cbn [bind]. rewrite (Hf it w Hit); [reflexivity|apply HS|apply HD]; eapply nthZ_In; exact Wj.
Qed.
Lemma part_text c : forall vs include, den c = Some vs -> Forall showable vs -> Forall (fun v => (vdepth v < fuel)%nat) vs ->
  tojson_part isnan isinf signbit f o c include = Ok (bracketed include (flat_map row_text vs)).
Proof.
  induction c using content_ind'; intros vs include Hd Hs Hv; cbn [tojson_part]; try (rewrite (rows_text _ _ Hd Hs Hv); reflexivity).
  - cbn [den] in Hd. injection Hd as <-. reflexivity.
  - cbn [den] in Hd. injection Hd as <-. do 2 f_equal. clear Hv. induction data as [|x data IH]; [reflexivity|]. cbn [map] in *. inversion Hs; subst. cbn [flat_map]. unfold row_text at 1.
    rewrite <- scalar_text by assumption. cbn. f_equal. apply IH. assumption.
  - cbn [den] in Hd. apply IHc; assumption.
  - assert (LV : zlen vs = zlen (zseq 0 len) /\ 0 <= len).
    { cbn [den] in Hd. destruct (omap den cs); [|discriminate]. destruct (Z.leb_spec 0 len); [|discriminate]. destruct (keys_ok _ _); [|discriminate]. split; [apply (omap_zlen _ _ _ Hd)|assumption]. }
    destruct LV as [LV L0].
    rewrite (mapres_intro _ _ (map row_text vs)); [cbn [bind]; now rewrite concat_map_text|rewrite zlen_map; exact LV|].
    intros i x y Hx Hy. pose proof (nthZ_Some _ _ _ Hx) as Hi. rewrite zlen_zseq in Hi by exact L0. rewrite nthZ_zseq in Hx by lia. injection Hx as <-. rewrite Z.add_0_l.
    rewrite nthZ_map in Hy. destruct (nthZ vs i) as [v|] eqn:Ev; [|discriminate]. injection Hy as <-. rewrite Forall_forall in Hs, Hv. pose proof (nthZ_In _ _ _ Ev) as Hin.
    eapply record_text; [exact Hd|exact Ev|apply Hs; exact Hin|specialize (Hv v Hin); cbn beta in Hv; lia].
Qed.
End Part.
Lemma item_text fuel : forall it v, item_den it = Some v -> showable v -> (vdepth v < fuel)%nat -> item_tokens isnan isinf signbit fuel o it = Ok (row_text v).
Proof.
  induction fuel as [|fuel IH]; intros it v Hit Hs Hdep; [lia|]. cbn [item_tokens]. destruct it as [dt z| |c|c i]; cbn [item_den] in Hit.
  - injection Hit as <-. unfold row_text. rewrite <- scalar_text by exact Hs. reflexivity.
  - injection Hit as <-. reflexivity.
  - destruct (den c) as [l|] eqn:Ec; [|discriminate]. injection Hit as <-. cbn [vdepth] in Hdep. cbn [SpecJson.showable] in Hs. apply fold_and in Hs.
    rewrite (part_text _ fuel IH c l true Ec Hs).
    + unfold row_text. cbn [SpecJson.document text bracketed]. f_equal. f_equal. f_equal. clear. induction l as [|v l IHl]; [reflexivity|]. cbn [map flat_map]. now rewrite IHl.
    + apply Forall_forall. intros v Hv. pose proof (vdepths_In _ _ Hv). unfold vdepths in *. lia.
  - destruct c; try discriminate. destruct (den (Record keys length contents)) as [vs|] eqn:Ec; [|discriminate]. eapply record_text; [exact IH|exact Ec|exact Hit|exact Hs|exact Hdep].
Qed.
Lemma tojson_text fuel c vs : den c = Some vs -> Forall showable vs -> (vdepths vs < fuel)%nat -> tojson isnan isinf signbit fuel o c = Ok (text (document (VList vs))).
Proof.
  intros Hd Hs Hv. unfold tojson. rewrite (part_text _ fuel (item_text fuel) c vs true Hd Hs).
  - unfold row_text. cbn [SpecJson.document text bracketed]. f_equal. f_equal. f_equal. clear. induction vs as [|v l IHl]; [reflexivity|]. cbn [map flat_map]. now rewrite IHl.
  - apply Forall_forall. intros v Hin. pose proof (vdepths_In _ _ Hin). lia.
Qed.

End Proofs.

(** ** Reading *)
Section Reading.
Variables (quiet_nan infinity minus_infinity : Z).
Variable o : options.
Notation handle := (handle quiet_nan infinity minus_infinity o).
Notation feed := (feed quiet_nan infinity minus_infinity).
Notation datum := (datum quiet_nan infinity minus_infinity o).
Notation covered_document := (covered_document quiet_nan infinity minus_infinity o).
Lemma mapres_app' {A B} (f : A -> res B) a b x y : mapres f a = Ok x -> mapres f b = Ok y -> mapres f (a ++ b) = Ok (x ++ y).
Proof.
  revert x; induction a as [|t a IH]; intros x Ha Hb; cbn [mapres app] in *; [injection Ha as <-; exact Hb|].
  apply bind_Ok in Ha. destruct Ha as (u & -> & Ha). apply bind_Ok in Ha. destruct Ha as (us & E & Ha). injection Ha as <-. cbn [bind]. rewrite (IH us E Hb). reflexivity.
Qed.
Lemma handled d : covered_document d -> mapres handle (text d) = Ok (calls (datum d)).
Proof.
  induction d using json_ind'; intros Hc; cbn [text SpecJson.datum calls].
  1, 2, 4: reflexivity.
  - cbn. rewrite wrap_id by exact Hc. reflexivity.
  - cbn [SpecJson.covered_document] in Hc. unfold named in *. cbn. destruct (nan_string o) as [s1|]; cbn [is_string]; [destruct (s =? s1)%string; [reflexivity|]|];
      (destruct (infinity_string o) as [s2|]; cbn [is_string]; [destruct (s =? s2)%string; [reflexivity|]|]);
      (destruct (minus_infinity_string o) as [s3|]; cbn [is_string]; [destruct (s =? s3)%string; [reflexivity|]|]); contradiction.
  - cbn [SpecJson.covered_document] in Hc. apply fold_and in Hc. cbn [mapres]. cbn [bind Json.handle].
    assert (G : mapres handle (flat_map text l) = Ok (flat_map calls (map datum l))).
    { clear -H Hc. induction H as [|d l Hd Hl IH]; [reflexivity|]. inversion Hc; subst. cbn [flat_map map]. apply mapres_app'; auto. }
    rewrite (mapres_app' _ _ [TEndList] _ [CEndList] G eq_refl). reflexivity.
  - cbn [SpecJson.covered_document] in Hc. apply (fold_and (fun f => covered_document (snd f))) in Hc. cbn [mapres]. cbn [bind Json.handle].
    assert (G : mapres handle (flat_map (fun f => TKey (fst f) :: text (snd f)) fs) = Ok (flat_map (fun f => CField (fst f) :: flat_map calls (snd f)) (map (fun f => (fst f, [datum (snd f)])) fs))).
    { clear -H Hc. induction H as [|d l Hd Hl IH]; [reflexivity|]. inversion Hc; subst. cbn [flat_map map fst snd]. apply mapres_app'; [|auto]. cbn [mapres bind Json.handle].
      rewrite (Hd H1). cbn [bind]. now rewrite app_nil_r. }
    rewrite (mapres_app' _ _ [TEndObject] _ [CEndRecord] G eq_refl). reflexivity.
Qed.
Lemma handled_all docs : Forall covered_document docs -> mapres handle (concat (map text docs)) = Ok (flat_map calls (map datum docs)).
Proof. induction 1 as [|d docs Hd _ IH]; [reflexivity|]. cbn [map concat flat_map]. apply mapres_app'; [apply handled; exact Hd|exact IH]. Qed.

(** no key twice *)
Definition fields (fs : list (string * json)) : list (string * list entry) := map (fun f => (fst f, [datum (snd f)])) fs.
Lemma filled_absent k fs : ~ In k (map fst fs) -> filled String.eqb k (fields fs) = [].
Proof.
  induction fs as [|[a d] fs IH]; intros H; [reflexivity|]. cbn [fields map filled flat_map fst snd] in *. destruct (String.eqb_spec a k) as [->|]; [exfalso; apply H; left; reflexivity|].
  apply IH. intros Hin. apply H. right. exact Hin.
Qed.
Lemma once_iff fs : once String.eqb (fields fs) = true <-> NoDup (map fst fs).
Proof.
  unfold once. rewrite forallb_forall. split.
  - intros H. induction fs as [|[a d] fs IH]; [constructor|]. cbn [map fst]. constructor.
    + intros Hin. specialize (H (a, [datum d])). cbn [fst fields map] in H. specialize (H (or_introl eq_refl)). cbn [filled flat_map fst snd] in H. rewrite String.eqb_refl in H.
      apply in_map_iff in Hin. destruct Hin as ([b d'] & E & Hin). cbn in E. subst b.
      assert (1 <= zlen (filled String.eqb a (fields fs))).
      { clear -Hin. induction fs as [|[b e] fs IH]; [destruct Hin|]. cbn [fields map filled flat_map fst snd]. destruct Hin as [E|Hin].
        - injection E as -> ->. rewrite String.eqb_refl. rewrite zlen_app. pose proof (zlen_nonneg (flat_map (fun f : string * list entry => if (fst f =? a)%string then snd f else []) (map (fun f => (fst f, [datum (snd f)])) fs))). rewrite zlen_cons, zlen_nil. lia.
        - specialize (IH Hin). unfold filled, fields in IH. rewrite zlen_app. destruct (b =? a)%string; rewrite ?zlen_cons, ?zlen_nil; lia. }
      unfold filled, fields in H0. rewrite zlen_app, zlen_cons in H. change (zlen (@nil entry)) with 0 in H. lia.
    + apply IH. intros x Hx. specialize (H x (or_intror Hx)). cbn [filled fields map flat_map fst snd] in *. rewrite zlen_app in H. pose proof (zlen_nonneg (if (a =? fst x)%string then [datum d] else [])).
      apply Z.leb_le in H. apply Z.leb_le. unfold filled, fields. lia.
  - intros HN x Hx. apply Z.leb_le. apply in_map_iff in Hx. destruct Hx as ([a d] & <- & Hx). cbn [fst]. clear -HN Hx. induction fs as [|[b e] fs IH]; [destruct Hx|].
    cbn [map fst] in HN. inversion HN; subst. cbn [fields map filled flat_map fst snd]. destruct Hx as [E|Hx].
    + injection E as -> ->. rewrite String.eqb_refl. change (flat_map _ _) with (filled String.eqb a (fields fs)). rewrite filled_absent by assumption. rewrite app_nil_r. change (zlen [datum d]) with 1. lia.
    + destruct (String.eqb_spec b a) as [->|]; [exfalso; apply H1; apply in_map_iff; exists (a, d); auto|]. exact (IH H2 Hx).
Qed.
Lemma datum_writable d : forall outer, keys_once d -> writable [] outer (datum d).
Proof.
  induction d using json_ind'; intros outer Hk; cbn [SpecJson.datum writable]; try exact I.
  - cbn [keys_once] in Hk. apply fold_and in Hk. apply fold_and. apply Forall_map. apply Forall_forall. intros x Hx. rewrite Forall_forall in H, Hk. apply H; [exact Hx|apply Hk; exact Hx].
  - cbn [keys_once] in Hk. destruct Hk as [HN Hk]. split; [apply once_iff; exact HN|]. apply (fold_and (fun f => keys_once (snd f))) in Hk.
    apply (fold_and (fun f : string * list entry => fold_right and True (map (writable [] outer) (snd f)))). apply Forall_map. apply Forall_forall. intros x Hx. rewrite Forall_forall in H, Hk. cbn. split; [|exact I].
    apply H; [exact Hx|apply Hk; exact Hx].
Qed.
Section Read.
Variable rc : Z -> Z.
Lemma feed_run ts : forall ks b, mapres handle ts = Ok ks -> feed rc o b ts = run rc b ks.
Proof.
  induction ts as [|t ts IH]; intros ks b H; cbn [mapres] in H; [injection H as <-; reflexivity|]. apply bind_Ok in H. destruct H as (k & E & H). apply bind_Ok in H. destruct H as (ks' & E' & H).
  injection H as <-. cbn [Json.feed run]. rewrite E. cbn [bind]. destruct (step rc b k); cbn [bind]; [|reflexivity|reflexivity]. apply IH. exact E'.
Qed.
Variable refeq : content -> content -> bool.
Hypothesis Hrefeq : forall a b, refeq a b = true -> a = b.
Notation do_parse := (do_parse quiet_nan infinity minus_infinity rc refeq).
Lemma parse_ok fuel docs : Forall covered_document docs -> Forall keys_once docs ->
  exists it, do_parse (S fuel) o (map text docs) White = Ok it /\
  item_den it = match values rc (map datum docs) with [v] => Some v | vs => Some (VList vs) end.
Proof.
  intros Hc Hk. destruct (C22_snapshot_shows_data rc refeq fuel [] (map datum docs) Hrefeq) as (b & c & E1 & E2 & E3); [rewrite zlen_nil; lia| |].
  { apply Forall_map. eapply Forall_impl; [|exact Hk]. intros d. apply datum_writable. }
  unfold Json.do_parse. rewrite (feed_run _ _ _ (handled_all docs Hc)), E1. cbn [bind]. rewrite E2. cbn [bind]. rewrite zlen_map.
  assert (LV : zlen (values rc (map datum docs)) = zlen docs) by (unfold values; now rewrite !zlen_map). destruct (Z.eqb_spec (zlen docs) 1) as [E|E].
  - destruct (values rc (map datum docs)) as [|v [|w vs]] eqn:EV; rewrite ?zlen_cons in LV; try (pose proof (zlen_nonneg vs)); change (zlen (@nil value)) with 0 in LV; try lia.
    destruct (at_den c [v] 0 v E3 eq_refl) as (it & Ea & Hi). eauto.
  - exists (IArray c). split; [reflexivity|]. cbn [item_den]. rewrite E3. cbn [option_map]. destruct (values rc (map datum docs)) as [|v [|w vs]]; try reflexivity. exfalso. apply E. rewrite <- LV. reflexivity.
Qed.
End Read.
End Reading.
