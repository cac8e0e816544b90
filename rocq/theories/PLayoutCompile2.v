(** The text of a LayoutBuilder, continued: records, and the whole program *)
From Coq Require Import String.
From Verif Require Import Base BaseLemmas OmapLemmas Content Forms PForms Forth ForthParse PForthSafe4 PForthOut LayoutBuild SpecLayout PLayoutVm PLayoutWord PLayoutTop PLayoutSnap PLayoutMain PLayoutToken PLayoutParse PLayoutNames PLayoutCompile.
Local Open Scope string_scope.
Local Open Scope list_scope.
Local Open Scope Z_scope.

(** ** The fields of a record *)
Definition sum_nodes (cs : list shape) : Z := fold_right Z.add 0 (map nodes cs).
Record pieces (cs : list shape) (ns : list node) (ts : list vmtext) (ks : list string) : Prop := mkPieces {
  ps_looks : Forall2 looks cs ns;
  ps_len : List.length ts = List.length cs;
  ps_err : exists te, reads "" (concat_s (map v_error ts)) te "" /\ pushes te (sum_nodes cs);
  ps_out : exists to, reads "" (concat_s (map v_output ts)) to "" /\ declares to ks (concat (map node_outs ns)) (concat (map types cs));
  ps_names : Forall (oname ks) (concat (map node_outs ns));
  ps_distinct : NoDup (concat (map node_outs ns));
  ps_name : Forall (fun t => wname ks (v_name t)) ts;
  ps_func : exists tf, reads "" (concat_s (map v_func ts)) tf "" /\ forall O ST k D S, outs_good O -> at_outs O k (concat (map node_outs ns)) -> 0 <= k -> D_out D ks -> 1 <= zlen S ->
    exists D' S' bs, goes "" 0 tf [] (E O ST D S) (E O ST (D ++ D') (S ++ S')) /\ D_in D' ks /\ Forall2 (fun t b => assoc (v_name t) (D ++ D') = Some (66 + b)) ts bs /\ swords (S ++ S') cs bs k;
  ps_from : exists tr, reads "" (concat_s (map v_from ts)) tr "" /\ starts tr (concat (map node_outs ns)) (from_f cs) }.

Lemma pieces_nil : pieces [] [] [] [].
Proof.
  split; cbn [map concat concat_s fold_right].
  - constructor.
  - reflexivity.
  - exists []. split; [ apply reads_nil | ]. intros ST S. exists [], []. split; [ apply Z.le_refl | ]. rewrite app_nil_r. apply goes_nil.
  - exists []. split; [ apply reads_nil | ]. intros O ST S _. rewrite app_nil_r. apply goes_nil.
  - constructor.
  - constructor.
  - constructor.
  - exists []. split; [ apply reads_nil | ]. intros O ST k D S _ _ _ _ _. exists [], [], []. rewrite !app_nil_r. split; [ apply goes_nil | ]. split; [ constructor | ]. split; [ constructor | exact I ].
  - exists []. split; [ apply reads_nil | ]. intros O ST k D S _ _ _ _. apply goes_nil.
Qed.

Lemma oname_two : forall ks ks' x, oname ks x -> oname ks' x -> exists key, In key ks /\ In key ks'.
Proof.
  intros ks ks' x (k1 & s1 & I1 & S1 & _ & ->) (k2 & s2 & I2 & S2 & _ & E2). apply part0_inj in E2. apply two_suffixes in S1, S2. destruct (name_inj _ _ _ _ S1 S2 E2) as [ _ -> ]. exists k2. auto.
Qed.
Lemma at_app : forall O k a b, at_outs O k (a ++ b) -> at_outs O k a /\ at_outs O (k + zlen a) b.
Proof.
  intros O k a b H. pose proof (zlen_nonneg a). pose proof (zlen_nonneg b). split; intros i Hi.
  - rewrite H by (rewrite zlen_app; lia). rewrite nthZ_app. destruct (Z.ltb_spec i (zlen a)); [ reflexivity | lia ].
  - replace (k + zlen a + i) with (k + (zlen a + i)) by lia. rewrite H by (rewrite zlen_app; lia). rewrite nthZ_app. destruct (Z.ltb_spec (zlen a + i) (zlen a)); [ lia | ]. f_equal. lia.
Qed.
Lemma combine_app : forall {A B} (a a' : list A) (b b' : list B), List.length a = List.length b -> combine (a ++ a') (b ++ b') = combine a b ++ combine a' b'.
Proof. induction a as [ | x a IH ]; intros a' [ | y b ] b' H; try discriminate; [ reflexivity | ]. cbn [app combine]. rewrite IH by (injection H as H; exact H). reflexivity. Qed.
Lemma nodup_app : forall {A} (a b : list A), NoDup a -> NoDup b -> (forall x, In x a -> ~ In x b) -> NoDup (a ++ b).
Proof.
  induction 1 as [ | x a NI _ IH ]; intros HB HD; [ exact HB | ]. cbn [app]. constructor; [ rewrite in_app_iff; intros [ A1 | A1 ]; [ contradiction | apply (HD x); [ left; reflexivity | exact A1 ] ] | ]. apply IH; [ exact HB | intros y Hy; apply HD; right; exact Hy ].
Qed.

Lemma pieces_cons : forall c n t ks cs ns ts ks', piece c n t ks -> pieces cs ns ts ks' -> (forall x, In x ks -> ~ In x ks') -> pieces (c :: cs) (n :: ns) (t :: ts) (ks ++ ks').
Proof.
  intros c n t ks cs ns ts ks' PC PS DJ. destruct PC as [ PL (te & RE & PE) (to & RO & PO) PN PD PW (tf & RF & PF) (tr & RR & PR) ]. destruct PS as [ QL QZ (te' & RE' & PE') (to' & RO' & PO') QN QD QW (tf' & RF' & PF') (tr' & RR' & PR') ].
  assert (I1 : incl ks (ks ++ ks')) by (intros x Hx; apply in_or_app; left; exact Hx). assert (I2 : incl ks' (ks ++ ks')) by (intros x Hx; apply in_or_app; right; exact Hx).
  pose proof (looks_size _ _ PL) as LS. pose proof (types_len c) as TL.
  split; cbn [map concat concat_s fold_right].
  - constructor; assumption.
  - cbn [List.length]. rewrite QZ. reflexivity.
  - exists (te ++ te'). split; [ eapply reads_app; eassumption | ]. unfold sum_nodes. cbn [map fold_right]. apply pushes_app; assumption.
  - exists (to ++ to'). split; [ eapply reads_app; eassumption | ]. intros O ST S HF. rewrite combine_app by (unfold zlen in *; lia). rewrite app_assoc. eapply goes_app0; [ apply PO | apply PO' ].
    + eapply Forall_impl; [ | exact HF ]. intros x A B. apply A. eapply oname_more; eassumption.
    + rewrite map_app. apply Forall_app. split; [ eapply Forall_impl; [ | exact HF ]; intros x A B; apply A; eapply oname_more; eassumption | ].
      rewrite Forall_forall. intros x Hx B. apply in_map_iff in Hx. destruct Hx as ([ y ty ] & <- & Hy). apply in_combine_l in Hy. rewrite Forall_forall in PN. destruct (oname_two _ _ _ (PN _ Hy) B) as (key & K1 & K2). apply (DJ key K1 K2).
  - apply Forall_app. split; [ eapply Forall_impl; [ | exact PN ] | eapply Forall_impl; [ | exact QN ] ]; intros x A; eapply oname_more; eassumption.
  - apply nodup_app; [ exact PD | exact QD | ]. intros x A B. rewrite Forall_forall in PN, QN. destruct (oname_two _ _ _ (PN _ A) (QN _ B)) as (key & K1 & K2). apply (DJ key K1 K2).
  - constructor; [ apply (wname_more ks); assumption | ]. eapply Forall_impl; [ | exact QW ]. intros x A. cbv beta in A. apply (wname_more ks'); assumption.
  - exists (tf ++ tf'). split; [ eapply reads_app; eassumption | ]. intros O ST k D S HG HA Hk HD HS. destruct (at_app _ _ _ _ HA) as [ HA1 HA2 ]. pose proof (zlen_nonneg (node_outs n)).
    destruct (PF O ST k D S HG HA1 Hk (D_out_less _ _ _ HD I1) HS) as (D1 & S1 & b & G1 & DI1 & A1 & B1 & W1).
    destruct (PF' O ST (k + zlen (node_outs n)) (D ++ D1) (S ++ S1) HG HA2 ltac:(lia)) as (D2 & S2 & bs & G2 & DI2 & A2 & W2).
    { eapply D_app; [ eapply D_out_less; [ exact HD | exact I2 ] | exact DI1 | exact DJ ]. }
    { rewrite zlen_app. pose proof (zlen_nonneg S1). lia. }
    exists (D1 ++ D2), (S1 ++ S2), (b :: bs). rewrite (app_assoc D D1), (app_assoc S S1). split; [ eapply goes_app0; eassumption | ]. split; [ apply Forall_app; split; eapply D_in_more; eassumption | ]. split.
    + constructor; [ apply assoc_more; exact A1 | exact A2 ].
    + cbn [swords]. split; [ exact B1 | ]. split; [ eapply sword_to; [ | exact W1 ]; intros; apply sg_app; assumption | ]. rewrite LS in W2. exact W2.
  - exists (tr ++ tr'). split; [ eapply reads_app; eassumption | ]. intros O ST k D S HG HA Hk DF. destruct (at_app _ _ _ _ HA) as [ HA1 HA2 ]. pose proof (zlen_nonneg (node_outs n)). cbn [from_f]. eapply goes_app; [ apply PR; assumption | ]. rewrite <- LS. apply PR'; try assumption. lia.
Qed.

(** ** The word of a record *)
Fixpoint rec_tail (ws : list string) : string :=
  match ws with
  | [] => ""
  | [w] => nl +++ "    " +++ w
  | w :: ws => nl +++ "    " +++ w +++ " pause" +++ rec_tail ws
  end.
Fixpoint rec_toks (ws : list string) : list string :=
  match ws with
  | [] => []
  | w :: ws => nl :: w :: match ws with [] => [nl] | _ => "pause" :: rec_toks ws end
  end.
Lemma substring_all : forall X y, String.substring 0 (String.length X) (X +++ y) = X.
Proof. induction X as [ | c X IH ]; intros y; cbn; [ destruct y; reflexivity | rewrite IH; reflexivity ]. Qed.
Lemma length_app_s : forall a b, String.length (a +++ b) = (String.length a + String.length b)%nat.
Proof. induction a as [ | c a IH ]; intros b; cbn; [ reflexivity | rewrite IH; reflexivity ]. Qed.
Lemma erase_pause : forall X, erase_last 6 (X +++ " pause") = X.
Proof. intros X. unfold erase_last. rewrite length_app_s. change (String.length " pause") with 6%nat. replace (String.length X + 6 - 6)%nat with (String.length X) by lia. apply substring_all. Qed.
Lemma rec_tail_pause : forall (ts : list vmtext), ts <> [] -> concat_s (map (fun c => nl +++ "    " +++ v_name c +++ " pause") ts) = rec_tail (map v_name ts) +++ " pause".
Proof.
  induction ts as [ | t ts IH ]; intros H; [ congruence | ]. destruct ts as [ | t2 ts ]; [ cbn [map concat_s fold_right rec_tail]; rewrite app_nil_s, !app_assoc_s; reflexivity | ].
  change (concat_s (map (fun c => nl +++ "    " +++ v_name c +++ " pause") (t :: t2 :: ts))) with ((nl +++ "    " +++ v_name t +++ " pause") +++ concat_s (map (fun c => nl +++ "    " +++ v_name c +++ " pause") (t2 :: ts))).
  rewrite IH by discriminate. change (rec_tail (map v_name (t :: t2 :: ts))) with (nl +++ "    " +++ v_name t +++ " pause" +++ rec_tail (map v_name (t2 :: ts))). rewrite !app_assoc_s. reflexivity.
Qed.
Definition good_word (w : string) : Prop := wordy w = true /\ w <> "".
Lemma reads_rec : forall ws cur, ws <> [] -> good_word cur -> Forall good_word ws -> reads cur (rec_tail ws +++ nl) (cur :: rec_toks ws) "".
Proof.
  induction ws as [ | w ws IH ]; intros cur NE HC HA; [ congruence | ]. inversion HA as [ | ? ? [ W1 W2 ] HA' ]; subst. destruct HC as [ C1 C2 ].
  assert (R1 : reads cur (nl +++ "    " +++ w) [cur; nl] w).
  { change [cur; nl] with ([cur; nl] ++ [] ++ []). eapply reads_app; [ apply reads_eol; assumption | ]. eapply reads_app; [ apply known_ok; [ reflexivity | reflexivity ] | ]. exact (reads_word w "" W1). }
  destruct ws as [ | w2 ws ].
  - change (cur :: rec_toks [w]) with ([cur; nl] ++ [w; nl]). cbn [rec_tail]. eapply reads_app; [ exact R1 | apply reads_eol; assumption ].
  - change (rec_tail (w :: w2 :: ws)) with (nl +++ "    " +++ w +++ " pause" +++ rec_tail (w2 :: ws)). change (cur :: rec_toks (w :: w2 :: ws)) with ([cur; nl] ++ [w] ++ "pause" :: rec_toks (w2 :: ws)).
    replace ((nl +++ "    " +++ w +++ " pause" +++ rec_tail (w2 :: ws)) +++ nl) with ((nl +++ "    " +++ w) +++ " pause" +++ rec_tail (w2 :: ws) +++ nl) by (rewrite !app_assoc_s; reflexivity).
    eapply reads_app; [ exact R1 | ]. eapply reads_app; [ apply reads_sp; [ exact W1 | exact W2 | apply (known_ok _ _ [] "pause"); reflexivity ] | ]. apply IH; [ discriminate | split; [ reflexivity | discriminate ] | exact HA' ].
Qed.
Lemma goes_rec : forall O ST D S d ws bs, outs_good O -> ws <> [] -> Forall2 (fun w b => assoc w D = Some (66 + b)) ws bs -> Forall (fun w => free w /\ String.prefix "part0-" w = false /\ String.eqb w "err" = false /\ String.eqb w "data" = false) ws ->
  goes d 0 (rec_toks ws) (rec_code bs) (E O ST D S) (E O ST D S).
Proof.
  intros O ST D S d ws bs HG. revert bs. induction ws as [ | w ws IH ]; intros bs NE HA HW; [ congruence | ]. inversion HA as [ | ? b ? bs' A1 HA' ]; subst. inversion HW as [ | ? ? (F & P & X1 & X2) HW' ]; subst.
  assert (GC : goes d 0 [w] [66 + b] (E O ST D S) (E O ST D S)) by (apply (g_call O ST (proj1 HG)); assumption).
  destruct ws as [ | w2 ws ].
  - inversion HA'; subst. eapply goes_to with (ts := [nl] ++ [w] ++ [nl]); [ seqg; [ apply g_nl | ]; seqg; [ exact GC | apply g_nl ] | reflexivity | reflexivity ].
  - destruct bs' as [ | b2 bs' ]; [ inversion HA' | ]. eapply goes_to with (ts := [nl] ++ [w] ++ ["pause"] ++ rec_toks (w2 :: ws)); [ seqg; [ apply g_nl | ]; seqg; [ exact GC | ]; seqg; [ apply g_pause | apply IH; [ discriminate | exact HA' | exact HW' ] ] | reflexivity | reflexivity ].
Qed.
Lemma rec_undefined : forall ws, Forall free ws -> undefined (rec_toks ws).
Proof.
  induction ws as [ | w ws IH ]; intros HF x Hx; [ destruct Hx | ]. inversion HF as [ | ? ? F HF' ]; subst. destruct (free_mem _ F) as (M & _). cbn [rec_toks In] in Hx.
  destruct Hx as [ <- | [ <- | Hx ] ]; [ split; reflexivity | split; (eapply mem_eqb; [ exact M | cbn; tauto ]) | ].
  destruct ws as [ | w2 ws ]; [ destruct Hx as [ <- | [ ] ]; split; reflexivity | ]. destruct Hx as [ <- | Hx ]; [ split; reflexivity | ]. apply IH; assumption.
Qed.

Lemma piece_rec : forall keys cs ns ts ks key, pieces cs ns ts ks -> cs <> [] -> keys_ok keys (zlen cs) = true -> plain_key key = true -> ~ In key ks ->
  piece (SRec keys cs) (NRecord keys ns 0 []) (record_text key ts) (key :: ks).
Proof.
  intros keys cs ns ts ks key PS NE HK HP NI. destruct PS as [ QL QZ (te & RE & PE) (to & RO & PO) QN QD QW (tf & RF & PF) (tr & RR & PR) ].
  assert (HW : wname [key] (key +++ "record")) by (exists key, "record"; split; [ left; reflexivity | ]; split; [ cbn; auto 10 | ]; split; [ exact HP | reflexivity ]). destruct (wname_free _ _ HW) as (WF & WP & X1 & X2 & X3 & X4).
  assert (IN : incl [key] (key :: ks)) by (intros x [ <- | [ ] ]; left; reflexivity). assert (IK : incl ks (key :: ks)) by (intros x Hx; right; exact Hx).
  split.
  - constructor; assumption.
  - exists te. split; [ exact RE | ]. cbn [nodes]. intros ST S. destruct (PE ST S) as (E0 & tx & L & G). exists E0, tx. split; [ unfold sum_nodes in L; lia | exact G ].
  - exists to. split; [ exact RO | ]. cbn [node_outs types]. intros O ST S HF. apply PO. eapply Forall_impl; [ | exact HF ]. intros x A B. apply A. eapply oname_more; eassumption.
  - cbn [node_outs]. eapply Forall_impl; [ | exact QN ]. intros x A. eapply oname_more; eassumption.
  - exact QD.
  - eapply wname_more; [ exact HW | exact IN ].
  - assert (NT : ts <> []) by (intros ->; destruct cs; [ congruence | discriminate QZ ]).
    assert (NM : map v_name ts <> []) by (destruct ts; [ congruence | discriminate ]).
    cbn [v_func v_name record_text node_outs]. rewrite (rec_tail_pause _ NT). set (name := key +++ "record") in *. 
    exists (tf ++ (":" :: name :: rec_toks (map v_name ts) ++ [";"]) ++ [nl; nl]). split.
    + replace (concat_s (map v_func ts) +++ ": " +++ name +++ rec_tail (map v_name ts) +++ " pause") with ((concat_s (map v_func ts) +++ ": " +++ name +++ rec_tail (map v_name ts)) +++ " pause") by (rewrite !app_assoc_s; reflexivity).
      rewrite erase_pause. clearbody name.
      replace ((concat_s (map v_func ts) +++ ": " +++ name +++ rec_tail (map v_name ts)) +++ nl +++ ";" +++ nl +++ nl) with (concat_s (map v_func ts) +++ ": " +++ name +++ (rec_tail (map v_name ts) +++ nl) +++ ";" +++ nl +++ nl) by (rewrite !app_assoc_s; reflexivity).
      eapply reads_app; [ exact RF | ]. cbn [app]. change (":" :: name :: (rec_toks (map v_name ts) ++ [";"]) ++ [nl; nl]) with ([":"] ++ [] ++ (name :: (rec_toks (map v_name ts) ++ [";"]) ++ [nl; nl])). kn. wd X3.
      rewrite <- app_assoc. change (name :: rec_toks (map v_name ts) ++ [";"] ++ [nl; nl]) with ((name :: rec_toks (map v_name ts)) ++ [";"; nl; nl]). eapply reads_app; [ apply reads_rec; [ exact NM | split; assumption | ] | kn_last ].
      rewrite Forall_map. eapply Forall_impl; [ | exact QW ]. intros t Ht. destruct (wname_free _ _ Ht) as (_ & _ & _ & _ & A & B). split; assumption.
    + intros O ST k D S HG HA Hk HD HS.
      destruct (PF O ST k D S HG HA Hk (D_out_less _ _ _ HD IK) HS) as (D' & S' & bs & G & DI & CA & SW).
      assert (HD2 : D_out (D ++ D') [key]) by (eapply D_app; [ eapply D_out_less; [ exact HD | exact IN ] | exact DI | intros x Hx [ <- | [ ] ]; contradiction ]).
      set (SS := S ++ S') in *. assert (HSS : 1 <= zlen SS) by (unfold SS; rewrite zlen_app; pose proof (zlen_nonneg S'); lia).
      exists (D' ++ [(name, zlen SS + 66)]), (S' ++ [rec_code bs]), (zlen SS).
      rewrite !(app_assoc D D'), !(app_assoc S S'). fold SS. split; [ | split; [ | split; [ rewrite assoc_fresh by (eapply D_fresh; eassumption); f_equal; lia | split; [ lia | ] ] ] ].
      * eapply goes_app0; [ exact G | ]. eapply goes_app0; [ | eapply (goes_app0 "" 0 [nl] _ _ [nl]); apply g_nl ].
        apply g_colon; [ apply HG | | exact WF | exact X1 | exact X2 | exact WP | eapply D_fresh; eassumption | ].
        { apply rec_undefined. rewrite Forall_map. eapply Forall_impl; [ | exact QW ]. intros t Ht. apply (wname_free _ _ Ht). }
        intros S2 HS2. rewrite app_nil_r. apply goes_rec; [ exact HG | exact NM | | ].
        { clear -CA. induction CA as [ | t b ts bs A _ IH ]; cbn [map]; constructor; [ apply assoc_more; exact A | exact IH ]. }
        { rewrite Forall_map. eapply Forall_impl; [ | exact QW ]. intros t Ht. destruct (wname_free _ _ Ht) as (A1 & A2 & A3 & A4 & _). auto. }
      * apply Forall_app. split; [ eapply D_in_more; eassumption | ]. constructor; [ eapply wname_more; [ exact HW | exact IN ] | constructor ].
      * apply sword_rec. exists bs. split; [ apply sg_last; exact HSS | ]. split; [ exact NE | ]. eapply swords_to; [ | exact SW ]. intros b l. apply sg_app.
  - exists tr. split; [ exact RR | ]. intros O ST k D S HG HA Hk DF. rewrite from_rec. apply PR; assumption.
Qed.
