(** Proofs about setitem_field. *)
From Verif Require Import Base BaseLemmas OmapLemmas Content Combinations SpecArray SpecForm PCore PFlatten PGetitem1 Setitem SpecSetitem.
From Coq Require Import String.
From Coq Require Import List.
Import ListNotations.
Local Open Scope list_scope.
Local Open Scope Z_scope.

Lemma insert_loop_past {A} w (what : A) l : forall i, w < i -> insert_loop w i what l = l.
Proof. induction l as [|x l IH]; intros i Hi; cbn [insert_loop]; [reflexivity|]. destruct (Z.eqb_spec w i); [lia|]. cbn [app]. now rewrite IH by lia. Qed.
Lemma insert_loop_spec {A} (what : A) l : forall w i, i <= w -> insert_loop w i what l ++ (if zlen l <=? w - i then [what] else []) = firstn (Z.to_nat (w - i)) l ++ what :: skipn (Z.to_nat (w - i)) l.
Proof.
  induction l as [|x l IH]; intros w i Hi; cbn [insert_loop].
  - change (zlen (@nil A)) with 0. destruct (Z.leb_spec 0 (w - i)); [|lia]. now rewrite firstn_nil, skipn_nil.
  - rewrite zlen_cons. pose proof (zlen_nonneg l). destruct (Z.eqb_spec w i) as [->|Hne].
    + rewrite insert_loop_past by lia. replace (i - i) with 0 by lia. destruct (Z.leb_spec (zlen l + 1) 0); [lia|]. cbn [Z.to_nat firstn skipn app]. rewrite ?app_nil_r. reflexivity.
    + replace (Z.to_nat (w - i)) with (S (Z.to_nat (w - (i + 1)))) by lia. cbn [firstn skipn app]. rewrite <- IH by lia. cbn [app]. do 2 f_equal. destruct (Z.leb_spec (zlen l + 1) (w - i)), (Z.leb_spec (zlen l) (w - (i + 1))); try lia; reflexivity.
Qed.
Lemma insert_at_spec {A} w (what : A) l : 0 <= w -> insert_at w what l = firstn (Z.to_nat w) l ++ what :: skipn (Z.to_nat w) l.
Proof. intros Hw. unfold insert_at. pose proof (insert_loop_spec what l w 0 Hw) as E. rewrite Z.sub_0_r in E. exact E. Qed.

Lemma minlength_len cs len : 0 <= len -> (forall c, In c cs -> len <= length_ c) -> (exists c, In c cs /\ length_ c = len) -> minlength cs = len.
Proof.
  intros Hl HA (c & Hc & Ec).
  assert (G : forall l out, (forall c, In c l -> len <= length_ c) -> (out = len \/ ((out < 0 \/ len <= out) /\ exists c, In c l /\ length_ c = len)) ->
    fold_left (fun out x => if (out <? 0) || (length_ x <? out) then length_ x else out) l out = len).
  { induction l as [|x l IH]; cbn [fold_left]; intros out HL HO; [destruct HO as [HO|[_ (y & [] & _)]]; exact HO|].
    pose proof (HL x (or_introl eq_refl)) as Hx. apply IH; [intros y Hy; apply HL; right; exact Hy|].
    destruct (Z.ltb_spec out 0); destruct (Z.ltb_spec (length_ x) out); cbn [orb]; destruct HO as [->|[HO (y & [<-|Hy] & Ey)]]; try (left; lia); try (right; split; [lia|]; eauto; fail); lia. }
  destruct cs as [|c0 cs]; [destruct Hc|]. unfold minlength. apply G; [exact HA|]. right. split; [lia|]. eauto.
Qed.

Section Insert.
Variables (names names' : option (list string)) (len : Z) (cs1 cs2 : list content) (what : content) (vs ws : list value) (g : value -> value -> value).
Hypothesis Hd : den (Record names len (cs1 ++ cs2)) = Some vs.
Hypothesis Hw : den what = Some ws.
Hypothesis Hl : zlen ws = len.
Hypothesis Hk : keys_ok names' (zlen (cs1 ++ what :: cs2)) = true.
Hypothesis Hg : forall r1 r2 x, zlen r1 = zlen cs1 -> zlen r2 = zlen cs2 -> mkrow names' (r1 ++ x :: r2) = g (mkrow names (r1 ++ r2)) x.
Lemma record_insert : minlength (cs1 ++ what :: cs2) = len /\ den (Record names' len (cs1 ++ what :: cs2)) = Some (map (fun vx => g (fst vx) (snd vx)) (combine vs ws)).
Proof.
  destruct (record_cols _ _ _ _ Hd) as (vss & Hc & Hlen & _ & Hz & Hr). apply omap_app_inv in Hc. destruct Hc as (vss1 & vss2 & C1 & C2 & ->). split.
  - apply minlength_len; [exact Hlen| |exists what; split; [apply in_or_app; right; left; reflexivity|rewrite (den_length _ _ Hw); exact Hl]].
    intros c Hc. assert (Hc' : c = what \/ In c (cs1 ++ cs2)) by (apply in_app_or in Hc; destruct Hc as [Hc|[<-|Hc]]; auto; right; apply in_or_app; auto).
    destruct Hc' as [->|Hc']; [rewrite (den_length _ _ Hw); lia|]. destruct (In_nthZ _ _ Hc') as (j & Hj). pose proof (omap_app_Some den cs1 cs2 vss1 vss2 C1 C2) as C.
    destruct (omap_nth _ _ _ _ _ C Hj) as (E & col & Ecol). rewrite Ecol in E. rewrite (den_length _ _ Ecol). destruct (Z.eqb_spec len 0); [pose proof (zlen_nonneg col); lia|].
    destruct (nthZ_lt vs (len - 1) ltac:(lia)) as (v & Hv). destruct (omap_nth' _ _ _ _ _ Hr Hv) as (i & Hi & Hm). pose proof (nthZ_Some _ _ _ Hi) as B. rewrite zlen_zseq in B by lia. rewrite nthZ_zseq in Hi by lia. injection Hi as <-.
    destruct (omap _ (vss1 ++ vss2)) as [row|] eqn:Er; [|discriminate]. destruct (omap_nth _ _ _ _ _ Er (eq_sym E)) as (_ & y & Hy). apply nthZ_Some in Hy. lia.
  - cbn [den]. rewrite (omap_app_Some den cs1 (what :: cs2) vss1 (ws :: vss2) C1) by (cbn [omap]; now rewrite Hw, C2). rewrite Hk. destruct (Z.leb_spec 0 len); [|lia]. cbn [andb].
    apply omap_intro; [rewrite zlen_map, zlen_combine, zlen_zseq by lia; lia|]. intros i x Hx. pose proof (nthZ_Some _ _ _ Hx) as B. rewrite zlen_zseq in B by lia. rewrite nthZ_zseq in Hx by lia. injection Hx as <-. rewrite Z.add_0_l.
    destruct (omap_nth _ _ _ i i Hr) as (E & v & Ev). { rewrite nthZ_zseq by lia. f_equal; lia. }
    rewrite Ev in E. destruct (omap _ (vss1 ++ vss2)) as [row|] eqn:Er; [|discriminate]. cbn [option_map] in Ev. injection Ev as <-. apply omap_app_inv in Er. destruct Er as (r1 & r2 & R1 & R2 & ->).
    destruct (nthZ_lt ws i ltac:(lia)) as (y & Hy). rewrite (omap_app_Some _ vss1 (ws :: vss2) r1 (y :: r2) R1) by (cbn [omap]; now rewrite Hy, R2). cbn [option_map].
    rewrite nthZ_map, nthZ_combine, Hy, <- E. cbn [option_map fst snd]. f_equal. apply Hg.
    + rewrite (omap_zlen _ _ _ R1). exact (omap_zlen _ _ _ C1).
    + rewrite (omap_zlen _ _ _ R2). exact (omap_zlen _ _ _ C2).
Qed.
End Insert.

Lemma cut {A} n (a b : list A) : length a = Nat.min n (length (a ++ b)) -> firstn n (a ++ b) = a /\ skipn n (a ++ b) = b.
Proof.
  intros H. rewrite app_length in H. assert (C : n = length a \/ (b = [] /\ (length a <= n)%nat)).
  { destruct (Nat.le_gt_cases n (length a)) as [L|L]; [left; lia|]. right. split; [destruct b; [reflexivity|cbn in H; lia]|lia]. }
  destruct C as [->|[-> L]].
  - rewrite firstn_app, skipn_app, firstn_all, skipn_all, Nat.sub_diag. cbn [firstn skipn app]. now rewrite app_nil_r.
  - rewrite app_nil_r, firstn_all2, skipn_all2 by lia. split; reflexivity.
Qed.
Lemma zlen_length {A B} (a : list A) (b : list B) : zlen a = zlen b <-> length a = length b.
Proof. unfold zlen. lia. Qed.

Lemma setitem_at_den w what names len cs vs ws : 0 <= w -> den (Record names len cs) = Some vs -> den what = Some ws -> zlen ws = zlen vs ->
  exists r, setitem_at w what (Record names len cs) = Ok r /\ den r = Some (map (fun vx => insert_field (Z.to_nat w) (fst vx) (snd vx)) (combine vs ws)).
Proof.
  intros Hw Hd Hd' Hz. destruct (record_cols _ _ _ _ Hd) as (_ & _ & _ & Hk & Hvs & _). set (n := Z.to_nat w).
  assert (HL : length_ what = len) by (rewrite (den_length _ _ Hd'); lia).
  cbn [setitem_at]. destruct (Z.ltb_spec w 0); [lia|]. rewrite HL, Z.eqb_refl. cbn [negb]. rewrite !insert_at_spec by exact Hw. fold n.
  set (names' := match names with Some ks => Some (insert_at w (to_string n) ks) | None => None end).
  assert (Hcut : forall {A} (ks : list A), length (firstn n ks) = Nat.min n (length ks)) by (intros; apply firstn_length).
  assert (HK' : keys_ok names' (zlen (firstn n cs ++ what :: skipn n cs)) = true).
  { unfold names'. destruct names as [ks|]; [|reflexivity]. cbn [keys_ok] in *. apply Z.eqb_eq in Hk. apply Z.eqb_eq. rewrite insert_at_spec by exact Hw. fold n. apply zlen_length. apply zlen_length in Hk.
    rewrite !app_length. cbn [length]. rewrite !firstn_length, !skipn_length, Hk. reflexivity. }
  assert (Hd2 : den (Record names len (firstn n cs ++ skipn n cs)) = Some vs) by (rewrite firstn_skipn; exact Hd).
  destruct (record_insert names names' len (firstn n cs) (skipn n cs) what vs ws (insert_field n) Hd2 Hd' ltac:(lia) HK') as [HM HD].
  - intros r1 r2 x H1 H2. apply zlen_length in H1, H2. rewrite firstn_length in H1. rewrite skipn_length in H2. unfold names'. destruct names as [ks|]; cbn [mkrow insert_field].
    + cbn [keys_ok] in Hk. apply Z.eqb_eq, zlen_length in Hk. rewrite insert_at_spec by exact Hw. fold n.
      assert (E : combine ks (r1 ++ r2) = combine (firstn n ks) r1 ++ combine (skipn n ks) r2).
      { rewrite <- (firstn_skipn n ks) at 1. apply combine_app_eq. apply zlen_length. rewrite firstn_length. lia. }
      rewrite E. destruct (cut n (combine (firstn n ks) r1) (combine (skipn n ks) r2)) as [-> ->].
      { rewrite app_length, !combine_length, firstn_length, skipn_length. lia. }
      rewrite combine_app_eq by (apply zlen_length; rewrite firstn_length; lia). reflexivity.
    + destruct (cut n r1 r2) as [-> ->]; [rewrite app_length; lia|]. reflexivity.
  - rewrite HM. assert (E : mkRecord names' len (firstn n cs ++ what :: skipn n cs) = Ok (Record names' len (firstn n cs ++ what :: skipn n cs))).
    { unfold mkRecord. destruct names' as [ks'|]; [|reflexivity]. cbn [keys_ok] in HK'. rewrite HK'. reflexivity. }
    exists (Record names' len (firstn n cs ++ what :: skipn n cs)). split; [|exact HD]. rewrite <- E. unfold names'. destruct names; [rewrite insert_at_spec by exact Hw|]; reflexivity.
Qed.

Definition names_of (names : option (list string)) (cs : list content) : list string := match names with Some ks => ks | None => init_recordlookup (length cs) end.
Lemma setitem_key_den key what names len cs vs ws : den (Record names len cs) = Some vs -> den what = Some ws -> zlen ws = zlen vs ->
  setitem_key key what (Record names len cs) = Ok (Record (Some (names_of names cs ++ [key])) len (cs ++ [what])) /\
  den (Record (Some (names_of names cs ++ [key])) len (cs ++ [what])) = Some (map (fun vx => add_field key (fst vx) (snd vx)) (combine vs ws)).
Proof.
  intros Hd Hd' Hz. destruct (record_cols _ _ _ _ Hd) as (_ & _ & _ & Hk & Hvs & _).
  assert (HL : length_ what = len) by (rewrite (den_length _ _ Hd'); lia).
  assert (HN : zlen (names_of names cs) = zlen cs).
  { unfold names_of. destruct names as [ks|]; [cbn [keys_ok] in Hk; apply Z.eqb_eq; exact Hk|]. apply zlen_length. unfold init_recordlookup. rewrite map_length, seq_length. reflexivity. }
  assert (HK' : keys_ok (Some (names_of names cs ++ [key])) (zlen (cs ++ [what])) = true) by (cbn [keys_ok]; apply Z.eqb_eq; rewrite !zlen_app, HN; reflexivity).
  assert (Hd2 : den (Record names len (cs ++ [])) = Some vs) by (rewrite app_nil_r; exact Hd).
  destruct (record_insert names (Some (names_of names cs ++ [key])) len cs [] what vs ws (add_field key) Hd2 Hd' ltac:(lia) HK') as [HM HD].
  - intros r1 r2 x H1 H2. apply zlen_length in H2. destruct r2; [|discriminate]. rewrite app_nil_r. cbn [mkrow]. rewrite combine_app_eq by lia. unfold names_of. destruct names as [ks|]; cbn [mkrow add_field combine]; [reflexivity|].
    apply zlen_length in H1. unfold init_recordlookup. rewrite H1. reflexivity.
  - split; [|exact HD]. cbn [setitem_key]. rewrite HL, Z.eqb_refl. cbn [negb]. rewrite HM. unfold mkRecord. fold (names_of names cs). cbn [keys_ok] in HK'. rewrite HK'. reflexivity.
Qed.
