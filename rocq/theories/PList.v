(** The three list representations seen alike: as (start, stop) pairs into a content. *)
From Verif Require Export PValid LoopLemmas.

Definition seg (ws : list value) (ab : Z * Z) : list value := slice (fst ab) (snd ab) ws.
Definition diff (ab : Z * Z) : Z := snd ab - fst ab.
Definition sumZ (l : list Z) : Z := fold_right Z.add 0 l.

Lemma map_VList_inj a b : map VList a = map VList b -> a = b.
Proof.
  revert b; induction a as [|x a IH]; intros [|y b]; cbn; intros H; try discriminate; [reflexivity|].
  injection H as -> H. f_equal. now apply IH.
Qed.

Lemma subs_den ws l : omap (fun ab => sublist ws (fst ab) (snd ab)) l =
  if forallb (sub_ok (zlen ws)) l then Some (map VList (map (seg ws) l)) else None.
Proof.
  induction l as [|[a b] l IH]; [reflexivity|]. cbn [omap forallb map fst snd].
  unfold sublist at 1, sub_ok at 1, seg at 1. cbn [fst snd].
  destruct (Z.eqb_spec a b) as [->|]; cbn [orb andb].
  - rewrite IH. destruct (forallb _ l); [|reflexivity]. now rewrite slice_nil.
  - destruct ((0 <=? a) && (a <=? b) && (b <=? zlen ws)); cbn [andb]; [|reflexivity]. rewrite IH. destruct (forallb _ l); reflexivity.
Qed.

Lemma zlen_seg ws ab : sub_ok (zlen ws) ab = true -> zlen (seg ws ab) = diff ab.
Proof.
  unfold sub_ok, seg, diff. destruct ab as [a b]; cbn [fst snd]. intros H.
  destruct (Z.eqb_spec a b) as [->|]; [rewrite slice_nil; change (zlen (@nil value)) with 0; lia|].
  cbn [orb] in H. rewrite zlen_slice by lia. reflexivity.
Qed.
Lemma map_zlen_seg ws l : forallb (sub_ok (zlen ws)) l = true -> map zlen (map (seg ws) l) = map diff l.
Proof.
  induction l as [|ab l IH]; cbn; intros H; [reflexivity|]. apply andb_prop in H as [H1 H2].
  rewrite zlen_seg, IH by assumption. reflexivity.
Qed.
Lemma sub_ok_diff n ab : sub_ok n ab = true -> 0 <= diff ab.
Proof. unfold sub_ok, diff. destruct ab as [a b]; cbn [fst snd]. lia. Qed.

(** picking the elements of the segments one after the other *)
Lemma omap_segs ws l : forallb (sub_ok (zlen ws)) l = true ->
  omap (nthZ ws) (concat (map (fun ab => zseq (fst ab) (snd ab)) l)) = Some (concat (map (seg ws) l)).
Proof.
  induction l as [|[a b] l IH]; cbn [forallb map concat fst snd]; intros H; [reflexivity|].
  apply andb_prop in H as [H1 H2]. apply omap_app_Some; [|now apply IH].
  unfold sub_ok, seg in *. cbn [fst snd] in *. destruct (Z.eqb_spec a b) as [->|].
  - rewrite zseq_nil, slice_nil by lia. reflexivity.
  - cbn [orb] in H1. apply omap_nthZ_zseq; lia.
Qed.

(** ** offsets *)
Lemma sumZ_app a b : sumZ (a ++ b) = sumZ a + sumZ b.
Proof. unfold sumZ. induction a; cbn; [reflexivity|]. rewrite IHa. lia. Qed.
Lemma sumZ_nonneg l : Forall (fun n => 0 <= n) l -> 0 <= sumZ l.
Proof. unfold sumZ. induction 1; cbn; lia. Qed.
Lemma offsets_from_cons a n l : offsets_from a (n :: l) = a :: offsets_from (a + n) l.
Proof. reflexivity. Qed.
Lemma pairs_offsets_cons a n l : pairs (offsets_from a (n :: l)) = (a, a + n) :: pairs (offsets_from (a + n) l).
Proof. cbn [offsets_from]. destruct l; reflexivity. Qed.
Lemma pairs_offsets_snoc a l n : pairs (offsets_from a (l ++ [n])) = pairs (offsets_from a l) ++ [(a + sumZ l, a + sumZ l + n)].
Proof.
  revert a; induction l as [|m l IH]; intros a.
  - cbn. repeat f_equal; lia.
  - cbn [app]. rewrite !pairs_offsets_cons, IH. cbn [sumZ fold_right app]. fold (sumZ l). replace (a + (m + sumZ l)) with (a + m + sumZ l) by lia. reflexivity.
Qed.
Lemma offsets_from_shift a k l : offsets_from (a + k) l = map (fun x => x + k) (offsets_from a l).
Proof.
  revert a; induction l as [|n l IH]; intros a; cbn [offsets_from map]; [reflexivity|].
  f_equal. rewrite <- IH. f_equal. lia.
Qed.
Lemma nthZ_offsets_from a l i : 0 <= i <= zlen l -> nthZ (offsets_from a l) i = Some (a + sumZ (slice 0 i l)).
Proof.
  revert a i; induction l as [|n l IH]; intros a i Hi.
  - change (zlen (@nil Z)) with 0 in Hi. replace i with 0 by lia. rewrite slice_nil. cbn [offsets_from sumZ fold_right]. rewrite nthZ_cons. cbn. f_equal; lia.
  - rewrite offsets_from_cons, nthZ_cons. destruct (Z.eqb_spec i 0) as [->|].
    + rewrite slice_nil. cbn. f_equal; lia.
    + rewrite zlen_cons in Hi. rewrite IH by lia. rewrite (slice_cons_nth 0 i (n :: l) n) by (try lia; now rewrite nthZ_cons).
      cbn [sumZ fold_right]. f_equal. replace (slice (0 + 1) i (n :: l)) with (slice 0 (i - 1) l).
      * unfold sumZ. lia.
      * change (n :: l) with ([n] ++ l). rewrite slice_app_shift by (change (zlen [n]) with 1; lia). change (zlen [n]) with 1. f_equal; lia.
Qed.
Lemma nthZ_offsets_0 a l : nthZ (offsets_from a l) 0 = Some a.
Proof. pose proof (zlen_nonneg l). rewrite nthZ_offsets_from by lia. rewrite slice_nil. cbn. f_equal; lia. Qed.
Lemma nthZ_offsets_last a l : nthZ (offsets_from a l) (zlen l) = Some (a + sumZ l).
Proof. pose proof (zlen_nonneg l). rewrite nthZ_offsets_from by lia. now rewrite slice_full. Qed.
Lemma diff_pairs_offsets a l : map diff (pairs (offsets_from a l)) = l.
Proof.
  revert a; induction l as [|n l IH]; intros a; [reflexivity|]. rewrite pairs_offsets_cons. cbn [map]. rewrite IH. unfold diff; cbn [fst snd].
  f_equal; lia.
Qed.
Lemma offsets_diffs o : 1 <= zlen o -> exists a, nthZ o 0 = Some a /\ o = offsets_from a (map diff (pairs o)).
Proof.
  intros H. destruct o as [|a t]; [change (zlen (@nil Z)) with 0 in H; lia|]. exists a. split; [reflexivity|].
  clear H. revert a; induction t as [|b t IH]; intros a; [reflexivity|].
  change (pairs (a :: b :: t)) with ((a, b) :: pairs (b :: t)). cbn [map]. rewrite offsets_from_cons. f_equal.
  unfold diff at 1; cbn [fst snd]. replace (a + (b - a)) with b by lia. apply IH.
Qed.
Lemma zlen_offsets_of l : zlen (offsets_of l) = zlen l + 1.
Proof. apply zlen_offsets_from. Qed.

Lemma segs_of_offsets (segs : list (list value)) pre tail :
  let ws := pre ++ concat segs ++ tail in let l := pairs (offsets_from (zlen pre) (map zlen segs)) in
  map (seg ws) l = segs /\ forallb (sub_ok (zlen ws)) l = true.
Proof.
  revert pre; induction segs as [|s segs IH]; intros pre; [split; reflexivity|].
  cbv zeta in *. cbn [map concat]. rewrite pairs_offsets_cons.
  specialize (IH (pre ++ s)). rewrite zlen_app in IH. rewrite <- !app_assoc in *. destruct IH as [IH1 IH2]. cbn [map forallb]. rewrite IH1, IH2.
  pose proof (zlen_nonneg pre). pose proof (zlen_nonneg s). pose proof (zlen_nonneg (concat segs)). pose proof (zlen_nonneg tail). split.
  - f_equal. unfold seg; cbn [fst snd]. rewrite slice_app_shift by lia.
    rewrite Z.sub_diag. replace (zlen pre + zlen s - zlen pre) with (zlen s) by lia. apply slice_app.
  - rewrite andb_true_r. unfold sub_ok; cbn [fst snd]. rewrite !zlen_app. lia.
Qed.

Lemma listoffset_den segs c tail : den c = Some (concat segs ++ tail) ->
  den (ListOffset (offsets_of (map zlen segs)) c) = Some (map VList segs).
Proof.
  intros Hd. cbn [den]. rewrite Hd. destruct (Z.leb_spec 1 (zlen (offsets_of (map zlen segs)))) as [_|H].
  2: { rewrite zlen_offsets_of, zlen_map in H. pose proof (zlen_nonneg segs). lia. }
  rewrite subs_den. destruct (segs_of_offsets segs [] tail) as [H1 H2]. cbn [app] in H1, H2. change (zlen (@nil value)) with 0 in *.
  unfold offsets_of. rewrite H2, H1. reflexivity.
Qed.
Lemma listoffset_den0 segs c : den c = Some (concat segs) -> den (ListOffset (offsets_of (map zlen segs)) c) = Some (map VList segs).
Proof. intros H. apply listoffset_den with (tail := []). now rewrite app_nil_r. Qed.

(** ** the common view *)
Definition list_view (c : content) : option (list (Z * Z) * content) :=
  match c with
  | ListA starts stops c' => Some (combine starts stops, c')
  | ListOffset offsets c' => Some (pairs offsets, c')
  | Regular size _ c' => Some (map (fun i => (i * size, (i + 1) * size)) (zseq 0 (length_ c)), c')
  | _ => None
  end.

Lemma list_inv c l c' vs : den c = Some vs -> list_view c = Some (l, c') ->
  exists ws, den c' = Some ws /\ forallb (sub_ok (zlen ws)) l = true /\ vs = map VList (map (seg ws) l).
Proof.
  intros Hd Hv. pose proof (den_length _ _ Hd) as HL. destruct c; try discriminate; cbn [list_view] in Hv.
  - injection Hv as <- <-. cbn [den] in Hd. destruct (den c) as [ws|]; [|discriminate]. destruct (zlen starts <=? zlen stops); [|discriminate].
    rewrite subs_den in Hd. exists ws. destruct (forallb _ _) eqn:E; [|discriminate]. injection Hd as <-. auto.
  - injection Hv as <- <-. cbn [den] in Hd. destruct (den c) as [ws|]; [|discriminate]. destruct (1 <=? zlen offsets); [|discriminate].
    rewrite subs_den in Hd. exists ws. destruct (forallb _ _) eqn:E; [|discriminate]. injection Hd as <-. auto.
  - rewrite HL in Hv. injection Hv as <- <-. destruct (regular_inv _ _ _ _ Hd) as (ws & segs & Hc & Hs & -> & Hlen & Hseg & _ & _).
    exists ws. split; [exact Hc|]. rewrite zlen_map in *. split.
    + apply forallb_forall. intros ab Hin. apply In_nthZ in Hin as (i & Hi). rewrite nthZ_map in Hi.
      destruct (nthZ (zseq 0 (zlen segs)) i) as [j|] eqn:Ej; [|discriminate]. cbn [option_map] in Hi. injection Hi as <-.
      pose proof (nthZ_Some _ _ _ Ej) as Hi. rewrite zlen_zseq in Hi by (pose proof (zlen_nonneg segs); lia).
      rewrite nthZ_zseq in Ej by lia. injection Ej as <-. destruct (nthZ_lt segs i) as [s Es]; [lia|].
      destruct (Hseg i s Es) as [_ Hle]. unfold sub_ok; cbn [fst snd]. nia.
    + f_equal. apply list_eqZ; [rewrite !zlen_map, zlen_zseq by (pose proof (zlen_nonneg segs); lia); lia|].
      intros i Hi. rewrite !nthZ_map. rewrite nthZ_zseq by lia. cbn [option_map]. destruct (nthZ_lt segs i) as [s Es]; [lia|].
      rewrite Es. destruct (Hseg i s Es) as [-> _]. unfold seg; cbn [fst snd]. reflexivity.
Qed.
