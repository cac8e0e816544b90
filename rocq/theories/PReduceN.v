(** Proofs about the reducers along the outer axis of two: the kernels that turn lists into columns. *)
From Verif Require Import Base BaseLemmas OmapLemmas LoopLemmas Content KCombinations KReduce Reduce SpecArray SpecForm SpecMerge SpecReduce
  PCore PList PConvert PPadK PAxis PNat PQuick PReduceK PReduceF PReduceO PReduceL.

(** ** the columns of some lists, given by where they start and stop *)
Definition entry (t : Z) (p : Z * Z) : list Z := if t <? diff p then [fst p + t] else [].
Definition col (ps : list (Z * Z)) (t : Z) : list Z := flat_map (entry t) ps.
Definition maxlen (ps : list (Z * Z)) : Z := fold_right Z.max 0 (map diff ps).
Definition upto (ps : list (Z * Z)) (t : Z) : list Z := concat (map (col ps) (zseq 0 t)).
Definition sizes (ps : list (Z * Z)) (t : Z) : list Z := map (fun t => zlen (col ps t)) (zseq 0 t).
Definition advance (t : Z) (p : Z * Z) : Z := fst p + Z.min t (diff p).
Definition rising (ps : list (Z * Z)) : Prop := Forall (fun p => 0 <= diff p) ps.

Lemma maxlen_pos ps : 0 <= maxlen ps.
Proof. unfold maxlen. induction ps; cbn [map fold_right]; lia. Qed.
Lemma maxlen_le ps p : In p ps -> diff p <= maxlen ps.
Proof. unfold maxlen. induction ps as [|q ps IH]; intros []; cbn [map fold_right]; [subst; lia|]. specialize (IH H). lia. Qed.
Lemma maxlen_reached ps t : 0 <= t < maxlen ps -> exists p, In p ps /\ t < diff p.
Proof.
  unfold maxlen. induction ps as [|q ps IH]; cbn [map fold_right]; intros H; [lia|].
  destruct (Z.ltb_spec t (diff q)); [exists q; split; [left; reflexivity|assumption]|]. destruct IH as (p & Hp & Hd); [lia|]. exists p. split; [right; exact Hp|exact Hd].
Qed.
Lemma col_app a b t : col (a ++ b) t = col a t ++ col b t.
Proof. apply flat_map_app. Qed.
Lemma col_one p t : col [p] t = entry t p.
Proof. unfold col. simpl. apply app_nil_r. Qed.
Lemma col_nonempty ps t : 0 <= t < maxlen ps -> 0 < zlen (col ps t).
Proof.
  intros H. destruct (maxlen_reached ps t H) as (p & Hp & Hd). apply in_split in Hp as (a & b & ->). change (p :: b) with ([p] ++ b). rewrite !col_app, col_one. unfold entry.
  destruct (Z.ltb_spec t (diff p)); [|lia]. rewrite !zlen_app. pose proof (zlen_nonneg (col a t)). pose proof (zlen_nonneg (col b t)). change (zlen [fst p + t]) with 1. lia.
Qed.
Lemma upto_step ps t : 0 <= t -> upto ps (t + 1) = upto ps t ++ col ps t.
Proof. intros H. unfold upto. rewrite zseq_snoc by lia. rewrite map_app, concat_app. cbn [map concat]. rewrite app_nil_r. reflexivity. Qed.
Lemma sizes_step ps t : 0 <= t -> sizes ps (t + 1) = sizes ps t ++ [zlen (col ps t)].
Proof. intros H. unfold sizes. rewrite zseq_snoc by lia. rewrite map_app. reflexivity. Qed.
Lemma zlen_upto ps t : zlen (upto ps t) = sumZ (sizes ps t).
Proof. unfold upto, sizes. rewrite zlen_concat, map_map. reflexivity. Qed.
Lemma sum_sizes_step ps t : 0 <= t -> sumZ (sizes ps (t + 1)) = sumZ (sizes ps t) + zlen (col ps t).
Proof. intros H. rewrite sizes_step, sumZ_app by lia. unfold sumZ at 2. cbn [fold_right]. lia. Qed.
Lemma zlen_sizes ps t : 0 <= t -> zlen (sizes ps t) = t.
Proof. intros H. unfold sizes. rewrite zlen_map, zlen_zseq by lia. lia. Qed.
Lemma sizes_nonneg ps t : nonneg_counts (sizes ps t).
Proof. unfold sizes. apply Forall_forall. intros x Hx. apply in_map_iff in Hx as (y & <- & _). apply zlen_nonneg. Qed.
Lemma runs_app a : forall k b, runs k (a ++ b) = runs k a ++ runs (k + zlen a) b.
Proof.
  induction a as [|x a IH]; intros k b; [change (zlen (@nil Z)) with 0; rewrite Z.add_0_r; reflexivity|]. cbn [app runs]. rewrite IH, zlen_cons, <- app_assoc. do 3 f_equal. lia.
Qed.
Lemma runs_step ps t : 0 <= t -> runs 0 (sizes ps (t + 1)) = runs 0 (sizes ps t) ++ repeat t (Z.to_nat (zlen (col ps t))).
Proof. intros H. rewrite sizes_step by exact H. rewrite runs_app, zlen_sizes by exact H. cbn [runs]. rewrite app_nil_r. reflexivity. Qed.
(** every element is in one column *)
Lemma sum_entry n p : 0 <= diff p <= n -> sumZ (map (fun t => zlen (entry t p)) (zseq 0 n)) = diff p.
Proof.
  intros [Hd Hn]. assert (G : forall k : nat, sumZ (map (fun t => zlen (entry t p)) (zseq 0 (Z.of_nat k))) = Z.min (Z.of_nat k) (diff p)).
  { induction k as [|k IH]; [simpl Z.of_nat; change (sumZ _) with 0; lia|]. rewrite Nat2Z.inj_succ. unfold Z.succ. rewrite zseq_snoc by lia. rewrite map_app, sumZ_app, IH. cbn [map]. unfold sumZ at 1. cbn [fold_right].
    unfold entry. destruct (Z.ltb_spec (Z.of_nat k) (diff p)); [change (zlen [fst p + Z.of_nat k]) with 1|change (zlen (@nil Z)) with 0]; lia. }
  specialize (G (Z.to_nat n)). rewrite Z2Nat.id in G by lia. rewrite G. lia.
Qed.
Lemma sumZ_map_add (f g : Z -> Z) l : sumZ (map (fun t => f t + g t) l) = sumZ (map f l) + sumZ (map g l).
Proof. induction l as [|x l IH]; [reflexivity|]. cbn [map]. unfold sumZ in *. cbn [fold_right]. rewrite IH. lia. Qed.
Lemma sizes_total ps n : rising ps -> (forall p, In p ps -> diff p <= n) -> 0 <= n -> sumZ (sizes ps n) = sumZ (map diff ps).
Proof.
  intros HR HM Hn. unfold sizes. induction ps as [|p ps IH].
  - assert (G : forall l : list Z, sumZ (map (fun t => zlen (col [] t)) l) = 0) by (induction l as [|x l IHl]; [reflexivity|]; cbn [map]; unfold sumZ in *; cbn [fold_right]; rewrite IHl; reflexivity). rewrite G. reflexivity.
  - apply Forall_cons_iff in HR as [Hp HR]. rewrite (map_ext _ (fun t => zlen (entry t p) + zlen (col ps t))) by (intros t; change (p :: ps) with ([p] ++ ps); rewrite col_app, col_one, zlen_app; reflexivity).
    rewrite sumZ_map_add, sum_entry by (split; [exact Hp|apply HM; left; reflexivity]). rewrite IH; [|exact HR|intros q Hq; apply HM; right; exact Hq]. cbn [map]. unfold sumZ. cbn [fold_right]. lia.
Qed.

(** ** the kernels *)
Lemma maxcount_kernel o : 1 <= zlen o -> rising (pairs o) ->
  awkward_ListOffsetArray_reduce_nonlocal_maxcount_offsetscopy_64 (alloc (zlen o)) o (zlen o - 1) = Ok (maxlen (pairs o), o).
Proof.
  intros Ho HR. unfold awkward_ListOffsetArray_reduce_nonlocal_maxcount_offsetscopy_64. destruct (nthZ_lt o 0) as [a Ha]; [lia|]. unfold rd at 1. rewrite Ha. cbn [bind].
  set (out := alloc (zlen o)). assert (Hout : zlen out = zlen o) by (apply zlen_alloc; lia). clearbody out.
  destruct out as [|y out]; [change (zlen (@nil Z)) with 0 in Hout; lia|]. change (wr (y :: out) 0 a) with (Ok (a :: out)). cbn [bind].
  pose proof (zlen_pairs o Ho) as Hz. rewrite <- Hz.
  destruct (for_list (pairs o) (fun d st => fst st = maxlen d /\ exists rest, snd st = slice 0 (zlen d + 1) o ++ rest /\ zlen (snd st) = zlen o)
    (fun i st => let '(maxcount, offsetscopy) := st in let* b := rd o (i + 1) in let* a := rd o i in let count := b - a in let* offsetscopy := wr offsetscopy (i + 1) b in
       Ok (if maxcount <? count then count else maxcount, offsetscopy)) (0, a :: out)) as ([m oc] & E & Em & rest & Eo & Hl).
  - split; [reflexivity|]. exists out. cbn [snd]. split; [|rewrite zlen_cons in *; lia]. change (zlen (@nil (Z * Z)) + 1) with 1. rewrite (slice_cons_nth 0 1 o a) by (lia || exact Ha). rewrite slice_nil. reflexivity.
  - intros d [u v] r [m oc] Ed (Em & rest & Eo & Hl). cbn [fst snd] in *. destruct (pairs_mid _ _ _ _ _ Ed) as [H0 H1]. unfold rd. rewrite H1, H0. cbn [bind].
    pose proof (nthZ_Some _ _ _ H1) as Hb. pose proof (zlen_nonneg d). assert (Hs : zlen (slice 0 (zlen d + 1) o) = zlen d + 1) by (rewrite zlen_slice by lia; lia).
    rewrite Eo in Hl. rewrite zlen_app, Hs in Hl. destruct rest as [|z rest]; [change (zlen (@nil Z)) with 0 in Hl; lia|]. pose proof (wr_push (slice 0 (zlen d + 1) o) z rest v) as W. rewrite Hs in W. rewrite Eo, W. cbn [bind]. eexists. split; [reflexivity|]. cbn [fst snd]. split.
    + rewrite Em. assert (G : forall d x, maxlen (d ++ [x]) = Z.max (maxlen d) (Z.max (diff x) 0)) by (clear; unfold maxlen; induction d; intros x; cbn [app map fold_right]; rewrite ?IHd; lia).
      rewrite G. unfold diff. cbn [fst snd]. pose proof (maxlen_pos d). assert (Hd : 0 <= diff (u, v)) by (unfold rising in HR; rewrite Forall_forall in HR; apply HR; rewrite <- Ed; apply in_elt). unfold diff in Hd; cbn [fst snd] in Hd.
      destruct (Z.ltb_spec (maxlen d) (v - u)); lia.
    + exists rest. rewrite zlen_app. change (zlen [(u, v)]) with 1. split; [|rewrite !zlen_app, Hs; rewrite zlen_cons in Hl; change (zlen [v]) with 1; lia].
      f_equal. rewrite (slice_split 0 (zlen d + 1) (zlen d + 1 + 1) o) by lia. f_equal. rewrite (slice_cons_nth (zlen d + 1) _ o v) by (lia || exact H1). rewrite slice_nil. reflexivity.
  - etransitivity; [exact E|]. cbn [fst snd] in *. subst m. f_equal. f_equal. rewrite Eo in Hl. rewrite Hz in Eo, Hl. replace (zlen o - 1 + 1) with (zlen o) in Eo, Hl by lia. rewrite slice_full in Eo, Hl. rewrite zlen_app in Hl.
    destruct rest as [|z rest]; [rewrite Eo, app_nil_r; reflexivity|]. rewrite zlen_cons in Hl. pose proof (zlen_nonneg rest). lia.
Qed.

Section Prepare.
Variable o : list Z.
Notation ps := (pairs o).
Notation M := (maxlen ps).
Hypothesis Ho : 1 <= zlen o.
Hypothesis HR : rising ps.
Variable parents : list Z.
Hypothesis Hpar : parents = repeat 0 (length ps).

Definition body (maxcount : Z) (i : Z) (st : Z * Z * list Z * list Z * Z * list Z * list Z) : res (Z * Z * list Z * list Z * Z * list Z * list Z) :=
  let '(j, k, nextcarry, nextparents, maxnextparents, distincts, offsetscopy) := st in
  let* oc := rd offsetscopy i in
  let* o1 := rd o (i + 1) in
  if oc <? o1 then
    let* o0 := rd o i in
    let* parent := rd parents i in
    let diff := oc - o0 in
    let np := parent * maxcount + diff in
    let* nextcarry := wr nextcarry k oc in
    let* nextparents := wr nextparents k np in
    let maxnextparents := if maxnextparents <? np then np else maxnextparents in
    let* d := rd distincts np in
    let* jd := if d =? -1 then let* distincts := wr distincts np j in Ok (j + 1, distincts) else Ok (j, distincts) in
    let '(j, distincts) := jd in
    let* offsetscopy := wr offsetscopy i (oc + 1) in
    Ok (j, k + 1, nextcarry, nextparents, maxnextparents, distincts, offsetscopy)
  else Ok (j, k, nextcarry, nextparents, maxnextparents, distincts, offsetscopy).

Lemma round t C P rc rp mnp D D' tl : 0 <= t < M -> zlen C = zlen P -> zlen D = t -> 0 <= mnp <= t ->
  zlen (col ps t) <= zlen rc -> zlen (col ps t) <= zlen rp ->
  exists rc' rp', for_ 0 (zlen ps) (body M) (0, zlen C, C ++ rc, P ++ rp, mnp, D ++ -1 :: D', map (advance t) ps ++ tl)
    = Ok (1, zlen (C ++ col ps t), (C ++ col ps t) ++ rc', (P ++ repeat t (Z.to_nat (zlen (col ps t)))) ++ rp', t, D ++ 0 :: D', map (advance (t + 1)) ps ++ tl) /\
    zlen rc = zlen (col ps t) + zlen rc' /\ zlen rp = zlen (col ps t) + zlen rp'.
Proof.
  intros Ht HCP HD Hm Hrc Hrp.
  destruct (for_list ps (fun d st => exists rest rc' rp', d ++ rest = ps /\ zlen rc = zlen (col d t) + zlen rc' /\ zlen rp = zlen (col d t) + zlen rp' /\
    st = (if zlen (col d t) =? 0 then 0 else 1, zlen (C ++ col d t), (C ++ col d t) ++ rc', (P ++ repeat t (Z.to_nat (zlen (col d t)))) ++ rp', if zlen (col d t) =? 0 then mnp else t,
          D ++ (if zlen (col d t) =? 0 then -1 else 0) :: D', map (advance (t + 1)) d ++ map (advance t) rest ++ tl))
    (body M) (0, zlen C, C ++ rc, P ++ rp, mnp, D ++ -1 :: D', map (advance t) ps ++ tl)) as (st & E & rest & rc' & rp' & Er & E1 & E2 & Es).
  - exists ps, rc, rp. change (col [] t) with (@nil Z). change (zlen (@nil Z)) with 0. cbn [Z.eqb Z.to_nat repeat map app]. rewrite !app_nil_r. repeat split; lia.
  - intros d [u v] r st Ed (rest & rc' & rp' & Er & E1 & E2 & ->). assert (rest = (u, v) :: r) as -> by (rewrite <- Ed in Er; apply app_inv_head in Er; exact Er).
    destruct (pairs_mid _ _ _ _ _ Ed) as [H0 H1]. cbn [map]. unfold body at 1. cbv beta iota.
    assert (HI : In (u, v) ps) by (rewrite <- Ed; apply in_elt). assert (Hd : 0 <= diff (u, v)) by (unfold rising in HR; rewrite Forall_forall in HR; apply HR; exact HI).
    assert (Hz : zlen d = zlen (map (advance (t + 1)) d)) by (rewrite zlen_map; reflexivity).
    assert (HZ0 : zlen d < zlen ps) by (rewrite <- Ed, zlen_app, zlen_cons; pose proof (zlen_nonneg r); lia). pose proof (zlen_nonneg d) as HZd.
    assert (R1 : rd (map (advance (t + 1)) d ++ (advance t (u, v) :: map (advance t) r) ++ tl) (zlen d) = Ok (advance t (u, v))) by (apply rd_Ok; rewrite Hz; apply nthZ_mid).
    apply rd_Ok in H0. apply rd_Ok in H1. rewrite R1. cbn [bind]. rewrite H1. cbn [bind]. rewrite H0. cbn [bind].
    assert (HE : col (d ++ [(u, v)]) t = col d t ++ entry t (u, v)) by (rewrite col_app, col_one; reflexivity). unfold entry in HE.
    assert (HA : forall k, map (advance k) (d ++ [(u, v)]) = map (advance k) d ++ [advance k (u, v)]) by (intros k; rewrite map_app; reflexivity).
    assert (Hadv : (advance t (u, v) <? v) = (t <? diff (u, v))). { unfold advance, diff in *. cbn [fst snd] in *. destruct (Z.ltb_spec t (v - u)); destruct (Z.ltb_spec (u + Z.min t (v - u)) v); try reflexivity; lia. }
    rewrite Hadv. destruct (Z.ltb_spec t (diff (u, v))) as [L|L].
    + cbn [fst] in HE. assert (Hav : advance t (u, v) = u + t) by (unfold advance; cbn [fst]; lia). rewrite Hav.
      assert (Hrp0 : rd parents (zlen d) = Ok 0). { apply rd_Ok. rewrite Hpar. apply nthZ_repeat. unfold zlen in HZ0. unfold zlen. lia. }
      rewrite Hrp0. cbn [bind]. replace (0 * M + (u + t - u)) with t by lia.
      assert (Hc1 : zlen (col d t) + 1 <= zlen (col ps t)). { rewrite <- Ed. change ((u, v) :: r) with ([(u, v)] ++ r). rewrite app_assoc, col_app, HE, !zlen_app. change (zlen [u + t]) with 1. pose proof (zlen_nonneg (col r t)). lia. }
      destruct rc' as [|y rc']; [change (zlen (@nil Z)) with 0 in E1; lia|]. destruct rp' as [|y' rp']; [change (zlen (@nil Z)) with 0 in E2; lia|].
      rewrite wr_push. cbn [bind].
      assert (HzP : zlen (C ++ col d t) = zlen (P ++ repeat t (Z.to_nat (zlen (col d t))))). { rewrite !zlen_app, zlen_repeat, Z2Nat.id by apply zlen_nonneg. lia. }
      pose proof (wr_push (P ++ repeat t (Z.to_nat (zlen (col d t)))) y' rp' t) as W2. rewrite <- HzP in W2. rewrite W2. cbn [bind].
      assert (HR2 : rd (D ++ (if zlen (col d t) =? 0 then -1 else 0) :: D') t = Ok (if zlen (col d t) =? 0 then -1 else 0)). { apply rd_Ok. rewrite <- HD. apply nthZ_mid. }
      rewrite HR2. cbn [bind].
      assert (HW : (if (if zlen (col d t) =? 0 then -1 else 0) =? -1 then let* distincts := wr (D ++ (if zlen (col d t) =? 0 then -1 else 0) :: D') t (if zlen (col d t) =? 0 then 0 else 1) in Ok ((if zlen (col d t) =? 0 then 0 else 1) + 1, distincts)
                    else Ok (if zlen (col d t) =? 0 then 0 else 1, D ++ (if zlen (col d t) =? 0 then -1 else 0) :: D')) = Ok (1, D ++ 0 :: D')).
      { destruct (Z.eqb_spec (zlen (col d t)) 0); [|reflexivity]. change (-1 =? -1) with true. cbv iota. rewrite <- HD. rewrite wr_push. cbn [bind]. rewrite <- app_assoc. reflexivity. }
      rewrite HW. cbn [bind].
      assert (W3 : wr (map (advance (t + 1)) d ++ (u + t :: map (advance t) r) ++ tl) (zlen d) (u + t + 1) = Ok ((map (advance (t + 1)) d ++ [u + t + 1]) ++ map (advance t) r ++ tl)) by (rewrite Hz; apply wr_push).
      rewrite W3. cbn [bind]. eexists. split; [reflexivity|]. exists r, rc', rp'. rewrite zlen_cons in E1, E2.
      rewrite HE, zlen_app. change (zlen [u + t]) with 1. pose proof (zlen_nonneg (col d t)).
      split; [rewrite <- Ed, <- app_assoc; reflexivity|]. split; [lia|]. split; [lia|]. destruct (Z.eqb_spec (zlen (col d t) + 1) 0); [lia|].
      assert (Hmx : (if (if zlen (col d t) =? 0 then mnp else t) <? t then t else if zlen (col d t) =? 0 then mnp else t) = t).
      { destruct (zlen (col d t) =? 0); [destruct (Z.ltb_spec mnp t); lia|]. rewrite Z.ltb_irrefl. reflexivity. }
      rewrite Hmx. rewrite HA. assert (Hav1 : advance (t + 1) (u, v) = u + t + 1) by (unfold advance; cbn [fst]; lia). rewrite Hav1.
      replace (Z.to_nat (zlen (col d t) + 1)) with (Z.to_nat (zlen (col d t)) + 1)%nat by lia. rewrite repeat_app. rewrite !zlen_app. change (zlen [u + t]) with 1. rewrite !app_assoc. rewrite Z.add_assoc.
      rewrite <- !app_assoc. reflexivity.
    + eexists. split; [reflexivity|]. exists r, rc', rp'. rewrite app_nil_r in HE. rewrite HE. split; [rewrite <- Ed, <- app_assoc; reflexivity|]. split; [exact E1|]. split; [exact E2|].
      rewrite HA. assert (Hav : advance (t + 1) (u, v) = advance t (u, v)) by (unfold advance; cbn [fst]; lia). rewrite Hav. rewrite <- !app_assoc. reflexivity.
  - assert (rest = []) as -> by (apply (f_equal (@length _)) in Er; rewrite app_length in Er; destruct rest; [reflexivity|simpl in Er; lia]).
    pose proof (col_nonempty ps t Ht). destruct (Z.eqb_spec (zlen (col ps t)) 0); [lia|]. exists rc', rp'. split; [|split; assumption]. rewrite E, Es. reflexivity.
Qed.

Lemma prepare_kernel : let n := sumZ (map diff ps) in
  exists mnp, awkward_ListOffsetArray_reduce_nonlocal_preparenext_64 (alloc n) (alloc n) n (alloc (M * 1)) (M * 1) o o (zlen o - 1) parents M
    = Ok (upto ps M, runs 0 (sizes ps M), mnp, map (fun _ => 0) (zseq 0 M)) /\ mnp = Z.max 0 (M - 1).
Proof.
  intros n. pose proof (maxlen_pos ps) as HM. rewrite Z.mul_1_r. unfold awkward_ListOffsetArray_reduce_nonlocal_preparenext_64.
  rewrite (for_fill_all _ (fun _ => -1) M) by (try reflexivity; apply zlen_alloc; lia). cbn [bind].
  assert (Hn : n = sumZ (sizes ps M)) by (symmetry; apply sizes_total; [exact HR|apply maxlen_le|exact HM]).
  assert (Hn0 : 0 <= n) by (rewrite Hn; apply sumZ_nonneg, sizes_nonneg).
  assert (Hlt : forall t, 0 <= t < M -> sumZ (sizes ps t) + zlen (col ps t) <= n).
  { intros t Ht. rewrite Hn. assert (G : forall k : nat, t + 1 + Z.of_nat k <= M -> sumZ (sizes ps (t + 1)) <= sumZ (sizes ps (t + 1 + Z.of_nat k))).
    { induction k as [|k IH]; intros Hk; [rewrite Z.add_0_r; lia|]. replace (t + 1 + Z.of_nat (S k)) with (t + 1 + Z.of_nat k + 1) by lia. rewrite (sizes_step ps (t + 1 + Z.of_nat k)), sumZ_app by lia. unfold sumZ at 3. cbn [fold_right].
      pose proof (zlen_nonneg (col ps (t + 1 + Z.of_nat k))). specialize (IH ltac:(lia)). lia. }
    specialize (G (Z.to_nat (M - (t + 1)))). rewrite Z2Nat.id in G by lia. replace (t + 1 + (M - (t + 1))) with M in G by lia. specialize (G ltac:(lia)).
    rewrite sizes_step, sumZ_app in G by lia. unfold sumZ at 2 in G. cbn [fold_right] in G. lia. }
  pose proof (zlen_pairs o Ho) as Hzp.
  assert (Eadv : exists tl, o = map (advance 0) ps ++ tl).
  { destruct (nthZ_lt o (zlen o - 1)) as [x Hx]; [lia|]. exists [x]. apply list_eqZ; [rewrite zlen_app, zlen_map; change (zlen [x]) with 1; lia|]. intros i Hi. rewrite nthZ_app, zlen_map.
    destruct (Z.ltb_spec i (zlen ps)).
    - rewrite nthZ_map, nthZ_pairs. destruct (nthZ_lt o i) as [u Hu]; [lia|]. destruct (nthZ_lt o (i + 1)) as [v Hv]; [lia|]. rewrite Hu, Hv. cbn [option_map]. f_equal. unfold advance. cbn [fst].
      assert (0 <= diff (u, v)); [|lia]. unfold rising in HR. rewrite Forall_forall in HR. apply HR. apply (nthZ_In _ i). rewrite nthZ_pairs, Hu, Hv. reflexivity.
    - replace (i - zlen ps) with 0 by lia. replace i with (zlen o - 1) by lia. exact Hx. }
  destruct Eadv as (tl & Eadv).
  assert (HL : forall (k : nat) t rc rp f, (k <= f)%nat -> t + Z.of_nat k = M -> 0 <= t -> zlen rc = n - zlen (upto ps t) -> zlen rp = n - zlen (upto ps t) ->
    while_ (S f) (fun st : Z * list Z * list Z * Z * list Z * list Z => let '(k, _, _, _, _, _) := st in Ok (k <? n))
      (fun st => let '(k, nextcarry, nextparents, maxnextparents, distincts, offsetscopy) := st in
         let* st := for_ 0 (zlen o - 1) (body M) (0, k, nextcarry, nextparents, maxnextparents, distincts, offsetscopy) in
         let '(_, k, nextcarry, nextparents, maxnextparents, distincts, offsetscopy) := st in
         Ok (k, nextcarry, nextparents, maxnextparents, distincts, offsetscopy))
      (zlen (upto ps t), upto ps t ++ rc, runs 0 (sizes ps t) ++ rp, Z.max 0 (t - 1), map (fun _ => 0) (zseq 0 t) ++ map (fun _ => -1) (zseq t M), map (advance t) ps ++ tl)
    = Ok (n, upto ps M, runs 0 (sizes ps M), Z.max 0 (M - 1), map (fun _ => 0) (zseq 0 M), map (advance M) ps ++ tl)).
  { induction k as [|k IH]; intros t rc rp f Hf Hk Ht Hrc Hrp; cbn [while_ bind].
    - assert (t = M) as -> by lia. rewrite zlen_upto, <- Hn in *. rewrite Z.ltb_irrefl. rewrite Z.sub_diag in Hrc, Hrp. destruct rc; [|rewrite zlen_cons in Hrc; pose proof (zlen_nonneg rc); lia].
      destruct rp; [|rewrite zlen_cons in Hrp; pose proof (zlen_nonneg rp); lia]. rewrite !app_nil_r. rewrite (zseq_nil M M) by lia. cbn [map]. rewrite app_nil_r. reflexivity.
    - assert (HtM : 0 <= t < M) by lia. specialize (Hlt t HtM). pose proof (col_nonempty ps t HtM) as Hc. rewrite zlen_upto in Hrc, Hrp. rewrite (zlen_upto ps t). destruct (Z.ltb_spec (sumZ (sizes ps t)) n); [|lia].
      rewrite (zseq_cons t M) by lia. cbn [map]. rewrite <- (zlen_upto ps t). rewrite <- Hzp.
      destruct (round t (upto ps t) (runs 0 (sizes ps t)) rc rp (Z.max 0 (t - 1)) (map (fun _ => 0) (zseq 0 t)) (map (fun _ => -1) (zseq (t + 1) M)) tl) as (rc' & rp' & E & E1 & E2); try lia.
      { rewrite zlen_upto, zlen_runs by apply sizes_nonneg. reflexivity. }
      { rewrite zlen_map, zlen_zseq by lia. lia. }
      rewrite E. cbn [bind]. destruct f as [|f]; [lia|]. rewrite <- upto_step, <- runs_step by lia.
      specialize (IH (t + 1) rc' rp' f ltac:(lia) ltac:(lia) ltac:(lia)). rewrite zlen_upto, sum_sizes_step in IH by lia. specialize (IH ltac:(lia) ltac:(lia)).
      rewrite <- sum_sizes_step in IH by lia. replace (Z.max 0 (t + 1 - 1)) with t in IH by lia. rewrite (zseq_snoc 0 t) in IH by lia. rewrite map_app in IH. cbn [map] in IH. rewrite <- app_assoc in IH. cbn [app] in IH. rewrite <- Hzp in IH.
      rewrite zlen_upto. exact IH. }
  specialize (HL (Z.to_nat M) 0 (alloc n) (alloc n) (Z.to_nat M) ltac:(lia) ltac:(lia) ltac:(lia)). change (upto ps 0) with (@nil Z) in HL. change (zlen (@nil Z)) with 0 in HL. rewrite zlen_alloc in HL by exact Hn0.
  specialize (HL ltac:(lia) ltac:(lia)). cbn [app map] in HL. change (runs 0 (sizes ps 0)) with (@nil Z) in HL. cbn [app] in HL. change (map (fun _ : Z => 0) (zseq 0 0)) with (@nil Z) in HL. cbn [app] in HL. change (Z.max 0 (0 - 1)) with 0 in HL. rewrite <- Eadv in HL.
  exists (Z.max 0 (M - 1)). split; [|reflexivity]. match goal with |- bind ?X _ = _ => replace X with (Ok (n, upto ps M, runs 0 (sizes ps M), Z.max 0 (M - 1), map (fun _ : Z => 0) (zseq 0 M), map (advance M) ps ++ tl)) by (symmetry; exact HL) end.
  reflexivity.
Qed.
End Prepare.

(** ** where the columns begin *)
Lemma wr_at {A} (l : list A) i x : 0 <= i < zlen l -> exists l', wr l i x = Ok l' /\ zlen l' = zlen l /\ forall k, nthZ l' k = if k =? i then Some x else nthZ l k.
Proof.
  intros H. exists (upd l (Z.to_nat i) x). split; [apply wr_Ok; exact H|]. split; [apply zlen_upd|]. intros k. rewrite nthZ_upd by lia. rewrite Z2Nat.id by lia. reflexivity.
Qed.
Lemma before_unique counts p q i : nonneg_counts counts -> 0 <= p -> 0 <= q -> before counts p <= i < before counts (p + 1) -> before counts q <= i < before counts (q + 1) -> p = q.
Proof.
  intros Hn Hp Hq H1 H2. destruct (Z.lt_trichotomy p q) as [L|[E|L]]; [|exact E|].
  - pose proof (before_le counts (p + 1) q Hn ltac:(lia)). lia.
  - pose proof (before_le counts (q + 1) p Hn ltac:(lia)). lia.
Qed.
Lemma nextstarts_kernel counts m : Forall (fun n => 0 < n) counts -> zlen counts <= m ->
  exists ns, awkward_ListOffsetArray_reduce_nonlocal_nextstarts_64 (alloc m) (runs 0 counts) (zlen (runs 0 counts)) = Ok ns /\ forall t, 0 <= t < zlen counts -> nthZ ns t = Some (before counts t).
Proof.
  intros Hpos Hm. pose proof (zlen_nonneg counts) as Hc. assert (Hnn : nonneg_counts counts) by (eapply Forall_impl; [|exact Hpos]; cbn; intros; lia).
  assert (Hstep : forall t, 0 <= t < zlen counts -> before counts t < before counts (t + 1)).
  { intros t Ht. destruct (nthZ_lt counts t Ht) as [n Hn]. rewrite (before_step _ _ _ Hn). rewrite Forall_forall in Hpos. specialize (Hpos n (nthZ_In _ _ _ Hn)). lia. }
  assert (Hpar : forall i p, nthZ (runs 0 counts) i = Some p -> before counts p <= i < before counts (p + 1) /\ 0 <= p < zlen counts).
  { intros i p Hi. destruct (nthZ_runs counts Hnn 0 i p Hi) as [A B]. rewrite Z.sub_0_r in A. split; [exact A|lia]. }
  unfold awkward_ListOffsetArray_reduce_nonlocal_nextstarts_64. pose proof (zlen_nonneg (runs 0 counts)) as Hz.
  destruct (for_inv (fun i st => zlen (snd st) = m /\ (0 < i -> nthZ (runs 0 counts) (i - 1) = Some (fst st)) /\ (i = 0 -> fst st = -1) /\ forall t, 0 <= t < zlen counts -> before counts t < i -> nthZ (snd st) t = Some (before counts t))
    0 (zlen (runs 0 counts)) (fun i st => let '(lastnextparent, nextstarts) := st in let* p := rd (runs 0 counts) i in
       let* nextstarts := if negb (p =? lastnextparent) then wr nextstarts p i else Ok nextstarts in Ok (p, nextstarts)) (-1, alloc m)) as ([l ns] & E & HL & _ & _ & HS).
  - lia.
  - cbn [fst snd]. split; [apply zlen_alloc; lia|]. split; [lia|]. split; [reflexivity|]. intros t Ht Hb. pose proof (before_le counts 0 t Hnn ltac:(lia)) as Hb0. rewrite before_0 in Hb0. lia.
  - intros i [l ns] Hi (HL & H1 & H2 & HS). cbn [fst snd] in *. destruct (nthZ_lt (runs 0 counts) i ltac:(lia)) as [p Hp]. unfold rd. rewrite Hp. cbn [bind]. destruct (Hpar _ _ Hp) as [Hb Hp0].
    assert (Heq : p = l <-> before counts p < i).
    { split; intros Hx.
      - destruct (Z.eq_dec i 0) as [->|Hi0]; [rewrite H2 in Hx by reflexivity; lia|]. specialize (H1 ltac:(lia)). destruct (Hpar _ _ H1) as [Hb1 _]. subst l. lia.
      - assert (0 < i) by (pose proof (before_le counts 0 p Hnn ltac:(lia)) as Hb0; rewrite before_0 in Hb0; lia). specialize (H1 ltac:(lia)). destruct (Hpar _ _ H1) as [Hb1 Hl0].
        apply (before_unique counts p l (i - 1)); try assumption; lia. }
    destruct (Z.eqb_spec p l) as [El|El]; cbn [negb].
    + cbn [bind]. eexists. split; [reflexivity|]. cbn [fst snd]. split; [exact HL|]. split; [intros _; replace (i + 1 - 1) with i by lia; exact Hp|]. split; [lia|].
      intros t Ht Hbt. apply HS; [exact Ht|]. destruct (Z.eq_dec (before counts t) i) as [E|]; [|lia]. specialize (Hstep t Ht). assert (t = p) by (apply (before_unique counts t p i); try assumption; lia). subst t. apply proj1 in Heq. specialize (Heq El). lia.
    + destruct (wr_at ns p i) as (ns' & E & E1 & E2); [lia|]. rewrite E. cbn [bind]. eexists. split; [reflexivity|]. cbn [fst snd]. split; [lia|]. split; [intros _; replace (i + 1 - 1) with i by lia; exact Hp|]. split; [lia|].
      intros t Ht Hbt. rewrite E2. destruct (Z.eqb_spec t p) as [->|Hne].
      * f_equal. apply not_iff_compat in Heq. apply Heq in El. lia.
      * apply HS; [exact Ht|]. destruct (Z.eq_dec (before counts t) i) as [Eb|]; [|lia]. specialize (Hstep t Ht). exfalso. apply Hne. apply (before_unique counts t p i); try assumption; lia.
  - exists ns. split; [rewrite E; reflexivity|]. intros t Ht. apply HS; [exact Ht|]. rewrite zlen_runs by exact Hnn. specialize (Hstep t Ht).
    pose proof (before_le counts (t + 1) (zlen counts) Hnn ltac:(lia)) as Hb. rewrite (before_all counts (zlen counts) eq_refl) in Hb. lia.
Qed.
Lemma findgaps_kernel n : awkward_ListOffsetArray_reduce_nonlocal_findgaps_64 (alloc 1) (repeat 0 n) (zlen (repeat 0 n)) = Ok (match n with O => alloc 1 | _ => [1] end).
Proof.
  unfold awkward_ListOffsetArray_reduce_nonlocal_findgaps_64. destruct n as [|n]; [reflexivity|]. cbn [repeat]. rewrite zlen_cons, zlen_repeat. rewrite for_step by lia. cbn [rd bind].
  unfold rd at 1. rewrite nthZ_cons. cbn [Z.eqb bind]. change (-1 <? 0) with true. cbv iota. change (wr (alloc 1) 0 (0 - -1)) with (Ok [1]). cbn [bind].
  match goal with |- bind (for_ _ _ ?f ?s0) _ = _ => destruct (for_inv (fun _ st => st = (1, 0, [1])) (0 + 1) (1 + Z.of_nat n) f s0) as (s & E & ->) end; [lia|reflexivity| |].
  - intros i st Hi ->. unfold rd. rewrite nthZ_cons. destruct (Z.eqb_spec i 0); [lia|]. rewrite nthZ_repeat by lia. cbn [bind]. change (0 <? 0) with false. cbv iota. eexists. split; reflexivity.
  - replace (Z.of_nat n + 1) with (1 + Z.of_nat n) by lia. rewrite E. reflexivity.
Qed.
Lemma outstartsstops_kernel M n : 0 <= M -> (0 < M -> n <> O) ->
  awkward_ListOffsetArray_reduce_nonlocal_outstartsstops_64 (alloc 1) (alloc 1) (map (fun _ => 0) (zseq 0 M)) M (match n with O => alloc 1 | _ => [1] end) 1 = Ok (if M =? 0 then ([1], [1]) else ([0], [M])).
Proof.
  intros HM Hn. unfold awkward_ListOffsetArray_reduce_nonlocal_outstartsstops_64. destruct (Z.eqb_spec M 0) as [->|HM0]; [reflexivity|]. specialize (Hn ltac:(lia)). destruct n as [|n]; [congruence|].
  assert (HR : forall i, 0 <= i < M -> rd (map (fun _ : Z => 0) (zseq 0 M)) i = Ok 0) by (intros i Hi; apply rd_Ok; rewrite nthZ_map, nthZ_zseq by lia; reflexivity).
  rewrite for_step by lia. rewrite HR by lia. cbn [bind]. change (-1 <? 0) with true. cbv iota. change (rd [1] 0) with (Ok 1). cbn [bind]. rewrite for_step by lia. change (wr (alloc 1) 0 0) with (Ok [0]). cbn [bind]. rewrite for_nil by lia. cbn [bind].
  change (negb (0 =? -1)) with true. cbv iota. change (wr [0] (0 + 1 - 1) (0 + 1)) with (Ok [1]). cbn [bind].
  match goal with |- bind (for_ _ _ ?f _) _ = _ => destruct (for_inv (fun i st => st = (1, 1, 0, [0], [i])) (0 + 1) M f (0 + 1, 0 + 1, 0, [0], [1])) as (s & E & ->) end; [lia|reflexivity| |].
  - intros i st Hi ->. rewrite HR by lia. cbn [bind]. change (0 <? 0) with false. cbv iota. cbn [bind]. change (negb (0 =? -1)) with true. cbv iota. change (wr [i] (1 - 1) (i + 1)) with (Ok [i + 1]). cbn [bind]. eexists. split; reflexivity.
  - rewrite E. cbn [bind]. rewrite for_nil by lia. reflexivity.
Qed.

(** ** how many lists are too short *)
Lemma snoc_cases {A} (l : list A) : l = [] \/ exists d x, l = d ++ [x].
Proof. destruct l as [|y l] using rev_ind; [left; reflexivity|right; exists l, y; reflexivity]. Qed.
Definition short (d : list (Z * Z)) (t : Z) : Z := zlen (filter (fun p => diff p <=? t) d).
Lemma short_snoc d x t : short (d ++ [x]) t = short d t + (if diff x <=? t then 1 else 0).
Proof. unfold short. rewrite filter_app, zlen_app. cbn [filter]. destruct (diff x <=? t); reflexivity. Qed.
Lemma short_col d t : zlen d = zlen (col d t) + short d t.
Proof.
  induction d as [|p d IH]; [reflexivity|]. change (p :: d) with ([p] ++ d). rewrite col_app, col_one, !zlen_app, IH. unfold short. rewrite filter_app, zlen_app. cbn [filter]. unfold entry. change (zlen [p]) with 1.
  destruct (Z.ltb_spec t (diff p)); destruct (Z.leb_spec (diff p) t); try lia; [change (zlen [fst p + t]) with 1|change (zlen [p]) with 1]; change (zlen (@nil Z)) with 0; change (zlen (@nil (Z * Z))) with 0; lia.
Qed.
Lemma offset_place o d x r : 1 <= zlen o -> d ++ x :: r = pairs o -> exists a, fst x = a + before (map diff (pairs o)) (zlen d) /\ snd x = a + before (map diff (pairs o)) (zlen d + 1) /\ nthZ o (zlen o - 1) = Some (a + sumZ (map diff (pairs o))) /\ nthZ o 0 = Some a.
Proof.
  intros Ho Ed. destruct (offsets_diffs o Ho) as (a & Ha & Eo). exists a. destruct x as [u v]. destruct (pairs_mid _ _ _ _ _ Ed) as [H0 H1]. pose proof (zlen_pairs o Ho) as Hz. pose proof (nthZ_Some _ _ _ H1). pose proof (zlen_nonneg d).
  rewrite Eo in H0, H1. rewrite nthZ_offsets_from in H0 by (rewrite zlen_map; lia). rewrite nthZ_offsets_from in H1 by (rewrite zlen_map; lia). injection H0 as <-. injection H1 as <-. cbn [fst snd]. unfold before. repeat split; try exact Ha.
  rewrite <- Hz. rewrite <- (zlen_map diff (pairs o)). rewrite Eo at 1. apply nthZ_offsets_last.
Qed.
Lemma nextshifts_kernel o parents nextcarry gs : 1 <= zlen o -> rising (pairs o) -> (forall p, In p (pairs o) -> 0 < diff p -> 0 <= fst p) -> parents = repeat 0 (length (pairs o)) -> nthZ o (zlen o - 1) = Some gs ->
  (forall c, In c nextcarry -> exists d x r t, d ++ x :: r = pairs o /\ 0 <= t < diff x /\ c = fst x + t) ->
  exists sh, awkward_ListOffsetArray_reduce_nonlocal_nextshifts_64 (alloc (maxlen (pairs o))) (alloc gs) (alloc (zlen nextcarry)) o (zlen o - 1) [0] parents (maxlen (pairs o)) (zlen nextcarry) nextcarry = Ok sh /\
    zlen sh = zlen nextcarry /\ forall j d x r t, d ++ x :: r = pairs o -> 0 <= t < diff x -> nthZ nextcarry j = Some (fst x + t) -> nthZ sh j = Some (short d t).
Proof.
  intros Ho HR Hfst Hpar Hgs Hnc. set (M := maxlen (pairs o)). pose proof (maxlen_pos (pairs o)) as HM. fold M in HM. pose proof (zlen_pairs o Ho) as Hz.
  assert (Hnn : nonneg_counts (map diff (pairs o))). { apply Forall_forall. intros n Hn. apply in_map_iff in Hn as (p & <- & Hp). unfold rising in HR. rewrite Forall_forall in HR. apply HR. exact Hp. }
  assert (Hsnd : forall d x r, d ++ x :: r = pairs o -> snd x <= gs).
  { intros d x r Ed. destruct (offset_place o d x r Ho Ed) as (a & E1 & E2 & E3 & _). rewrite Hgs in E3. injection E3 as ->. rewrite E2. rewrite <- (before_all (map diff (pairs o)) (zlen (pairs o))) by apply zlen_map.
    pose proof (before_le (map diff (pairs o)) (zlen d + 1) (zlen (pairs o)) Hnn) as B. pose proof (zlen_nonneg d). assert (zlen d < zlen (pairs o)) by (rewrite <- Ed, zlen_app, zlen_cons; pose proof (zlen_nonneg r); lia). specialize (B ltac:(lia)). lia. }
  assert (Hdis : forall d1 y d2 x r, d1 ++ y :: d2 ++ x :: r = pairs o -> snd y <= fst x).
  { intros d1 y d2 x r Ed. destruct (offset_place o d1 y (d2 ++ x :: r) Ho Ed) as (a & E1 & E2 & _ & E4). destruct (offset_place o (d1 ++ y :: d2) x r Ho) as (a' & F1 & F2 & _ & F4); [rewrite <- app_assoc; exact Ed|].
    rewrite E4 in F4. injection F4 as <-. rewrite E2, F1. rewrite zlen_app, zlen_cons. pose proof (zlen_nonneg d1). pose proof (zlen_nonneg d2). pose proof (before_le (map diff (pairs o)) (zlen d1 + 1) (zlen d1 + (zlen d2 + 1)) Hnn ltac:(lia)). lia. }
  unfold awkward_ListOffsetArray_reduce_nonlocal_nextshifts_64. rewrite <- Hz.
  set (P := fun (d : list (Z * Z)) (st : list Z * list Z) => zlen (fst st) = M /\ zlen (snd st) = Z.max 0 gs /\ (d <> [] -> forall k, 0 <= k < M -> nthZ (fst st) k = Some (short d k)) /\
     forall d1 x d2 t, d = d1 ++ x :: d2 -> 0 <= t < diff x -> nthZ (snd st) (fst x + t) = Some (short d1 t)).
  match goal with |- exists sh, bind (for_ _ _ ?f ?s0) _ = _ /\ _ => destruct (for_list (pairs o) P f s0) as ([nm ms] & E & _ & Hms & _ & HS) end.
  - split; [apply zlen_alloc; lia|]. split; [unfold alloc; cbn [snd]; rewrite zlen_repeat; lia|]. split; [congruence|]. intros d1 x d2 t Hd. destruct d1; discriminate.
  - intros d [u v] r [nm ms] Ed (H1 & H2 & H3 & H4). cbn [fst snd] in *. destruct (pairs_mid _ _ _ _ _ Ed) as [R0 R1]. apply rd_Ok in R0. apply rd_Ok in R1. rewrite R0, R1. cbn [bind].
    assert (HI : In (u, v) (pairs o)) by (rewrite <- Ed; apply in_elt). assert (Hd : 0 <= diff (u, v)) by (unfold rising in HR; rewrite Forall_forall in HR; apply HR; exact HI). pose proof (maxlen_le _ _ HI) as HdM. fold M in HdM.
    assert (Hrp : rd parents (zlen d) = Ok 0). { apply rd_Ok. rewrite Hpar. apply nthZ_repeat. assert (HZ0 : zlen d < zlen (pairs o)) by (rewrite <- Ed, zlen_app, zlen_cons; pose proof (zlen_nonneg r); lia). unfold zlen in *. lia. }
    rewrite Hrp. cbn [bind]. change (rd [0] 0) with (Ok 0). cbn [bind]. change (v - u) with (diff (u, v)).
    assert (HN0 : exists nm0, (if 0 =? zlen d then for_ 0 M (fun k nummissing => wr nummissing k 0) nm else Ok nm) = Ok nm0 /\ zlen nm0 = M /\ forall k, 0 <= k < M -> nthZ nm0 k = Some (short d k)).
    { destruct (Z.eqb_spec 0 (zlen d)) as [E0|E0].
      - rewrite (for_fill_all _ (fun _ => 0) M) by (exact H1 || reflexivity). eexists. split; [reflexivity|]. split; [rewrite zlen_map, zlen_zseq by lia; lia|]. intros k Hk. rewrite nthZ_map, nthZ_zseq by lia. destruct d; [reflexivity|rewrite zlen_cons in E0; pose proof (zlen_nonneg d); lia].
      - exists nm. split; [reflexivity|]. split; [exact H1|]. apply H3. intros ->. apply E0. reflexivity. }
    destruct HN0 as (nm0 & -> & HL0 & HN0). cbn [bind].
    destruct (for_inv (fun i l => zlen l = M /\ forall k, 0 <= k < M -> nthZ l k = Some (short d k + (if (diff (u, v) <=? k) && (k <? i) then 1 else 0)))
      (diff (u, v)) M (fun k nummissing => let* x := rd nummissing k in wr nummissing k (x + 1)) nm0) as (nm1 & E1 & HL1 & HN1); [lia| | |].
    { split; [exact HL0|]. intros k Hk. rewrite HN0 by exact Hk. destruct (Z.leb_spec (diff (u, v)) k); destruct (Z.ltb_spec k (diff (u, v))); try lia; cbn [andb]; rewrite Z.add_0_r; reflexivity. }
    { intros i l Hi [HL HN]. unfold rd. rewrite HN by lia. rewrite Z.ltb_irrefl, andb_false_r. cbn [bind]. destruct (wr_at l i (short d i + 0 + 1)) as (l' & -> & L1 & L2); [lia|]. exists l'. split; [reflexivity|]. split; [lia|].
      intros k Hk. rewrite L2. destruct (Z.eqb_spec k i) as [->|Hne].
      - destruct (Z.leb_spec (diff (u, v)) i); [|lia]. destruct (Z.ltb_spec i (i + 1)); [|lia]. cbn [andb]. f_equal. lia.
      - rewrite HN by exact Hk. destruct (Z.ltb_spec k i); destruct (Z.ltb_spec k (i + 1)); try lia; reflexivity. }
    rewrite E1. cbn [bind].
    assert (HN2 : forall k, 0 <= k < M -> nthZ nm1 k = Some (short (d ++ [(u, v)]) k)).
    { intros k Hk. rewrite HN1 by exact Hk. rewrite short_snoc. destruct (Z.leb_spec (diff (u, v)) k); destruct (Z.ltb_spec k M); try lia; reflexivity. }
    pose proof (Hsnd _ _ _ Ed) as Hgsv. cbn [snd] in Hgsv. pose proof (Hfst _ HI) as Hu0. cbn [fst] in Hu0.
    destruct (for_inv (fun i l => zlen l = Z.max 0 gs /\ forall k, nthZ l k = if (u <=? k) && (k <? u + i) then Some (short d (k - u)) else nthZ ms k)
      0 (diff (u, v)) (fun j missing => let* x := rd nm1 j in wr missing (u + j) x) ms) as (ms1 & E2 & HL2 & HM2); [lia| | |].
    { split; [exact H2|]. intros k. destruct (Z.leb_spec u k); destruct (Z.ltb_spec k (u + 0)); try lia; reflexivity. }
    { intros i l Hi [HL HN]. unfold rd. rewrite HN2 by lia. cbn [bind]. rewrite short_snoc. destruct (Z.leb_spec (diff (u, v)) i); [lia|]. rewrite Z.add_0_r. unfold diff in Hi, Hu0. cbn [fst snd] in Hi, Hu0.
      destruct (wr_at l (u + i) (short d i)) as (l' & -> & L1 & L2); [lia|]. exists l'. split; [reflexivity|]. split; [lia|].
      intros k. rewrite L2. destruct (Z.eqb_spec k (u + i)) as [->|Hne].
      - destruct (Z.leb_spec u (u + i)); [|lia]. destruct (Z.ltb_spec (u + i) (u + (i + 1))); [|lia]. cbn [andb]. do 2 f_equal. lia.
      - rewrite HN. destruct (Z.ltb_spec k (u + i)); destruct (Z.ltb_spec k (u + (i + 1))); try lia; reflexivity. }
    rewrite E2. cbn [bind]. eexists. split; [reflexivity|]. split; [exact HL1|]. split; [exact HL2|]. split; [intros _; exact HN2|].
    intros d1 x d2 t Hsp Ht. cbn [snd]. rewrite HM2. destruct (snoc_cases d2) as [->|(d2' & y & ->)].
    + apply app_inj_tail in Hsp as [-> Hx]. subst x. cbn [fst]. destruct (Z.leb_spec u (u + t)); [|lia]. destruct (Z.ltb_spec (u + t) (u + diff (u, v))); [|lia]. cbn [andb]. do 2 f_equal. lia.
    + assert (Hsp' : d = d1 ++ x :: d2' /\ (u, v) = y). { rewrite app_comm_cons, app_assoc in Hsp. apply app_inj_tail in Hsp. exact Hsp. } destruct Hsp' as [Hsp' <-].
      rewrite Hsp' in Ed. rewrite <- app_assoc in Ed. pose proof (Hdis d1 x d2' (u, v) r Ed) as Hxu. cbn [fst] in Hxu. unfold diff in Ht. destruct (Z.leb_spec u (fst x + t)); [lia|]. cbn [andb]. apply (H4 d1 x d2' t Hsp'). unfold diff. lia.
  - rewrite E. cbn [bind snd] in *.
    destruct (for_inv (fun i l => zlen l = zlen nextcarry /\ forall j d x r t, 0 <= j < i -> d ++ x :: r = pairs o -> 0 <= t < diff x -> nthZ nextcarry j = Some (fst x + t) -> nthZ l j = Some (short d t))
      0 (zlen nextcarry) (fun j nextshifts => let* c := rd nextcarry j in let* m := rd ms c in wr nextshifts j m) (alloc (zlen nextcarry))) as (sh & Es & HLs & HSs).
    + apply zlen_nonneg.
    + split; [apply zlen_alloc, zlen_nonneg|]. intros; lia.
    + intros i l Hi [HL HN]. destruct (nthZ_lt nextcarry i Hi) as [c Hc]. unfold rd. rewrite Hc. cbn [bind]. destruct (Hnc c (nthZ_In _ _ _ Hc)) as (d & x & r & t & Ed & Ht & Ec). rewrite Ec, (HS d x r t (eq_sym Ed) Ht). cbn [bind].
      destruct (wr_at l i (short d t)) as (l' & -> & L1 & L2); [lia|]. exists l'. split; [reflexivity|]. split; [lia|]. intros j d' x' r' t' Hj Ed' Ht' Hcj. rewrite L2. destruct (Z.eqb_spec j i) as [->|Hne].
      * f_equal. assert (Ecc : nthZ ms c = nthZ ms (fst x' + t')) by congruence. rewrite Ec in Ecc. rewrite (HS d x r t (eq_sym Ed) Ht), (HS d' x' r' t' (eq_sym Ed') Ht') in Ecc. injection Ecc as ->. reflexivity.
      * apply (HN j d' x' r' t'); try assumption. lia.
    + exists sh. split; [exact Es|]. split; [exact HLs|]. intros j d x r t Ed Ht Hj. apply (HSs j d x r t); try assumption. pose proof (nthZ_Some _ _ _ Hj). lia.
Qed.
