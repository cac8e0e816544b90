(** Proofs about the reducers: the method the user calls. *)
From Verif Require Import Base BaseLemmas OmapLemmas LoopLemmas Content KCore Core Convert Option Axis KReduce Reduce SpecArray SpecForm SpecMerge SpecReduce
  PCore PList PConvert PForm PAxis PAt PReduceK PReduceF PReduceO PReduceL PReduceV PReduce.

Lemma zeros_run n : 0 <= n -> awkward_content_reduce_zeroparents_64 (alloc n) n = Ok (runs 0 [n]).
Proof.
  intros Hn. unfold awkward_content_reduce_zeroparents_64. rewrite (for_fill_all _ (fun _ => 0)) by (try reflexivity; apply zlen_alloc; exact Hn). f_equal.
  cbn [runs]. rewrite app_nil_r. apply list_eqZ; [rewrite zlen_map, zlen_zseq, zlen_repeat by lia; lia|]. intros i Hi. rewrite zlen_map, zlen_zseq in Hi by lia.
  rewrite nthZ_map, nthZ_zseq by lia. cbn [option_map]. symmetry. apply nthZ_repeat. lia.
Qed.
Lemma enumerate_combine (vs : list value) : combine (zseq 0 (zlen vs)) vs = enumerate vs.
Proof. reflexivity. Qed.

Lemma reduce_innermost F is64 rr rc narrow refeq mfuel r mask zb c vs d axis kd :
  (returns_positions r = true -> zb = true) -> den c = Some vs -> union_free (form_of c) = true -> levels (form_of c) = Some d -> top_records (form_of c) = true -> prepared zb (returns_positions r) c ->
  axis = -1 \/ axis = d - 1 ->
  forall fuel, (need c <= fuel)%nat ->
  exists it, reduce F is64 rr rc narrow refeq mfuel r mask fuel c axis kd = Ok it /\ item_den it = Some (red F r mask kd 1 (form_of c) (enumerate vs)).
Proof.
  intros Hz Hd Hu Hlv Htop HP Hax fuel Hfuel. pose proof (levels_pos _ _ Hlv) as Hdp. unfold reduce. rewrite (levels_branch _ _ Hlv Hu).
  assert (EN : (if - axis <=? 0 then - axis + d else - axis) = 1) by (destruct (Z.leb_spec (- axis) 0); lia). rewrite EN.
  change (0 <? 1) with true. cbn [andb]. destruct (Z.leb_spec 1 d); [|lia]. cbn [negb]. cbn [bind].
  pose proof (zlen_nonneg vs). rewrite (den_length _ _ Hd). rewrite zeros_run by lia. cbn [bind].
  assert (Hnn : nonneg_counts [zlen vs]) by (constructor; [lia|constructor]).
  assert (Hzr : zlen (runs 0 [zlen vs]) = zlen vs) by (rewrite zlen_runs by exact Hnn; unfold sumZ; simpl; lia).
  destruct (main F is64 rr rc narrow refeq mfuel r mask zb Hz fuel c vs [0] [] (runs 0 [zlen vs]) 1 kd (zseq 0 (zlen vs)) d) as (out & E & Ed & _); try assumption.
  - lia.
  - apply runs_inside; [exact Hnn|reflexivity].
  - rewrite zlen_zseq; lia.
  - intros _ _. split; [|left; reflexivity]. intros i p tag Hi Ht. cbn [runs] in Hi. rewrite app_nil_r in Hi. pose proof (nthZ_Some _ _ _ Hi) as Hb. rewrite zlen_repeat in Hb. rewrite nthZ_repeat in Hi by lia. injection Hi as <-.
    rewrite nthZ_zseq in Ht by lia. injection Ht as <-. exists 0, 0. repeat split. lia.
  - intros _. split; [reflexivity|]. exists [zlen vs]. split; [exact Hnn|]. split; [reflexivity|]. split; [reflexivity|]. intros _ _. reflexivity.
  - rewrite E. cbn [bind]. destruct (at_den out _ 0 (red F r mask kd 1 (form_of c) (members (runs 0 [zlen vs]) (combine (zseq 0 (zlen vs)) vs) 0)) Ed eq_refl) as (it & Hit & Hden).
    exists it. split; [exact Hit|]. rewrite Hden. f_equal. f_equal. cbn [runs]. rewrite app_nil_r. unfold members. rewrite enumerate_combine.
    assert (HL : forall (T : list member) n, zlen T <= Z.of_nat n -> pick (map (fun p => p =? 0) (repeat 0 n)) T = T).
    { induction T as [|m T IH]; intros n Hn; [apply pick_nil|]. rewrite zlen_cons in Hn. pose proof (zlen_nonneg T). destruct n; [lia|]. simpl. rewrite IH by lia. reflexivity. }
    apply HL. change (zlen (combine (zseq 0 (zlen vs)) vs) <= Z.of_nat (Z.to_nat (zlen vs))). rewrite zlen_combine; rewrite zlen_zseq; lia.
Qed.

(** ** first extremal element *)
Lemma winner_first (P : value -> Prop) (beats : value -> value -> bool) (ms : list member) : Forall (fun m => P (snd m)) ms ->
  (forall x y z, P x -> P y -> P z -> beats x y = true -> beats y z = true -> beats x z = true) -> (forall x y z, P x -> P y -> P z -> beats x y = false -> beats y z = false -> beats x z = false) ->
  forall m, winner beats ms = Some m -> exists pre post, ms = pre ++ m :: post /\ (forall x, In x pre -> beats (snd m) (snd x) = true) /\ (forall x, In x post -> beats (snd x) (snd m) = false).
Proof.
  intros HP HT HN. unfold winner.
  assert (G : forall ms seen best, Forall (fun m => P (snd m)) ms -> Forall (fun m => P (snd m)) seen -> match best with None => seen = [] | Some b => exists pre post, seen = pre ++ b :: post /\ (forall x, In x pre -> beats (snd b) (snd x) = true) /\ (forall x, In x post -> beats (snd x) (snd b) = false) end ->
    forall m, fold_left (fun best (m : member) => match best with None => Some m | Some b => if beats (snd m) (snd b) then Some m else Some b end) ms best = Some m ->
    exists pre post, seen ++ ms = pre ++ m :: post /\ (forall x, In x pre -> beats (snd m) (snd x) = true) /\ (forall x, In x post -> beats (snd x) (snd m) = false)).
  { clear ms HP. induction ms as [|y ms IH]; intros seen best HM HS HI m Hm; simpl in Hm.
    - subst best. rewrite app_nil_r. exact HI.
    - apply Forall_cons_iff in HM as [Hy HM]. replace (seen ++ y :: ms) with ((seen ++ [y]) ++ ms) by (rewrite <- app_assoc; reflexivity).
      assert (HS2 : Forall (fun m => P (snd m)) (seen ++ [y])) by (apply Forall_app; split; [exact HS|constructor; [exact Hy|constructor]]).
      eapply IH; [exact HM|exact HS2| |exact Hm]. destruct best as [b|].
      + destruct HI as (pre & post & -> & A & B). rewrite Forall_forall in HS. assert (Pb : P (snd b)) by (apply HS; apply in_elt). destruct (beats (snd y) (snd b)) eqn:E.
        * exists (pre ++ b :: post), []. split; [reflexivity|]. split; [|intros x []]. intros x Hx. assert (Px : P (snd x)) by (apply HS; exact Hx). apply in_app_iff in Hx as [Hx|[<-|Hx]]; [apply (HT _ (snd b)); auto|exact E|].
          destruct (beats (snd y) (snd x)) eqn:E2; [reflexivity|]. rewrite (HN _ _ _ Hy Px Pb E2 (B x Hx)) in E. discriminate.
        * exists pre, (post ++ [y]). split; [rewrite <- app_assoc; reflexivity|]. split; [exact A|]. intros x Hx. apply in_app_iff in Hx as [Hx|[<-|[]]]; [apply B; exact Hx|exact E].
      + subst seen. exists [], []. split; [reflexivity|]. split; intros x []. }
  intros m Hm. exact (G ms [] None HP (Forall_nil _) eq_refl m Hm).
Qed.
