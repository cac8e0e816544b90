(** Proofs about is_unique of records of numbers. *)
From Coq Require Import Permutation.
From Verif Require Import Base BaseLemmas OmapLemmas LoopLemmas Content KCore Core KConvert Convert KOption Option KAxis Axis KMerge Merge KReduce Reduce KSort Sort Unique
  SpecArray SpecForm SpecSort SpecUnique PCore PCarry PList PTidy PUnique PUnique2.
Local Open Scope list_scope.
Local Open Scope Z_scope.

Section Records.
Variable real : order.
Variable is64 : content -> bool.
Variable ioff : content -> Z.
Notation IU := (is_unique real is64 ioff).
Definition go (fuel : nat) := fix go (contents : list content) (count : Z) : res bool :=
  match contents with
  | [] => if count <=? 1 then Ok true else Err "FIXME: RecordArray::is_unique operation on a RecordArray with more than one non-unique content"%string
  | c :: contents =>
      let* u := IU fuel c in
      if negb u then go contents (count + 1) else if count =? 0 then Ok true else go contents count
  end.
Lemma record_unfold fuel keys len cs : IU (S fuel) (Record keys len cs) = match cs with [] => Ok true | _ => go fuel cs 0 end.
Proof. reflexivity. Qed.
Lemma go_true fuel cs : forall n b, go fuel cs n = Ok b -> b = true.
Proof.
  induction cs as [|c cs IH]; intros n b; cbn [go].
  - destruct (n <=? 1); [|discriminate]. intros H. injection H as <-. reflexivity.
  - destruct (IU fuel c) as [u| |]; cbn [bind]; try discriminate. destruct u; cbn [negb]; [|apply IH]. destruct (n =? 0); [|apply IH]. intros H. injection H as <-. reflexivity.
Qed.
Lemma go_some fuel cs : forall n b, 0 <= n -> 2 <= n + zlen cs -> go fuel cs n = Ok b -> exists k c, nthZ cs k = Some c /\ IU fuel c = Ok true.
Proof.
  induction cs as [|c cs IH]; intros n b Hn Hl; cbn [go].
  - change (zlen (@nil content)) with 0 in Hl. destruct (Z.leb_spec n 1); [lia|discriminate].
  - destruct (IU fuel c) as [u| |] eqn:Eu; cbn [bind]; try discriminate. rewrite zlen_cons in Hl. destruct u; cbn [negb].
    + intros _. exists 0, c. split; [reflexivity|exact Eu].
    + intros H. destruct (IH (n + 1) b ltac:(lia) ltac:(lia) H) as (k & c' & Hk & Hc). pose proof (nthZ_Some _ _ _ Hk). exists (k + 1), c'. split; [|exact Hc]. rewrite nthZ_cons. destruct (Z.eqb_spec (k + 1) 0); [lia|]. now replace (k + 1 - 1) with k by lia.
Qed.
Lemma combine_inj {A B} (ks : list A) : forall (a b : list B), zlen ks = zlen a -> zlen a = zlen b -> combine ks a = combine ks b -> a = b.
Proof.
  induction ks as [|k ks IH]; intros a b H1 H2 H.
  - symmetry in H1. change (zlen (@nil A)) with 0 in H1. rewrite H1 in H2. symmetry in H2. apply zlen_0 in H1, H2. congruence.
  - destruct a as [|x a]; [rewrite zlen_cons in H1; pose proof (zlen_nonneg ks); change (zlen (@nil B)) with 0 in H1; lia|].
    destruct b as [|y b]; [rewrite zlen_cons in H2; pose proof (zlen_nonneg a); change (zlen (@nil B)) with 0 in H2; lia|].
    cbn in H. injection H as -> H. rewrite !zlen_cons in *. f_equal. apply IH; auto; lia.
Qed.
Lemma mkrow_inj keys n a b : keys_ok keys n = true -> zlen a = n -> zlen b = n -> mkrow keys a = mkrow keys b -> a = b.
Proof.
  intros HK Ha Hb H. destruct keys as [ks|]; cbn in *; [|congruence]. apply Z.eqb_eq in HK. injection H as H. eapply combine_inj; [| |exact H]; lia.
Qed.
Lemma records_unique fuel keys len cs vs : den (Record keys len cs) = Some vs -> 2 <= zlen cs ->
  (forall c, In c cs -> exists dt data, c = Numpy dt data /\ no_nan real (map (scalar dt) data)) -> IU (S (S fuel)) (Record keys len cs) = Ok true -> NoDup vs.
Proof.
  intros Hd Hl HN HU. rewrite record_unfold in HU. assert (HG : go (S fuel) cs 0 = Ok true) by (destruct cs; [change (zlen (@nil content)) with 0 in Hl; lia|exact HU]).
  destruct (go_some (S fuel) cs 0 true ltac:(lia) ltac:(lia) HG) as (k & c & Hk & Hc). destruct (HN c (nthZ_In _ _ _ Hk)) as (dt & data & -> & Hn).
  cbn [is_unique] in Hc. destruct (unique_numbers real dt data Hn) as (out & E & _ & HA). rewrite E in Hc. cbn [bind] in Hc. injection Hc as Hc. apply Z.eqb_eq in Hc. apply HA in Hc.
  destruct (record_den _ _ _ _ Hd) as (vss & Hvss & Hlen & HK & Hrows).
  destruct (omap_nth _ _ _ _ _ Hvss Hk) as [Ek _]. cbn [den] in Ek. symmetry in Ek.
  assert (HNth : forall i v, nthZ vs i = Some v -> exists row, omap (fun us => nthZ us i) vss = Some row /\ v = mkrow keys row /\ zlen row = zlen cs /\ nthZ row k = nthZ (map (scalar dt) data) i).
  { intros i v Hv. destruct (omap_nth' _ _ _ _ _ Hrows Hv) as (x & Hx & Ex). pose proof (nthZ_Some _ _ _ Hx) as Hxr. rewrite zlen_zseq in Hxr by lia. rewrite nthZ_zseq in Hx by lia. injection Hx as <-. cbn [Z.add] in Ex.
    replace (0 + i) with i in Ex by lia. destruct (omap (fun us => nthZ us i) vss) as [row|] eqn:Er; [|discriminate]. injection Ex as <-. exists row. split; [reflexivity|]. split; [reflexivity|]. split; [rewrite (omap_zlen _ _ _ Er), (omap_zlen _ _ _ Hvss); reflexivity|].
    destruct (omap_nth _ _ _ _ _ Er Ek) as [E1 _]. symmetry. exact E1. }
  apply NoDup_nth_error. intros i j Hi Hij. apply nth_error_Some in Hi. destruct (nth_error vs i) as [v|] eqn:Ei; [|congruence]. symmetry in Hij.
  assert (HZi : nthZ vs (Z.of_nat i) = Some v) by (unfold nthZ; destruct (Z.ltb_spec (Z.of_nat i) 0); [lia|]; rewrite Nat2Z.id; exact Ei).
  assert (HZj : nthZ vs (Z.of_nat j) = Some v) by (unfold nthZ; destruct (Z.ltb_spec (Z.of_nat j) 0); [lia|]; rewrite Nat2Z.id; exact Hij).
  destruct (HNth _ _ HZi) as (r1 & _ & V1 & L1 & F1). destruct (HNth _ _ HZj) as (r2 & _ & V2 & L2 & F2).
  assert (r1 = r2) as <- by (eapply mkrow_inj; [exact HK|exact L1|exact L2|congruence]).
  assert (HW : exists w, nthZ r1 k = Some w) by (apply nthZ_lt; rewrite L1; pose proof (nthZ_Some _ _ _ Hk); lia). destruct HW as [w Hw]. rewrite Hw in F1, F2. symmetry in F1, F2.
  assert (HR : equal_numbers real w w = true).
  { rewrite nthZ_map in F1. destruct (nthZ data (Z.of_nat i)) as [x|] eqn:Ex; [|discriminate]. injection F1 as <-. rewrite equal_scalar. destruct (proper_numbers real dt data Hn) as [(T & _) HE]. apply nthZ_In in Ex. rewrite HE by assumption. destruct (T x x Ex Ex) as [T'|T']; rewrite T'; reflexivity. }
  destruct (Nat.lt_trichotomy i j) as [H|[H|H]]; [|exact H|]; exfalso.
  - rewrite (Hc (Z.of_nat i) (Z.of_nat j) w w) in HR; [discriminate|lia|assumption|assumption].
  - rewrite (Hc (Z.of_nat j) (Z.of_nat i) w w) in HR; [discriminate|lia|assumption|assumption].
Qed.
End Records.
