(** Proofs about nbytes. *)
From Coq Require FinFun.
From Verif Require Import Base BaseLemmas Content Copy PCopy Nbytes SpecNbytes.
Local Open Scope Z_scope.

(** the parts of buffers that are counted *)
Fixpoint counted (n : node) : list area :=
  match n with
  | MEmpty => []
  | MNumpy _ ptr offset length stride => [mkArea ptr offset length stride]
  | MListA starts stops c => whole starts :: whole stops :: counted c
  | MListOffset v c | MIndexed v c | MIndexedOption v c | MByteMasked v _ c | MBitMasked v _ _ _ c => whole v :: counted c
  | MRegular _ _ c | MUnmasked c => counted c
  | MRecord _ _ cs | MUnion _ _ cs => flat_map counted cs
  end.
Lemma counted_areas n : incl (counted n) (areas n).
Proof.
  induction n using node_ind'; cbn [counted areas]; auto using incl_refl; try (intros x [<-|[<-|Hx]]; cbn; auto; fail); try (intros x [<-|Hx]; cbn; auto; fail).
  - intros x Hx. apply in_flat_map in Hx. destruct Hx as (c & Hc & Hx). apply in_flat_map. exists c. split; [exact Hc|]. rewrite Forall_forall in H. exact (H c Hc x Hx).
  - intros x Hx. right; right. apply in_flat_map in Hx. destruct Hx as (c & Hc & Hx). apply in_flat_map. exists c. split; [exact Hc|]. rewrite Forall_forall in H. exact (H c Hc x Hx).
Qed.
Lemma counted_all n : no_union n = true -> counted n = areas n.
Proof.
  induction n using node_ind'; cbn [counted areas no_union]; intros Hn; auto; try (f_equal; auto; f_equal; auto; fail); [|discriminate].
  revert Hn. induction H as [|c cs Hc _ IH]; cbn [forallb flat_map]; intros Hn; [reflexivity|]. apply andb_prop in Hn. destruct Hn as [N1 N2]. now rewrite Hc, IH.
Qed.

Lemma zseq_NoDup a b : NoDup (zseq a b).
Proof.
  rewrite NoDup_nth_error. intros i j Hi E. destruct (Z.leb_spec b a) as [Hb|Hb].
  - exfalso. pose proof (zlen_zseq a a ltac:(lia)) as HZ. assert (zseq a b = []) as R by (unfold zseq; replace (Z.to_nat (b - a)) with 0%nat by lia; reflexivity). rewrite R in Hi. cbn in Hi. lia.
  - assert (HZ : zlen (zseq a b) = b - a) by (rewrite zlen_zseq; lia). unfold zlen in HZ.
    assert (Hj : (j < Datatypes.length (zseq a b))%nat) by (apply nth_error_Some; rewrite <- E; apply nth_error_Some; exact Hi).
    assert (N : forall k, (k < Datatypes.length (zseq a b))%nat -> nth_error (zseq a b) k = Some (a + Z.of_nat k)).
    { intros k Hk. pose proof (nthZ_zseq a b (Z.of_nat k) ltac:(lia)) as Q. unfold nthZ in Q. destruct (Z.ltb_spec (Z.of_nat k) 0); [lia|]. rewrite Nat2Z.id in Q. exact Q. }
    rewrite (N i Hi), (N j Hj) in E. injection E as E. lia.
Qed.
Lemma cells_NoDup a : a_stride a <> 0 -> NoDup (cells a).
Proof.
  intros Hs. unfold cells. apply FinFun.Injective_map_NoDup; [|apply zseq_NoDup]. intros i j E. injection E as E. nia.
Qed.
Lemma cells_ptr a x : In x (cells a) -> fst x = a_ptr a.
Proof. unfold cells. intros H. apply in_map_iff in H. destruct H as (i & <- & _). reflexivity. Qed.
Lemma NoDup_app' {A} (l l' : list A) : NoDup l -> NoDup l' -> (forall x, In x l -> ~ In x l') -> NoDup (l ++ l').
Proof.
  induction 1 as [|x l Hx _ IH]; intros H' Hd; [exact H'|]. cbn [app]. constructor.
  - intros Hin. apply in_app_or in Hin. destruct Hin as [Hin|Hin]; [contradiction|]. apply (Hd x); [left; reflexivity|exact Hin].
  - apply IH; [exact H'|]. intros y Hy. apply Hd. right; exact Hy.
Qed.
Lemma chosen_NoDup L : NoDup (map a_ptr L) -> (forall a, In a L -> a_stride a <> 0) -> NoDup (flat_map cells L).
Proof.
  induction L as [|a L IH]; cbn [map flat_map]; intros HN HS; [constructor|]. inversion HN as [|? ? Ha HL]; subst. apply NoDup_app'.
  - apply cells_NoDup, HS. left; reflexivity.
  - apply IH; [exact HL|]. intros b Hb. apply HS. right; exact Hb.
  - intros x Hx Hin. apply in_flat_map in Hin. destruct Hin as (b & Hb & Hx'). apply Ha. rewrite <- (cells_ptr _ _ Hx), (cells_ptr _ _ Hx'). apply in_map. exact Hb.
Qed.
Lemma cells_length a : Datatypes.length (cells a) = Z.to_nat (a_length a).
Proof.
  unfold cells. rewrite map_length. destruct (Z.leb_spec 0 (a_length a)) as [H|H].
  - pose proof (zlen_zseq 0 (a_length a) H) as E. unfold zlen in E. lia.
  - unfold zseq. replace (Z.to_nat (a_length a - 0)) with 0%nat by lia. cbn. lia.
Qed.

Section Bytes.
Variable width : Z -> Z.
Definition bytes (a : area) : Z := width (a_ptr a) * a_length a.
Definition note_area (l : list (Z * Z)) (a : area) : list (Z * Z) := note l (a_ptr a) (bytes a).
Lemma part_fold n : forall l, nbytes_part width l n = fold_left note_area (counted n) l.
Proof.
  induction n using node_ind'; intros l; cbn [nbytes_part counted fold_left]; auto.
  all: revert l; induction H as [|c cs Hc _ IH]; intros l; cbn [fold_left flat_map]; [reflexivity|]; rewrite fold_left_app, <- Hc; apply IH.
Qed.

(** [L]: the largest part of every buffer *)
Definition chosen (l : list (Z * Z)) (seen L : list area) : Prop :=
  l = map (fun a => (a_ptr a, bytes a)) L /\ NoDup (map a_ptr L) /\ incl L seen /\
  forall a, In a seen -> exists b, In b L /\ a_ptr b = a_ptr a /\ bytes a <= bytes b.

Lemma note_chosen a : forall L, NoDup (map a_ptr L) ->
  exists L', note_area (map (fun a => (a_ptr a, bytes a)) L) a = map (fun a => (a_ptr a, bytes a)) L' /\ NoDup (map a_ptr L') /\
    incl L' (a :: L) /\ incl (map a_ptr L') (a_ptr a :: map a_ptr L) /\ (exists b, In b L' /\ a_ptr b = a_ptr a /\ bytes a <= bytes b) /\
    forall c, In c L -> exists b, In b L' /\ a_ptr b = a_ptr c /\ bytes c <= bytes b.
Proof.
  unfold note_area. induction L as [|x L IH]; cbn [map note]; intros HN.
  - exists [a]. cbn [map]. repeat split; auto using incl_refl; [constructor; [intros []|constructor]|exists a; cbn; auto with zarith|intros c []].
  - inversion HN as [|? ? Hx HL]; subst. destruct (Z.eqb_spec (a_ptr x) (a_ptr a)) as [Hp|Hp].
    + destruct (Z.ltb_spec (bytes x) (bytes a)).
      * exists (a :: L). cbn [map]. repeat split; auto.
        -- rewrite <- Hp. exact HN.
        -- intros y [<-|Hy]; cbn; auto.
        -- intros y [<-|Hy]; cbn; auto.
        -- exists a. cbn; auto with zarith.
        -- intros c [<-|Hc]; [exists a; cbn; split; [auto|split; [auto|lia]]|exists c; cbn; auto with zarith].
      * exists (x :: L). cbn [map]. repeat split; auto.
        -- intros y Hy; right; exact Hy.
        -- intros y Hy; right; exact Hy.
        -- exists x. cbn; auto.
        -- intros c Hc. exists c. auto with zarith.
    + destruct (IH HL) as (L' & E & N' & I1 & I2 & (b & B1 & B2 & B3) & G). exists (x :: L'). cbn [map]. rewrite E. repeat split.
      * constructor; [|exact N']. intros Hin. apply I2 in Hin. destruct Hin as [Hin|Hin]; [congruence|contradiction].
      * intros y [<-|Hy]; [right; left; reflexivity|]. apply I1 in Hy. destruct Hy as [<-|Hy]; cbn; auto.
      * intros y [<-|Hy]; [right; left; reflexivity|]. apply I2 in Hy. destruct Hy as [<-|Hy]; cbn; auto.
      * exists b. cbn; auto.
      * intros c [<-|Hc]; [exists x; cbn; auto with zarith|]. destruct (G c Hc) as (b' & C1 & C2 & C3). exists b'. cbn; auto.
Qed.
Lemma fold_chosen As : forall l seen L, chosen l seen L -> exists L', chosen (fold_left note_area As l) (rev As ++ seen) L'.
Proof.
  induction As as [|a As IH]; intros l seen L HC; cbn [fold_left rev app]; [eauto|].
  rewrite <- app_assoc. cbn [app]. destruct HC as (-> & HN & HI & HG). destruct (note_chosen a L HN) as (L' & -> & N' & I1 & _ & Ha & G).
  apply (IH _ (a :: seen) L'). repeat split; auto.
  - intros y Hy. apply I1 in Hy. destruct Hy as [<-|Hy]; cbn; auto.
  - intros c [<-|Hc]; [exact Ha|]. destruct (HG c Hc) as (b & B1 & B2 & B3). destruct (G b B1) as (b' & C1 & C2 & C3). exists b'. split; [exact C1|]. split; [congruence|lia].
Qed.

Lemma total_app xs ys : total width (xs ++ ys) = total width xs + total width ys.
Proof. unfold total. induction xs as [|x xs IH]; cbn [app fold_right]; lia. Qed.
Lemma total_cells a : 0 <= a_length a -> total width (cells a) = bytes a.
Proof.
  intros Ha. unfold cells, bytes. assert (G : forall l : list Z, total width (map (fun i => (a_ptr a, a_offset a + i * a_stride a)) l) = width (a_ptr a) * zlen l).
  { induction l as [|i l IH]; [cbn; change (zlen (@nil Z)) with 0; lia|]. rewrite zlen_cons. cbn [map]. unfold total in *. cbn [fold_right fst]. rewrite IH. lia. }
  rewrite G, zlen_zseq by lia. f_equal. lia.
Qed.
Lemma nbytes_chosen n : sound n -> exists L, NoDup (map a_ptr L) /\ incl L (counted n) /\ nbytes width n = total width (flat_map cells L) /\
  forall a, In a (counted n) -> exists b, In b L /\ a_ptr b = a_ptr a /\ bytes a <= bytes b.
Proof.
  intros HS. unfold nbytes. rewrite part_fold. destruct (fold_chosen (counted n) [] [] []) as (L & E & HN & HI & HG).
  - repeat split; [constructor|intros a []|intros a []].
  - rewrite app_nil_r in HI, HG. exists L. split; [exact HN|]. assert (HI' : incl L (counted n)) by (intros a Ha; apply in_rev, HI, Ha). split; [exact HI'|]. split; [|intros a Ha; apply HG, in_rev; rewrite rev_involutive; exact Ha].
    rewrite E. assert (HL : forall a, In a L -> 0 <= a_length a) by (intros a Ha; apply (HS a), counted_areas, HI', Ha). clear - HL.
    induction L as [|a L IH]; [reflexivity|]. cbn [map fold_right flat_map snd]. rewrite total_app, total_cells by (apply HL; left; reflexivity). rewrite IH by (intros b Hb; apply HL; right; exact Hb). lia.
Qed.


Lemma total_incl xs : (forall p, 0 <= width p) -> NoDup xs -> forall ys, incl xs ys -> total width xs <= total width ys.
Proof.
  intros Hw. induction 1 as [|x xs Hx _ IH]; intros ys HI.
  - clear HI. unfold total. cbn [fold_right]. induction ys as [|y ys IH]; cbn [fold_right]; [lia|]. pose proof (Hw (fst y)). lia.
  - destruct (in_split x ys (HI x (or_introl eq_refl))) as (l1 & l2 & ->). assert (HI' : incl xs (l1 ++ l2)).
    { intros y Hy. pose proof (HI y (or_intror Hy)) as Hin. apply in_app_or in Hin. apply in_or_app. destruct Hin as [Hin|[<-|Hin]]; auto. contradiction. }
    specialize (IH _ HI'). rewrite total_app in *. unfold total in *. cbn [fold_right]. lia.
Qed.
End Bytes.
