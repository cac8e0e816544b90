(** C47: nbytes is the memory that an array uses, each element counted once. *)
From Verif Require Import Base BaseLemmas Content Copy PCopy Nbytes SpecNbytes PNbytes.
From Coq Require Import List.
Import ListNotations.
Local Open Scope Z_scope.

(** every element that the array uses is counted at most once: nbytes is not more than the bytes of any collection of elements that has all of them *)
Theorem C47_at_most : forall width n xs, (forall p, 0 <= width p) -> sound n -> (forall x, used n x -> In x xs) ->
  nbytes width n <= total width xs.
Proof.
  intros width n xs Hw HS HX. destruct (nbytes_chosen width n HS) as (L & HN & HI & -> & _). apply total_incl; [exact Hw| |].
  - apply chosen_NoDup; [exact HN|]. intros a Ha. apply (HS a), counted_areas, HI, Ha.
  - intros x Hx. apply in_flat_map in Hx. destruct Hx as (a & Ha & Hx). apply HX. exists a. split; [apply counted_areas, HI, Ha|exact Hx].
Qed.
Print Assumptions C47_at_most.

(** ... and exactly once, if parts of the same buffer are nested and there are no unions *)
Theorem C47_nbytes_partial : forall width n xs, (forall p, 0 < width p) -> sound n -> nested n -> no_union n = true ->
  NoDup xs -> (forall x, In x xs <-> used n x) -> nbytes width n = total width xs.
Proof.
  intros width n xs Hw HS Hn Hu HX HXU. apply Z.le_antisymm.
  - apply C47_at_most; [intros p; specialize (Hw p); lia|exact HS|]. intros x Hx. apply HXU. exact Hx.
  - destruct (nbytes_chosen width n HS) as (L & HN & HI & -> & HG). rewrite (counted_all n Hu) in HI, HG. apply total_incl; [intros p; specialize (Hw p); lia|exact HX|].
    intros x Hx. apply HXU in Hx. destruct Hx as (a & Ha & Hx). destruct (HG a Ha) as (b & Hb & Hp & Hle). apply in_flat_map. exists b. split; [exact Hb|].
    assert (Hl : a_length a <= a_length b). { unfold bytes in Hle. rewrite Hp in Hle. specialize (Hw (a_ptr a)). nia. }
    destruct (Hn a b Ha (HI b Hb) (eq_sym Hp)) as [H|H]; [exact (H x Hx)|].
    apply (NoDup_length_incl (l := cells b) (l' := cells a)); auto; [apply cells_NoDup, (HS b), HI, Hb|]. rewrite !cells_length. lia.
Qed.
Print Assumptions C47_nbytes_partial.

(** more of the same memory: a record of an array and itself takes no more than the array *)
Theorem C47_shared : forall width n keys len, (forall p, 0 < width p) -> sound n -> nested n -> no_union n = true ->
  nbytes width (MRecord keys len [n; n]) = nbytes width n.
Proof.
  intros width n keys len Hw HS Hn Hu. destruct (nbytes_chosen width n HS) as (L & HN & HI & E & HG). rewrite (counted_all n Hu) in HI, HG. rewrite E.
  assert (A : forall a, In a (areas (MRecord keys len [n; n])) -> In a (areas n)) by (cbn [areas flat_map]; intros a Ha; rewrite app_nil_r in Ha; apply in_app_or in Ha; tauto).
  assert (B : forall a, In a (areas n) -> In a (areas (MRecord keys len [n; n]))) by (cbn [areas flat_map]; intros a Ha; rewrite app_nil_r; apply in_or_app; tauto).
  apply C47_nbytes_partial.
  - exact Hw.
  - intros a Ha. apply HS, A, Ha.
  - intros a b Ha Hb. apply Hn; auto.
  - cbn [no_union forallb]. now rewrite Hu.
  - apply chosen_NoDup; [exact HN|]. intros a Ha. apply (HS a), HI, Ha.
  - intros x. rewrite in_flat_map. split; [intros (a & Ha & Hx); exists a; auto|]. intros (a & Ha & Hx). apply A in Ha. destruct (HG a Ha) as (b & Hb & Hp & Hle). exists b. split; [exact Hb|].
    assert (Hl : a_length a <= a_length b). { unfold bytes in Hle. rewrite Hp in Hle. specialize (Hw (a_ptr a)). nia. }
    destruct (Hn a b Ha (HI b Hb) (eq_sym Hp)) as [H|H]; [exact (H x Hx)|].
    apply (NoDup_length_incl (l := cells b) (l' := cells a)); auto; [apply cells_NoDup, (HS b), HI, Hb|]. rewrite !cells_length. lia.
Qed.
Print Assumptions C47_shared.

(** ** concrete cases *)
Definition w8 (ptr : Z) : Z := if ptr =? 2 then 1 else 8.
(** lists of numbers, and beside them a slice of the same numbers with a mask, buffer 2, of bytes *)
Definition rec2 : node :=
  MRecord None 3 [MListOffset (mkView 0 0 4) (MNumpy DInt 1 0 5 1); MByteMasked (mkView 2 0 3) true (MNumpy DInt 1 1 3 1)].
Example C47_ex_hyps : sound rec2 /\ nested rec2 /\ no_union rec2 = true /\ (forall p, 0 < w8 p).
Proof.
  split; [|split; [|split; [reflexivity|]]].
  - intros a Ha. cbn in Ha. destruct Ha as [<-|[<-|[<-|[<-|[]]]]]; cbn; split; lia.
  - intros a b Ha Hb. cbn in Ha, Hb. destruct Ha as [<-|[<-|[<-|[<-|[]]]]]; destruct Hb as [<-|[<-|[<-|[<-|[]]]]]; cbn [a_ptr whole v_ptr]; intros Hp; try discriminate Hp; try (left; apply incl_refl).
    + right. vm_compute. intros x [<-|[<-|[<-|[]]]]; auto 10.
    + left. vm_compute. intros x [<-|[<-|[<-|[]]]]; auto 10.
  - intros p. unfold w8. destruct (p =? 2); lia.
Qed.
(** 4 offsets and 5 numbers of 8 bytes, and 3 bytes *)
Example C47_ex_nbytes : nbytes w8 rec2 = 75.
Proof. reflexivity. Qed.

(** ** what is not counted *)
(** The tags and the index of a union are never counted, whatever their lengths. *)
Theorem C47_union_refuted : forall width cs, exists b, forall tags index, nbytes width (MUnion tags index cs) = b.
Proof. intros width cs. exists (nbytes width (MRecord None 0 cs)). intros tags index. reflexivity. Qed.
Print Assumptions C47_union_refuted.
(** so the claim fails for unions although all buffers are different: 3 tags of one byte and 3 positions of 8 bytes are missing *)
Definition union3 : node := MUnion (mkView 2 0 3) (mkView 3 0 3) [MNumpy DInt 0 0 2 1; MNumpy DReal 1 0 1 1].
Theorem C47_claim_refuted : ~ (forall width n xs, (forall p, 0 < width p) -> sound n -> nested n -> NoDup xs -> (forall x, In x xs <-> used n x) -> nbytes width n = total width xs).
Proof.
  intros H. specialize (H w8 union3 (flat_map cells (areas union3))).
  assert (HS : sound union3) by (intros a Ha; cbn in Ha; destruct Ha as [<-|[<-|[<-|[<-|[]]]]]; cbn; split; lia).
  assert (E : nbytes w8 union3 = total w8 (flat_map cells (areas union3))); [|vm_compute in E; discriminate].
  apply H.
  - intros p. unfold w8. destruct (p =? 2); lia.
  - exact HS.
  - intros a b Ha Hb. cbn in Ha, Hb. destruct Ha as [<-|[<-|[<-|[<-|[]]]]]; destruct Hb as [<-|[<-|[<-|[<-|[]]]]]; cbn [a_ptr whole v_ptr]; intros Hp; try discriminate Hp; left; apply incl_refl.
  - apply chosen_NoDup; [cbn; repeat constructor; cbn; intuition discriminate|]. intros a Ha. apply (HS a Ha).
  - intros x. rewrite in_flat_map. reflexivity.
Qed.
Print Assumptions C47_claim_refuted.
(** starts and stops that are parts of the same offsets, as util::make_starts and util::make_stops give them, are not nested: the last offset is not counted.
    The documentation of nbytes allows for this *)
Theorem C47_starts_stops_refuted : forall width n, (forall p, 0 < width p) -> 0 < n -> let l := MListA (mkView 0 0 n) (mkView 0 1 n) MEmpty in
  sound l /\ nbytes width l = width 0 * n /\ forall xs, NoDup xs -> (forall x, In x xs <-> used l x) -> total width xs = width 0 * (n + 1).
Proof.
  intros width n Hw Hn l. split; [|split].
  - intros a Ha. cbn in Ha. destruct Ha as [<-|[<-|[]]]; cbn; split; lia.
  - unfold nbytes, l. cbn. unfold note_index. cbn. rewrite Z.ltb_irrefl. cbn. lia.
  - intros xs HX HU. set (a := mkArea 0 0 (n + 1) 1). assert (T : total width (cells a) = width 0 * (n + 1)) by (rewrite total_cells; [reflexivity|cbn; lia]). rewrite <- T.
    assert (C : forall b o m x, b = mkArea 0 o m 1 -> (In x (cells b) <-> fst x = 0 /\ o <= snd x < o + m)).
    { intros b o m [p k] ->. unfold cells. cbn [a_ptr a_offset a_length a_stride fst snd]. rewrite in_map_iff. split.
      - intros (i & E & Hi). apply In_zseq in Hi. injection E as <- <-. lia.
      - intros [-> Hk]. exists (k - o). split; [f_equal; lia|]. apply In_zseq. lia. }
    assert (U : forall x, In x (cells a) <-> used l x).
    { intros x. rewrite (C a 0 (n + 1) x eq_refl). unfold used. cbn [areas l]. split.
      - intros [H0 Hx]. destruct (Z.ltb_spec (snd x) n).
        + exists (whole (mkView 0 0 n)). split; [left; reflexivity|]. apply (C _ 0 n x eq_refl). lia.
        + exists (whole (mkView 0 1 n)). split; [right; left; reflexivity|]. apply (C _ 1 n x eq_refl). lia.
      - intros (b & [<-|[<-|[]]] & Hx); [apply (C _ 0 n x eq_refl) in Hx|apply (C _ 1 n x eq_refl) in Hx]; lia. }
    apply Z.le_antisymm; apply total_incl; try (intros p; specialize (Hw p); lia); auto.
    + intros x Hx. apply U, HU, Hx.
    + apply cells_NoDup. cbn. lia.
    + intros x Hx. apply HU, U, Hx.
Qed.
Print Assumptions C47_starts_stops_refuted.
(** numbers with a stride of zero, as NumPy broadcasts them: one number is counted as many *)
Theorem C47_broadcast_refuted : forall width n, 1 < n -> 0 < width 0 -> let a := MNumpy DInt 0 0 n 0 in
  (forall x, used a x <-> In x [(0, 0)]) /\ total width [(0, 0)] = width 0 /\ nbytes width a = width 0 * n /\ width 0 < nbytes width a.
Proof.
  intros width n Hn Hw a. split; [|split; [cbn; lia|split; [cbn; lia|cbn; nia]]].
  intros x. unfold used, a. cbn [areas]. split.
  - intros (b & [<-|[]] & Hx). unfold cells in Hx. cbn in Hx. apply in_map_iff in Hx. destruct Hx as (i & <- & _). left. f_equal. lia.
  - intros [<-|[]]. eexists. split; [left; reflexivity|]. unfold cells. cbn. apply in_map_iff. exists 0. split; [reflexivity|]. apply In_zseq. lia.
Qed.
Print Assumptions C47_broadcast_refuted.
