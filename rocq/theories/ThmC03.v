(** C03: array[start:stop] of a valid array is valid and holds Python's values[start:stop]. *)
From Verif Require Import Base Content SpecArray SpecSlice KRange Core PValid ExampleArrays.

Lemma getitem_range_den c vs start stop : den c = Some vs ->
  exists c' vs', getitem_range c start stop = Ok c' /\ den c' = Some vs' /\
    picks vs (py_slice (opt64 start) (opt64 stop) 1 (zlen vs)) vs'.
Proof.
  intros Hd. pose proof (den_length _ _ Hd) as HL. pose proof (zlen_nonneg vs) as Hn.
  pose proof (regularize_step1 start stop (zlen vs) Hn) as HR.
  destruct (regularize_rangeslice start stop true (negb (start =? kSliceNone)) (negb (stop =? kSliceNone)) (zlen vs)) as [a b] eqn:ER.
  destruct HR as (Ha & Hb & Hz).
  destruct (range_den c vs a b Hd Ha Hb) as (c' & Hc' & Hd'). exists c', (slice a b vs). split; [|split; [exact Hd'|]].
  - unfold getitem_range. destruct c; try (rewrite HL, ER; exact Hc').
    + cbn in Hc'. exact Hc'.
    + rewrite HL, ER. cbn [den] in Hd. destruct (den c); [|discriminate]. destruct (Z.leb_spec (zlen starts) (zlen stops)); [|discriminate].
      cbn [length_] in HL. destruct (Z.ltb_spec (zlen stops) b); [lia|exact Hc'].
  - rewrite <- Hz. unfold picks. apply omap_picks. apply omap_nthZ_zseq; lia.
Qed.

(** In terms of positions: exactly those of s[start:stop], start and stop possibly absent (2^63-1). *)
Theorem C03_getitem_range : forall c vs start stop, den c = Some vs ->
  exists c' vs', getitem_range c start stop = Ok c' /\ den c' = Some vs' /\
    picks vs (py_slice (opt64 start) (opt64 stop) 1 (zlen vs)) vs'.
Proof. exact getitem_range_den. Qed.
Print Assumptions C03_getitem_range.
Example C03_getitem_range_ex : exists c', getitem_range ex_union (-1) kSliceNone = Ok c' /\
  den c' = Some [VList [VList [VBool false; VBool true]; VReal 7]].
Proof. eexists; split; vm_compute; reflexivity. Qed.

(** In terms of contiguous sub-lists, without wrapping: the method used by every other operation. *)
Theorem C03_getitem_range_nowrap : forall c vs a b, den c = Some vs -> 0 <= a <= b -> b <= zlen vs ->
  exists c', getitem_range_nowrap c a b = Ok c' /\ den c' = Some (slice a b vs).
Proof. exact range_den. Qed.
Print Assumptions C03_getitem_range_nowrap.
Example C03_getitem_range_nowrap_ex : exists c', getitem_range_nowrap ex_records 1 3 = Ok c' /\ den c' = Some (slice 1 3 ex_records_values).
Proof. eexists; split; vm_compute; reflexivity. Qed.
