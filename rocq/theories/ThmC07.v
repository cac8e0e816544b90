(** C07: the representations of missing values are interchangeable. *)
From Verif Require Import Base Content SpecArray SpecSlice SpecOption Core Option POption.

(** A hidden element shows as missing (and Unmasked and Indexed hide nothing). *)
Theorem C07_missing_is_none : forall c vs i, option_or_indexed c -> den c = Some vs -> missing_at c i = Some true -> 0 <= i < zlen vs -> nthZ vs i = Some VNone.
Proof.
  intros c vs i Ho Hd Hm Hi. destruct Ho as [Ho|(index & c' & ->)].
  - destruct c; try contradiction; cbn [den missing_at] in *; try discriminate.
    + destruct (den c) as [ws|]; [|discriminate]. destruct (nthZ index i) as [x|] eqn:Hx; [|discriminate]. injection Hm as Hm.
      destruct (omap_nth _ _ _ _ _ Hd Hx) as [<- _]. now rewrite Hm.
    + destruct (den c) as [ws|]; [|discriminate]. destruct (zlen mask <=? zlen ws); [|discriminate]. injection Hd as <-. rewrite nthZ_map, nthZ_combine in *.
      destruct (nthZ mask i) as [m|] eqn:E; [|discriminate]. cbn [option_map] in Hm. injection Hm as Hm.
      rewrite zlen_map in Hi. destruct (nthZ_lt (combine mask ws) i) as [[m' w] Hc]; [lia|]. rewrite nthZ_combine, E in Hc. destruct (nthZ ws i); [|discriminate].
      cbn [option_map fst snd]. destruct (Bool.eqb _ _); [discriminate|reflexivity].
    + destruct (den c) as [ws|]; [|discriminate]. destruct ((0 <=? length) && (length <=? zlen ws) && (length <=? 8 * zlen mask)) eqn:Eb; [|discriminate].
      assert (Hl : zlen vs = length). { rewrite (omap_zlen _ _ _ Hd), zlen_zseq; lia. }
      destruct (omap_nth _ _ _ i i Hd) as [<- _]; [rewrite nthZ_zseq by lia; f_equal; lia|].
      destruct (mask_bit mask lsb_order i) as [b|]; [|discriminate]. destruct (nthZ_lt ws i) as [w ->]; [lia|]. cbn [option_map] in Hm. injection Hm as Hm.
      now destruct (Bool.eqb b valid_when).
  - cbn [missing_at] in Hm. destruct (nthZ index i); discriminate.
Qed.
Print Assumptions C07_missing_is_none.

Definition ex_vals : content := Numpy DInt [10; 11; 12; 13; 14; 15; 16; 17; 18].
Definition ex_bit : content := BitMasked [77; 1] false true 9 ex_vals.
Definition ex_bit_values : list value := [VNone; VInt 11; VNone; VNone; VInt 14; VInt 15; VNone; VInt 17; VNone].
Example C07_missing_is_none_ex : option_or_indexed ex_bit /\ den ex_bit = Some ex_bit_values /\ missing_at ex_bit 3 = Some true.
Proof. split; [left; exact I|]. split; vm_compute; reflexivity. Qed.

(** Converting to IndexedOptionArray keeps all values. *)
Theorem C07_toIndexedOptionArray64 : forall c vs, option_type c -> (forall index c', c <> IndexedOption index c') -> den c = Some vs ->
  exists index c', toIndexedOptionArray64 c = Ok (IndexedOption index c') /\ den (IndexedOption index c') = Some vs /\ c' = below c /\
    forall i, 0 <= i < zlen vs -> missing_at (IndexedOption index c') i = missing_at c i.
Proof.
  intros c vs Ho Hne Hd. destruct c; try contradiction; [exfalso; eapply Hne; reflexivity|..]; (pose proof Hd as Hd0; apply to_indexed_option in Hd;
    [destruct Hd as (index & c' & E & Hd' & Hl)|eauto 10]); exists index, c'; (split; [exact E|split; [exact Hd'|]]);
    pose proof (den_length _ _ Hd0) as HL; cbn [toIndexedOptionArray64 length_ below] in *.
  - unfold awkward_ByteMaskedArray_toIndexedOptionArray in E.
    rewrite (for_fill_all _ (fun i => match nthZ mask i with Some x => if Bool.eqb (negb (x =? 0)) valid_when then i else -1 | None => 0 end)) in E.
    + injection E as <- <-. split; [reflexivity|]. intros i Hi. cbn [missing_at]. rewrite nthZ_map, nthZ_zseq by lia. cbn [option_map]. rewrite Z.add_0_l.
      destruct (nthZ_lt mask i) as [x ->]; [lia|]. cbn [option_map]. destruct (Bool.eqb _ _); cbn [negb]; f_equal. apply Z.ltb_ge. lia.
    + pose proof (zlen_nonneg mask). apply zlen_alloc. lia.
    + intros i o Hi Ho'. destruct (rd_in mask i) as (x & -> & ->); [lia|]. reflexivity.
  - destruct (bitmasked_den _ _ _ _ _ _ Hd0) as [Hn _]. rewrite bits_to_index in E by (rewrite ?zlen_alloc; lia). cbn [bind] in E.
    rewrite iview_Ok in E by (rewrite ?zlen_map, ?zlen_zseq; lia). cbn [bind] in E. rewrite slice_map, slice_zseq, !Z.add_0_l in E by lia.
    injection E as <- <-. split; [reflexivity|]. intros i Hi. cbn [missing_at]. rewrite nthZ_map, nthZ_zseq by lia. rewrite mask_bit_val by lia. cbn [option_map]. rewrite Z.add_0_l.
    destruct (Bool.eqb _ _); cbn [negb]; f_equal. apply Z.ltb_ge. lia.
  - pose proof (zlen_nonneg vs). rewrite HL in E. unfold awkward_carry_arange in E. rewrite (for_fill_all _ (fun i => i)) in E by (intros; rewrite ?zlen_alloc by lia; reflexivity).
    injection E as <- <-. split; [reflexivity|]. intros i Hi. cbn [missing_at]. rewrite nthZ_map, nthZ_zseq by lia. cbn [option_map]. f_equal. apply Z.ltb_ge. lia.
Qed.
Print Assumptions C07_toIndexedOptionArray64.
Example C07_toIndexedOptionArray64_ex : toIndexedOptionArray64 ex_bit = Ok (IndexedOption [-1; 1; -1; -1; 4; 5; -1; 7; -1] ex_vals).
Proof. vm_compute; reflexivity. Qed.
Example C07_toIndexedOptionArray64_ex2 : toIndexedOptionArray64 (BitMasked [77; 128] true false 9 ex_vals) = Ok (IndexedOption [-1; 1; -1; -1; 4; 5; -1; 7; 8] ex_vals).
Proof. vm_compute; reflexivity. Qed.

(** Converting to ByteMaskedArray keeps all values. *)
Theorem C07_toByteMaskedArray : forall c vs, ((exists m v l n c', c = BitMasked m v l n c') \/ (exists c', c = Unmasked c')) -> den c = Some vs ->
  exists mask vw c', toByteMaskedArray c = Ok (ByteMasked mask vw c') /\ den (ByteMasked mask vw c') = Some vs /\ zlen mask = zlen vs.
Proof. intros c vs Ho Hd. now apply to_byte_masked. Qed.
Print Assumptions C07_toByteMaskedArray.
Example C07_toByteMaskedArray_ex : toByteMaskedArray ex_bit = Ok (ByteMasked [1; 0; 1; 1; 0; 0; 1; 0; 1] false ex_vals).
Proof. vm_compute; reflexivity. Qed.

(** bytemask says which elements are missing. *)
Theorem C07_bytemask : forall c vs, option_or_indexed c -> den c = Some vs ->
  exists m, bytemask c = Ok m /\ zlen m = zlen vs /\ forall i, 0 <= i < zlen vs -> option_map (fun x => negb (x =? 0)) (nthZ m i) = missing_at c i.
Proof. intros c vs Ho Hd. apply bytemask_spec; [exact Hd|]. destruct Ho as [Ho|(index & c' & ->)]; [|reflexivity]. destruct c; try contradiction; reflexivity. Qed.
Print Assumptions C07_bytemask.
Example C07_bytemask_ex : bytemask ex_bit = Ok [1; 0; 1; 1; 0; 0; 1; 0; 1] /\ bytemask (IndexedOption [2; -1; -7; 0] ex_vals) = Ok [0; 1; 1; 0].
Proof. split; vm_compute; reflexivity. Qed.

(** project() keeps the elements that are not hidden, in order. *)
Theorem C07_project : forall c vs, option_or_indexed c -> den c = Some vs ->
  exists c' us, project c = Ok c' /\ den c' = Some us /\ picks vs (present c (zlen vs)) us.
Proof.
  intros c vs Ho Hd. destruct (project_den c vs Hd) as (c' & E & Hc'). { destruct Ho as [Ho|(index & c' & ->)]; [|reflexivity]. destruct c; try contradiction; reflexivity. }
  destruct (omap_nthZ_total vs (present c (zlen vs))) as [us Hus]. { intros i Hi. apply filter_In in Hi as [Hi _]. now apply In_zseq in Hi. }
  exists c', us. repeat split; [exact E|congruence|]. apply omap_picks in Hus. exact Hus.
Qed.
Print Assumptions C07_project.
Example C07_project_ex : project ex_bit = Ok (Numpy DInt [11; 14; 15; 17]) /\ present ex_bit 9 = [1; 4; 5; 7].
Proof. split; vm_compute; reflexivity. Qed.

(** project(mask) keeps the elements that are neither hidden nor masked out; a mask of a different length raises. *)
Theorem C07_project_mask : forall c vs mask, option_or_indexed c -> den c = Some vs -> zlen mask = zlen vs ->
  exists c' us, project_mask c mask = Ok c' /\ den c' = Some us /\ picks vs (filter (unmasked_at mask) (present c (zlen vs))) us.
Proof.
  intros c vs mask Ho Hd Hm. destruct (project_mask_den c vs mask Hd) as (c' & E & Hc'); [|exact Hm|]. { destruct Ho as [Ho|(index & c' & ->)]; [|reflexivity]. destruct c; try contradiction; reflexivity. }
  destruct (omap_nthZ_total vs (filter (unmasked_at mask) (present c (zlen vs)))) as [us Hus].
  { intros i Hi. apply filter_In in Hi as [Hi _]. apply filter_In in Hi as [Hi _]. now apply In_zseq in Hi. }
  exists c', us. repeat split; [exact E|congruence|]. apply omap_picks in Hus. exact Hus.
Qed.
Print Assumptions C07_project_mask.
Example C07_project_mask_ex : project_mask ex_bit [1; 0; 0; 1; 1; 0; 0; 0; 0] = Ok (Numpy DInt [11; 15; 17]).
Proof. vm_compute; reflexivity. Qed.
