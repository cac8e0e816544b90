(** C21: fillna replaces exactly the missing values. *)
From Verif Require Import Base BaseLemmas OmapLemmas LoopLemmas Content SpecArray SpecForm SpecMerge SpecFillna KCore Core Convert KOption Option KMerge Merge Fillna
  PCore PCarry PList POption PForm PTidy PPromote PMergeable PMergeK PMerge PMergeC PMergeR PMergeM PSimplify PLift PFillna ThmC18.
Local Open Scope string_scope.
Local Open Scope list_scope.
Local Open Scope Z_scope.

(** [value] is an array with the single element [w].  Up to the conversions of numbers to a common type, fillna replaces every
    missing value by w, at every depth, and keeps everything else; it can only fail where a merge of 32-bit indexes overflows ([narrow])
    or the array is so large that a union may get more than 127 contents. *)
Theorem C21_fillna : forall rc narrow refeq value w c vs,
  (forall a b, refeq a b = true -> a = b) ->
  den value = Some [w] -> tidy value -> option_free (form_of value) = true ->
  den c = Some vs -> tidy c -> one_option (form_of c) = true ->
  exists n, forall fuel, (n <= fuel)%nat ->
  match fillna rc narrow refeq fuel value c with
  | Ok c' => exists vs', den c' = Some vs' /\ Forall2 (promotes rc) (map (fill w) vs) vs' /\ option_free (form_of c') = true
  | Err _ => (exists x, narrow x = true) \/ 127 < Z.of_nat (weight c * (3 + weight value))
  | UB => False
  end.
Proof.
  intros rc narrow refeq value w c vs Hr Hv Tv Ov Hd Ht Ho. exists (weight c * (3 + weight value) + 1)%nat. intros fuel Hf.
  pose proof (fillna_ok rc narrow refeq Hr fuel value w Hv Tv Ov c vs Hd Ht Ho Hf) as H. unfold fout, fexcuse in H. destruct (fillna rc narrow refeq fuel value c); [|exact H|exact H].
  destruct H as (vs' & A & B & _ & C & _). exists vs'. split; [exact A|]. split; [|exact C]. clear -B. induction B; simpl; constructor; assumption.
Qed.
Print Assumptions C21_fillna.

(** an array of lists of {"x": option, "y": tuple} records, filled with 9 *)
Definition ex_array : content :=
  ListOffset [0; 2; 2; 3] (Record (Some ["x"; "y"]) 3 [IndexedOption [1; -1; 0] (Numpy DInt [10; 20]); Numpy DBool [1; 0; 1]]).
Example C21_fillna_example :
  den ex_array = Some [VList [VRec [("x", VInt 20); ("y", VBool true)]; VRec [("x", VNone); ("y", VBool false)]]; VList []; VList [VRec [("x", VInt 10); ("y", VBool true)]]]
  /\ tidy ex_array /\ one_option (form_of ex_array) = true /\
  match fillna (fun z => z) (fun _ => false) (fun _ _ => false) 30 (Numpy DInt [9]) ex_array with
  | Ok c' => den c' = Some [VList [VRec [("x", VInt 20); ("y", VBool true)]; VRec [("x", VInt 9); ("y", VBool false)]]; VList []; VList [VRec [("x", VInt 10); ("y", VBool true)]]]
  | _ => False end.
Proof.
  split; [reflexivity|]. split; [|split; [reflexivity|vm_compute; reflexivity]]. simpl. split; [discriminate|]. split; [repeat constructor; simpl; intuition discriminate|]. split; [repeat constructor|]. auto.
Qed.

(** Options inside options: only the missing elements of the outermost level are replaced, whatever the content is. *)
Theorem C21_fillna_outer : forall rc narrow refeq value w c inner index vs ws,
  (forall a b, refeq a b = true -> a = b) ->
  den value = Some [w] -> simplifiable [inner; value] ->
  c = IndexedOption index inner \/ (toIndexedOptionArray64 c = Ok (IndexedOption index inner) /\ forall u, c <> Unmasked u) ->
  den c = Some vs -> den inner = Some ws -> ~ In VNone ws ->
  exists n, forall fuel, (n <= fuel)%nat ->
  match fillna rc narrow refeq fuel value c with
  | Ok c' => exists vs', den c' = Some vs' /\ Forall2 (promotes rc) (map (fill_outer w) vs) vs'
  | Err _ => (exists x, narrow x = true) \/ 127 < Z.of_nat (weight inner + weight value)
  | UB => False
  end.
Proof.
  intros rc narrow refeq value w c inner index vs ws Hr Hv HS HC Hd Hw HN. destruct (to_leaf_ok _ HS) as (OF & HL). exists (sumw [inner; value] + 1)%nat. intros fuel Hf.
  assert (Hd' : den (IndexedOption index inner) = Some vs /\ fillna rc narrow refeq fuel value c = IndexedOption_fillna rc narrow refeq fuel value index inner).
  { destruct HC as [->|[HC HU]]; [split; [exact Hd|reflexivity]|]. destruct c; try discriminate.
    - destruct (to_indexed_option _ _ Hd) as (i & c' & E & D & _); [eauto|]. rewrite HC in E. injection E as <- <-. split; [exact D|]. cbn [fillna]. rewrite HC. reflexivity.
    - destruct (to_indexed_option _ _ Hd) as (i & c' & E & D & _); [eauto 10|]. rewrite HC in E. injection E as <- <-. split; [exact D|]. cbn [fillna]. rewrite HC. reflexivity.
    - exfalso. eapply HU. reflexivity. }
  destruct Hd' as (D & ->). unfold IndexedOption_fillna. rewrite (den_length _ _ Hv). change (negb (zlen [w] =? 1)) with false. cbv iota. cbn [den] in D. rewrite Hw in D.
  destruct (fill_union value w Hv (fun v u => u = fill_outer w v) index inner vs ws Hw D) as (tags & idx & us & -> & EI & EU & Du & Fu); [reflexivity|intros v Hin; destruct v; try reflexivity; contradiction|].
  cbn [bind]. rewrite EI. cbn [bind]. rewrite EU. cbn [bind].
  assert (us = map (fill_outer w) vs) as -> by (clear -Fu; induction Fu; simpl; congruence).
  pose proof (simplify_ok rc narrow true true fuel OF refeq tags idx [inner; value] _ Hr Du HL Hf) as H. destruct (simplify_uniontype _ _ _ _ _ _ _ _ _); [exact H| |exact H].
  destruct H as [H|H]; [left; exact H|right]. unfold sumw in H. simpl in H. lia.
Qed.
Print Assumptions C21_fillna_outer.
Example C21_fillna_outer_example :
  let c := ByteMasked [1; 0] true (ListOffset [0; 2; 3] (IndexedOption [0; -1; 1] (Numpy DInt [1; 2]))) in
  let value := ListOffset [0; 1] (Numpy DInt [7]) in
  den c = Some [VList [VInt 1; VNone]; VNone] /\ den value = Some [VList [VInt 7]] /\
  toIndexedOptionArray64 c = Ok (IndexedOption [0; -1] (ListOffset [0; 2; 3] (IndexedOption [0; -1; 1] (Numpy DInt [1; 2])))) /\
  simplifiable [ListOffset [0; 2; 3] (IndexedOption [0; -1; 1] (Numpy DInt [1; 2])); value] /\
  match fillna (fun z => z) (fun _ => false) (fun _ _ => false) 30 value c with Ok c' => den c' = Some [VList [VInt 1; VNone]; VList [VInt 7]] | _ => False end.
Proof.
  split; [reflexivity|]. split; [reflexivity|]. split; [reflexivity|]. split; [|vm_compute; reflexivity]. split; [repeat constructor|]. left. repeat constructor.
Qed.

(** With an option inside an option, missing values of the inner level stay missing. *)
Theorem C21_nested_refuted : exists c vs value w,
  den value = Some [w] /\ tidy value /\ option_free (form_of value) = true /\ den c = Some vs /\ tidy c /\
  match fillna (fun z => z) (fun _ => false) (fun _ _ => false) 40 value c with Ok c' => den c' <> Some (map (fill w) vs) /\ den c' = Some vs | _ => False end.
Proof.
  exists (IndexedOption [0] (ListOffset [0; 2] (IndexedOption [0; -1] (Numpy DInt [1])))), [VList [VInt 1; VNone]], (Numpy DInt [9]), (VInt 9).
  split; [reflexivity|]. split; [exact I|]. split; [reflexivity|]. split; [reflexivity|]. split; [exact I|]. vm_compute. split; [discriminate|reflexivity].
Qed.
Print Assumptions C21_nested_refuted.

(** a value that is not a single element is refused *)
Theorem C21_one_value : forall rc narrow refeq value c index, length_ value <> 1 -> forall fuel,
  exists msg, fillna rc narrow refeq fuel value (IndexedOption index c) = Err msg.
Proof.
  intros rc narrow refeq value c index H fuel. cbn [fillna]. unfold IndexedOption_fillna. destruct (Z.eqb_spec (length_ value) 1); [contradiction|]. eexists; reflexivity.
Qed.
Print Assumptions C21_one_value.
Example C21_one_value_example : exists msg, fillna (fun z => z) (fun _ => false) (fun _ _ => false) 5 (Numpy DInt [1; 2]) (IndexedOption [-1; 0] (Numpy DInt [4])) = Err msg.
Proof. apply C21_one_value. vm_compute. discriminate. Qed.
