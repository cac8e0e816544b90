(** C12: ak.combinations(array, n, replacement, axis) gives for each list at that axis the increasing n-tuples of its
    elements, each once, in lexicographic order of positions. *)
From Verif Require Import Base BaseLemmas Content KCore Core Convert Option Axis KCombinations Combinations SpecArray SpecForm SpecAxis SpecCombinations
  PForm PAxis PCombos PCombinations.
From Coq Require Import Sorted.
Local Open Scope string_scope.

(** what [combos] is: the tuples of positions are exactly the increasing ones ... *)
Theorem C12_every_tuple : forall n replacement len t,
  In t (combos n replacement (zseq 0 len)) <-> length t = n /\ increasing replacement t /\ Forall (fun i => 0 <= i < len) t.
Proof. intros. apply combos_members. Qed.
Print Assumptions C12_every_tuple.
(** ... in lexicographic order, so each appears once ... *)
Theorem C12_lexicographic : forall n replacement len, StronglySorted lex (combos n replacement (zseq 0 len)).
Proof. intros. apply combos_sorted. Qed.
Print Assumptions C12_lexicographic.
Theorem C12_once : forall n replacement len, NoDup (combos n replacement (zseq 0 len)).
Proof.
  intros n r len. pose proof (combos_sorted n r 0 len) as H. induction H as [|x l H IH HF]; constructor; [|exact IH].
  intros Hin. rewrite Forall_forall in HF. exact (lex_irrefl _ (HF _ Hin)).
Qed.
Print Assumptions C12_once.
(** ... and the combinations of any list are the elements at those positions. *)
Theorem C12_elements : forall n replacement (l : list value),
  combos n replacement l = map (map (fun i => match nthZ l i with Some v => v | None => VNone end)) (combos n replacement (zseq 0 (zlen l))).
Proof.
  intros n r l. pose proof (zlen_nonneg l). rewrite <- combos_map. f_equal. pose proof (slice_getd l 0 (zlen l) ltac:(lia) ltac:(lia)) as E. rewrite slice_full in E. exact E.
Qed.
Print Assumptions C12_elements.

(** the output size computed beforehand is their number *)
Theorem C12_size : forall n replacement (l : list value), 1 <= n -> combinationslen n replacement (zlen l) = zlen (combos (Z.to_nat n) replacement l).
Proof. intros. apply combinationslen_spec. assumption. Qed.
Print Assumptions C12_size.

(** the method.  Hypothesis on RegularArrays: see C12_regular_refuted. *)
Theorem C12_combinations : forall is64 c vs n replacement keys axis, den c = Some vs -> 0 < axis -> has_axis axis (form_of c) = true ->
  1 <= n -> keys_ok keys n = true -> replacement = true \/ (forall size, In size (regular_sizes c) -> size = 0 \/ n <= size) ->
  exists k, forall fuel, (k <= fuel)%nat ->
  exists c', combinations is64 fuel c n replacement keys axis 0 = Ok c' /\ den c' = Some (map (lift (combinations_of keys n replacement) axis) vs).
Proof.
  intros is64 c vs n r keys axis Hd Ha Hh Hn Hk Hs. exists (need c). intros fuel Hf.
  assert (HS : sizes_fit n r c) by (destruct Hs as [Hs|Hs]; [left; exact Hs|right; apply Forall_forall; exact Hs]).
  pose proof (combinations_good is64 fuel c n r keys axis 0 vs Hf Hd ltac:(lia) Hn Hk HS) as G. rewrite Z.sub_0_r, Hh in G. exact G.
Qed.
Print Assumptions C12_combinations.

(** axis 0: combinations of the elements of the array itself (an array of unknown type has none) *)
Theorem C12_combinations_axis0 : forall is64 c vs n replacement keys fuel, den c = Some vs -> 1 <= n -> keys_ok keys n = true -> (1 <= fuel)%nat ->
  exists c', combinations is64 fuel c n replacement keys 0 0 = Ok c' /\ den c' = Some (map (mkrow keys) (combos (Z.to_nat n) replacement vs)).
Proof.
  intros is64 c vs n r keys fuel Hd Hn Hk Hf. destruct fuel; [lia|]. pose proof (combinations_axis0_good c vs n r keys Hn Hk Hd) as G.
  cbn [combinations]. destruct (Z.ltb_spec n 1); [lia|]. destruct c; try exact G.
  cbn [den] in Hd. injection Hd as <-. exists Empty. split; [reflexivity|]. replace (Z.to_nat n) with (S (Z.to_nat (n - 1))) by lia. reflexivity.
Qed.
Print Assumptions C12_combinations_axis0.

(** n < 1 is an error *)
Theorem C12_n_positive : forall is64 c n replacement keys axis fuel, n < 1 -> (1 <= fuel)%nat -> exists m, combinations is64 fuel c n replacement keys axis 0 = Err m.
Proof. intros is64 c n r keys axis fuel Hn Hf. destruct fuel; [lia|]. cbn [combinations]. destruct (Z.ltb_spec n 1); [eauto|lia]. Qed.
Print Assumptions C12_n_positive.

(** an axis that some branch of the type does not have is an error *)
Theorem C12_out_of_range : forall is64 c vs n replacement keys axis, den c = Some vs -> 0 < axis -> has_axis axis (form_of c) = false ->
  1 <= n -> keys_ok keys n = true -> replacement = true \/ (forall size, In size (regular_sizes c) -> size = 0 \/ n <= size) ->
  exists k, forall fuel, (k <= fuel)%nat -> exists m, combinations is64 fuel c n replacement keys axis 0 = Err m.
Proof.
  intros is64 c vs n r keys axis Hd Ha Hh Hn Hk Hs. exists (need c). intros fuel Hf.
  assert (HS : sizes_fit n r c) by (destruct Hs as [Hs|Hs]; [left; exact Hs|right; apply Forall_forall; exact Hs]).
  pose proof (combinations_good is64 fuel c n r keys axis 0 vs Hf Hd ltac:(lia) Hn Hk HS) as G. rewrite Z.sub_0_r, Hh in G. exact G.
Qed.
Print Assumptions C12_out_of_range.

(** For a RegularArray with 0 < size < n and no replacement the claim fails: RegularArray.cpp:1219-1224 allocates the scratch
    buffers toindex and fromindex with size entries, and the kernel writes n entries. *)
Theorem C12_regular_refuted :
  den (Regular 2 0 (Numpy DInt [1; 2; 3; 4])) = Some [VList [VInt 1; VInt 2]; VList [VInt 3; VInt 4]] /\
  combinations (fun _ => true) 10 (Regular 2 0 (Numpy DInt [1; 2; 3; 4])) 3 false None 1 0 = UB.
Proof. split; vm_compute; reflexivity. Qed.
Print Assumptions C12_regular_refuted.

(** non-vacuity *)
Definition comb_example : content :=
  ListA [2; 0; 5] [5; 0; 6] (IndexedOption [0; -1; 2; 1; 0; -1]
    (Record (Some ["x"; "y"]) 3 [ListOffset [1; 4; 4; 5] (Numpy DInt [9; 1; 2; 3; 4]); Regular 2 0 (Numpy DInt [1; 2; 3; 4; 5; 6])])).
Example C12_ex : exists vs, den comb_example = Some vs /\ has_axis 2 (form_of comb_example) = true /\ (forall size, In size (regular_sizes comb_example) -> size = 0 \/ 2 <= size) /\
  nthZ (map (lift (combinations_of None 2 false) 2) vs) 0 =
  Some (VList [VRec [("x", VList []); ("y", VList [VTuple [VInt 5; VInt 6]])];
               VRec [("x", VList []); ("y", VList [VTuple [VInt 3; VInt 4]])];
               VRec [("x", VList [VTuple [VInt 1; VInt 2]; VTuple [VInt 1; VInt 3]; VTuple [VInt 2; VInt 3]]); ("y", VList [VTuple [VInt 1; VInt 2]])]]).
Proof. eexists. split; [vm_compute; reflexivity|]. split; [reflexivity|]. split; [|vm_compute; reflexivity]. simpl. intros size [<-|[]]. lia. Qed.
Example C12_ex_run : exists c', combinations (fun _ => true) 10 comb_example 2 false None 1 0 = Ok c' /\
  match den c' with Some (VList l :: _) => zlen l = 3 | _ => False end.
Proof. eexists. split; vm_compute; reflexivity. Qed.
Example C12_ex_tuples : combos 2 true [1; 2; 3] = [[1; 1]; [1; 2]; [1; 3]; [2; 2]; [2; 3]; [3; 3]] /\ combinationslen 2 true 3 = 6.
Proof. split; reflexivity. Qed.
