(** C15: ak.sum, ak.prod, ak.count, ak.count_nonzero, ak.min, ak.max, ak.any and ak.all combine exactly the elements of every group, each once;
    a group without elements gives the identity, or a missing value if mask_identity is set. *)
From Verif Require Import Base BaseLemmas Content KCore Core Convert Option Axis KReduce Reduce SpecArray SpecForm SpecMerge SpecReduce PForm PReduceTop PReduceN3.
Local Open Scope string_scope. Local Open Scope list_scope. Local Open Scope Z_scope.

(** The whole property: for every array all of whose branches have the same number [d] of list levels, every axis and every reducer. *)
Definition C15_claim : Prop :=
  forall F is64 rr rc narrow refeq mfuel r mask c vs d axis kd,
  returns_positions r = false -> den c = Some vs -> union_free (form_of c) = true -> levels (form_of c) = Some d -> 0 <= axis < d ->
  exists n, forall fuel, (n <= fuel)%nat ->
  exists it, reduce F is64 rr rc narrow refeq mfuel r mask fuel c axis kd = Ok it /\ item_den it = Some (red F r mask kd (d - axis) (form_of c) (enumerate vs)).

(** Proved: the innermost axis (-1, the default of most uses, or d - 1), for arrays of any depth.
    Missing: the other axes of arrays with three or more levels, for which the code gives wrong results or errors (see the refutations below), arrays whose branches have different depths,
    union types, and the layouts excluded by [prepared] and [top_records]: lists inside an option type (or indexed) in an array whose offsets do
    not start at zero, and records with list fields inside a list. *)
Theorem C15_reduce_partial :
  forall F is64 rr rc narrow refeq mfuel r mask c vs d axis kd,
  returns_positions r = false -> den c = Some vs -> union_free (form_of c) = true -> levels (form_of c) = Some d -> axis = -1 \/ axis = d - 1 ->
  top_records (form_of c) = true -> (exists zb, prepared zb false c) ->
  exists n, forall fuel, (n <= fuel)%nat ->
  exists it, reduce F is64 rr rc narrow refeq mfuel r mask fuel c axis kd = Ok it /\ item_den it = Some (red F r mask kd 1 (form_of c) (enumerate vs)).
Proof.
  intros F is64 rr rc narrow refeq mfuel r mask c vs d axis kd Hr Hd Hu Hlv Hax Htop (zb & HP). exists (need c). intros fuel Hf.
  apply (reduce_innermost F is64 rr rc narrow refeq mfuel r mask zb c vs d axis kd); try assumption; rewrite Hr; [discriminate|exact HP].
Qed.
Print Assumptions C15_reduce_partial.

(** what this means for an array of lists of numbers: one value for every list *)
Theorem C15_lists_of_numbers : forall F is64 rr rc narrow refeq mfuel r c ls dt offsets data,
  returns_positions r = false -> c = ListOffset offsets (Numpy dt data) -> den c = Some (map VList ls) -> Forall (fun o => 0 <= o <= zlen data) offsets ->
  exists n, forall fuel, (n <= fuel)%nat ->
  exists it, reduce F is64 rr rc narrow refeq mfuel r false fuel c (-1) false = Ok it /\
    item_den it = Some (VList (map (fun l => reduced F r dt (enumerate l)) ls)).
Proof.
  intros F is64 rr rc narrow refeq mfuel r c ls dt offsets data Hr -> Hd Ho.
  destruct (C15_reduce_partial F is64 rr rc narrow refeq mfuel r false _ (map VList ls) 2 (-1) false Hr Hd eq_refl eq_refl (or_introl eq_refl) eq_refl) as (n & H).
  { exists false. split; [exact Ho|exact I]. }
  exists n. intros fuel Hf. destruct (H fuel Hf) as (it & E & D). exists it. split; [exact E|]. rewrite D. f_equal. cbn [red form_of]. change (has_levels (FList (FNum dt)) 1) with false. cbv iota. f_equal.
  clear. change (enumerate (map VList ls)) with (combine (zseq 0 (zlen (map VList ls))) (map VList ls)). replace (zlen (map VList ls)) with (0 + zlen (map VList ls)) by lia. generalize 0. induction ls as [|l ls IH]; intros a.
  - cbn [map]. rewrite combine_nil. reflexivity.
  - cbn [map]. rewrite zlen_cons. pose proof (zlen_nonneg (map VList ls)). rewrite zseq_cons by lia. cbn [combine map snd]. f_equal; [destruct (enumerate l); reflexivity|].
    rewrite <- (IH (a + 1)). replace (a + (zlen (map VList ls) + 1)) with (a + 1 + zlen (map VList ls)) by lia. reflexivity.
Qed.
Print Assumptions C15_lists_of_numbers.

(** Proved as well: the outer axis (0 or -2) of arrays with two levels, for every layout: any list, option-type, indexed and record nodes, sliced or not.
    Missing lists take no part, and shorter lists only in the positions they have. *)
Theorem C15_outer_axis_partial :
  forall F is64 rr rc narrow refeq mfuel r mask c vs axis kd,
  returns_positions r = false -> den c = Some vs -> union_free (form_of c) = true -> levels (form_of c) = Some 2 -> axis = 0 \/ axis = -2 ->
  exists n, forall fuel, (n <= fuel)%nat ->
  exists it, reduce F is64 rr rc narrow refeq mfuel r mask fuel c axis kd = Ok it /\ item_den it = Some (red F r mask kd 2 (form_of c) (enumerate vs)).
Proof.
  intros F is64 rr rc narrow refeq mfuel r mask c vs axis kd Hr Hd Hu Hlv Hax. exists (need c). intros fuel Hf.
  apply (reduce_outer F is64 rr rc narrow refeq mfuel r mask c vs axis kd); try assumption. congruence.
Qed.
Print Assumptions C15_outer_axis_partial.

(** what this means for an array of lists of numbers: one value for every position, of the elements that the lists have there *)
Definition longest (ls : list (list value)) : Z := fold_right Z.max 0 (map zlen ls).
Definition elements_at (ls : list (list value)) (j : Z) : list member :=
  flat_map (fun il => match nthZ (snd il) j with Some v => [(fst il, v)] | None => [] end) (combine (zseq 0 (zlen ls)) ls).
Theorem C15_columns_of_numbers : forall F is64 rr rc narrow refeq mfuel r c ls dt offsets data,
  returns_positions r = false -> c = ListOffset offsets (Numpy dt data) -> den c = Some (map VList ls) ->
  exists n, forall fuel, (n <= fuel)%nat ->
  exists it, reduce F is64 rr rc narrow refeq mfuel r false fuel c 0 false = Ok it /\
    item_den it = Some (VList (map (fun j => reduced F r dt (elements_at ls j)) (zseq 0 (longest ls)))).
Proof.
  intros F is64 rr rc narrow refeq mfuel r c ls dt offsets data Hr -> Hd.
  destruct (C15_outer_axis_partial F is64 rr rc narrow refeq mfuel r false _ (map VList ls) 0 false Hr Hd eq_refl eq_refl (or_introl eq_refl)) as (n & H).
  exists n. intros fuel Hf. destruct (H fuel Hf) as (it & E & D). exists it. split; [exact E|]. rewrite D. f_equal. cbn [red form_of]. change (has_levels (FList (FNum dt)) 2) with true. cbv iota. clear.
  assert (EW : width (enumerate (map VList ls)) = longest ls).
  { unfold width, enumerate, longest. f_equal. rewrite zlen_map. assert (G : forall ls a, map (fun m : Z * value => match snd m with VList l => zlen l | _ => 0 end) (combine (zseq a (a + zlen ls)) (map VList ls)) = map zlen ls).
    { clear. induction ls as [|l ls IH]; intros a; [cbn [map]; rewrite combine_nil; reflexivity|].
      rewrite zlen_cons. pose proof (zlen_nonneg ls). rewrite zseq_cons by lia. cbn [map combine snd]. f_equal. replace (a + (zlen ls + 1)) with (a + 1 + zlen ls) by lia. apply IH. }
    exact (G ls 0). }
  rewrite EW. f_equal. apply map_ext. intros j.
  assert (EC : column (enumerate (map VList ls)) j = elements_at ls j).
  { clear EW. unfold column, enumerate, elements_at. rewrite zlen_map. replace (zlen ls) with (0 + zlen ls) by lia. generalize 0. induction ls as [|l ls IH]; intros a; [cbn [map]; rewrite !combine_nil; reflexivity|].
    rewrite zlen_cons. pose proof (zlen_nonneg ls). rewrite zseq_cons by lia. cbn [map combine flat_map snd fst]. replace (a + (zlen ls + 1)) with (a + 1 + zlen ls) by lia. f_equal. apply IH. }
  rewrite EC. cbn [red]. unfold leaf. destruct (elements_at ls j); reflexivity.
Qed.
Print Assumptions C15_columns_of_numbers.

(** a concrete case: [[{x: [1, 2], None}], ...] *)
Definition ZF : floats := {| fadd := Z.add; fmul := Z.mul; flt := Z.ltb; fnz := fun x => negb (x =? 0); fzero := 0; fone := 1; finf := 1000000; fninf := -1000000 |}.
Definition run (r : reducer) (mask : bool) (c : content) (axis : Z) (kd : bool) : option value :=
  match reduce ZF (fun _ => true) (fun _ => false) (fun x => x) (fun _ => false) (fun _ _ => false) 9 r mask 20 c axis kd with Ok it => item_den it | _ => None end.
Definition expected (r : reducer) (mask : bool) (c : content) (axis : Z) (kd : bool) : option value :=
  match den c, levels (form_of c) with Some vs, Some d => Some (red ZF r mask kd (d - axis) (form_of c) (enumerate vs)) | _, _ => None end.
Definition C15_array : content :=
  ListOffset [0; 2; 2; 4] (IndexedOption [1; -1; 0; 2] (ListOffset [0; 2; 3; 3] (ByteMasked [0; 1; 0] false (Numpy DInt [5; 6; 7])))).
Example C15_ex_den : den C15_array = Some [VList [VList [VInt 7]; VNone]; VList []; VList [VList [VInt 5; VNone]; VList []]].
Proof. vm_compute. reflexivity. Qed.
Example C15_ex_hyps : union_free (form_of C15_array) = true /\ levels (form_of C15_array) = Some 3 /\ top_records (form_of C15_array) = true /\ prepared true false C15_array.
Proof. repeat split; try (right; split; reflexivity); try (left; reflexivity); discriminate. Qed.
Example C15_ex_sum : run Sum false C15_array (-1) false = Some (VList [VList [VInt 7; VNone]; VList []; VList [VInt 5; VInt 0]]).
Proof. vm_compute. reflexivity. Qed.
Example C15_ex_min : run (Min None) true C15_array (-1) true = Some (VList [VList [VList [VInt 7]; VNone]; VList []; VList [VList [VInt 5]; VList [VNone]]]).
Proof. vm_compute. reflexivity. Qed.
(** records: every field is reduced; lists of records too *)
Definition C15_record : content := ListA [2; 0] [3; 2] (Record (Some ["x"; "y"]) 3 [Numpy DInt [1; 2; 3]; Numpy DBool [1; 0; 1]]).
Example C15_ex_record : (exists zb, prepared zb false C15_record) /\ top_records (form_of C15_record) = true /\
  run Sum false C15_record 1 false = Some (VList [VRec [("x", VInt 3); ("y", VInt 1)]; VRec [("x", VInt 3); ("y", VInt 1)]]).
Proof. split; [exists true; repeat split|]. split; vm_compute; reflexivity. Qed.

(** axis 0: [[1, 2, 3], None, [], [4, None]], sliced, in option types of both kinds *)
Definition C15_two : content := ByteMasked [1; 0; 1; 1] true (ListA [1; 9; 5; 4] [4; 9; 5; 6] (IndexedOption [0; 0; 1; 2; 3; -1] (Numpy DInt [1; 2; 3; 4]))).
Example C15_ex_two : den C15_two = Some [VList [VInt 1; VInt 2; VInt 3]; VNone; VList []; VList [VInt 4; VNone]] /\ union_free (form_of C15_two) = true /\ levels (form_of C15_two) = Some 2 /\
  run Sum false C15_two 0 false = Some (VList [VInt 5; VInt 2; VInt 3]) /\ run Count false C15_two (-2) true = Some (VList [VList [VInt 2; VInt 1; VInt 1]]).
Proof. repeat split; vm_compute; reflexivity. Qed.
Example C15_ex_columns : den (ListOffset [1; 3; 3; 4] (Numpy DInt [9; 5; 6; 7])) = Some (map VList [[VInt 5; VInt 6]; []; [VInt 7]]) /\
  map (fun j => reduced ZF Sum DInt (elements_at [[VInt 5; VInt 6]; []; [VInt 7]] j)) (zseq 0 (longest [[VInt 5; VInt 6]; []; [VInt 7]])) = [VInt 12; VInt 6] /\
  run Sum false (ListOffset [1; 3; 3; 4] (Numpy DInt [9; 5; 6; 7])) 0 false = Some (VList [VInt 12; VInt 6]).
Proof. repeat split; vm_compute; reflexivity. Qed.

(** ** Other axes *)
(** [[[1, 2]], [[]], [[3, 4]]] along axis 1 should be [[1, 2], [], [3, 4]]: the kernel that finds the gaps between groups puts the empty one last *)
Definition C15_gap : content := ListOffset [0; 1; 2; 3] (ListOffset [0; 2; 2; 4] (Numpy DInt [1; 2; 3; 4])).
Theorem C15_middle_axis_refuted :
  run Sum false C15_gap 1 false = Some (VList [VList [VInt 1; VInt 2]; VList [VInt 3; VInt 4]; VList []]) /\
  expected Sum false C15_gap 1 false = Some (VList [VList [VInt 1; VInt 2]; VList []; VList [VInt 3; VInt 4]]).
Proof. vm_compute. split; reflexivity. Qed.
Print Assumptions C15_middle_axis_refuted.
(** [[[[1]], [[2]]], [[[3], [4]]]] along axis 0 should be [[[4], [4]], [[2]]] *)
Definition C15_deep : content := ListOffset [0; 2; 3] (ListOffset [0; 1; 2; 4] (ListOffset [0; 1; 2; 3; 4] (Numpy DInt [1; 2; 3; 4]))).
Theorem C15_outer_axis_refuted :
  run Sum false C15_deep 0 false = Some (VList [VList [VList [VInt 4]; VList []]; VList [VList [VInt 4; VInt 2]]]) /\
  expected Sum false C15_deep 0 false = Some (VList [VList [VList [VInt 4]; VList [VInt 4]]; VList [VList [VInt 2]]]).
Proof. vm_compute. split; reflexivity. Qed.
Print Assumptions C15_outer_axis_refuted.
(** so the whole property does not hold *)
Theorem C15_all_axes_refuted : ~ C15_claim.
Proof.
  intros H. destruct (H ZF (fun _ => true) (fun _ => false) (fun x => x) (fun _ => false) (fun _ _ => false) 9%nat Sum false C15_gap
    [VList [VList [VInt 1; VInt 2]]; VList [VList []]; VList [VList [VInt 3; VInt 4]]] 3 1 false eq_refl eq_refl eq_refl eq_refl ltac:(lia)) as (n & Hn).
  destruct (Hn (Nat.max n 20) (Nat.le_max_l _ _)) as (it & E & D).
  assert (EM : exists k, Nat.max n 20 = (3 + k)%nat) by (exists (Nat.max n 20 - 3)%nat; lia). destruct EM as (k & EM). rewrite EM in E. vm_compute in E. injection E as <-. vm_compute in D. discriminate.
Qed.
Print Assumptions C15_all_axes_refuted.

(** ** Layouts *)
(** the same array, sliced: lists inside an option type in a list array whose offsets do not start at zero *)
Definition C15_sliced : content := ListOffset [1; 2] (IndexedOption [0; 1; -1] (ListOffset [0; 1; 2] (Numpy DInt [1; 2]))).
Theorem C15_sliced_options_refuted : den C15_sliced = Some [VList [VList [VInt 2]]] /\
  reduce ZF (fun _ => true) (fun _ => false) (fun x => x) (fun _ => false) (fun _ _ => false) 9 Sum false 20 C15_sliced (-1) false =
  Err "reduce_next with unbranching depth > negaxis expects a ListOffsetArray64 whose offsets start at zero".
Proof. vm_compute. split; reflexivity. Qed.
Print Assumptions C15_sliced_options_refuted.
(** missing records with list fields, and lists (not in 64-bit offsets) of records with list fields *)
Definition C15_missing_records : content := IndexedOption [0; -1] (Record (Some ["x"]) 1 [ListOffset [0; 1] (Numpy DInt [3])]).
Definition C15_listarray_records : content := ListA [0] [1] (Record None 1 [ListOffset [0; 2] (Numpy DInt [3; 4])]).
Theorem C15_records_of_lists_refuted : forall c, c = C15_missing_records \/ c = C15_listarray_records ->
  reduce ZF (fun _ => true) (fun _ => false) (fun x => x) (fun _ => false) (fun _ _ => false) 9 Sum false 20 c (-1) false =
  Err "reduce_next with unbranching depth > negaxis is only expected to return RegularArray or ListOffsetArray64".
Proof. intros c [-> | ->]; vm_compute; reflexivity. Qed.
Print Assumptions C15_records_of_lists_refuted.
(** lists of regular arrays with an empty list, along axis 1 *)
Definition C15_regular : content := ListOffset [0; 1; 1] (Regular 2 1 (Regular 1 2 (Numpy DInt [1; 2]))).
Theorem C15_regular_refuted :
  reduce ZF (fun _ => true) (fun _ => false) (fun x => x) (fun _ => false) (fun _ _ => false) 9 Sum false 20 C15_regular 1 false =
  Err "cannot convert to RegularArray because subarray lengths are not regular".
Proof. vm_compute. reflexivity. Qed.
Print Assumptions C15_regular_refuted.
