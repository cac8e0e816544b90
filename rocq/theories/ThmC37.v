(** C37: the type of an array tells what its values look like.

    The specification (SpecTypes.v) says which values a type has; of the model it uses only the names of the types. *)
From Coq Require Import String Permutation.
From Verif Require Import Base BaseLemmas OmapLemmas Content KRange KCore Core KOption Option KAxis Axis SpecArray Getitem Types SpecTypes PCore PForm PTypes PTypes2 PTypes3.
Local Open Scope string_scope.
Local Open Scope list_scope.
Local Open Scope Z_scope.

(** ** Values have the type *)
(** Every value of a valid array is a value of the type that the array reports. *)
Theorem C37_values_have_the_type c vs : den c = Some vs -> Forall (has_type (type_of c)) vs.
Proof. apply den_typed. Qed.
Print Assumptions C37_values_have_the_type.
Definition C37_array : content :=
  Record (Some ["x"; "y"]) 3 [ListOffset [0; 2; 2; 3] (Numpy DInt [5; 6; 7]); IndexedOption [1; -1; 0] (Union [0; 1] [0; 0] [Numpy DBool [1]; Regular 2 0 (Numpy DReal [8; 9])])].
Example C37_values_have_the_type_ex :
  den C37_array = Some [VRec [("x", VList [VInt 5; VInt 6]); ("y", VList [VReal 8; VReal 9])]; VRec [("x", VList []); ("y", VNone)]; VRec [("x", VList [VInt 7]); ("y", VBool true)]] /\
  type_of C37_array = YRecord (Some ["x"; "y"]) [YList (YNum DInt); YOption (YUnion [YNum DBool; YRegular (YNum DReal) 2])].
Proof. split; vm_compute; reflexivity. Qed.
(** The type excludes other values: *)
Example C37_not_every_value : ~ has_type (type_of C37_array) (VRec [("x", VList [VInt 5]); ("y", VList [VReal 8])]).
Proof.
  cbn. intros (row & E & _ & Hr). destruct row as [|a [|b [|e row]]]; cbn in Hr; try tauto. injection E as <- <-.
  destruct Hr as (_ & [H|[H|[(l & E & HL & _)|[]]]] & _); [discriminate|contradiction|]. injection E as <-. discriminate.
Qed.

(** ** Selecting rows does not change the type *)
Theorem C37_range_keeps_type c start stop c' : getitem_range c start stop = Ok c' -> type_of c' = type_of c.
Proof.
  unfold getitem_range. intros H. destruct c; [injection H as <-; reflexivity|..]; destruct (regularize_rangeslice _ _ _ _ _ _) as [a b]; try (destruct (_ <? b); [discriminate|]); eapply range_type; exact H.
Qed.
Print Assumptions C37_range_keeps_type.
Theorem C37_selection_keeps_type c positions allow_lazy c' : carry c positions allow_lazy = Ok c' -> type_of c' = type_of c.
Proof. apply carry_type. Qed.
Print Assumptions C37_selection_keeps_type.
Example C37_selection_ex :
  (exists c', carry C37_array [2; 0; 2] false = Ok c' /\ type_of c' = type_of C37_array) /\
  (exists c', getitem_range C37_array 1 (-1) = Ok c' /\ den c' = Some [VRec [("x", VList []); ("y", VNone)]]).
Proof. split; eexists; split; vm_compute; reflexivity. Qed.
(** One element: a number has the type of the items or of one of its alternatives; a list has the items the type says; a record
    has its type; None appears only in an option. *)
Theorem C37_element_has_type c i it : getitem_at c i = Ok it -> item_typed (type_of c) it.
Proof.
  unfold getitem_at. intros H. destruct c; try discriminate H; (destruct (negb _); [discriminate|]); try (destruct (_ <=? _); [discriminate|]); eapply at_type; exact H.
Qed.
Print Assumptions C37_element_has_type.
Example C37_element_ex : exists c, getitem_at (ListOffset [0; 1; 3] C37_array) (-1) = Ok (IArray c) /\ type_of c = type_of C37_array.
Proof. eexists. split; vm_compute; reflexivity. Qed.

(** ** Comparing types *)
(** equal() is an equivalence of types whose record keys are words. *)
Theorem C37_equal_is_an_equivalence_partial :
  (forall t, proper t -> ty_equal t t = true) /\
  (forall t u, plain_keys t -> plain_keys u -> ty_equal t u = true -> ty_equal u t = true) /\
  (forall t u w, plain_keys t -> plain_keys u -> plain_keys w -> ty_equal t u = true -> ty_equal u w = true -> ty_equal t w = true).
Proof. split; [exact equal_refl|]. split; [exact (fun t => equal_sym t)|]. exact (fun t => equal_trans t). Qed.
Print Assumptions C37_equal_is_an_equivalence_partial.
(** Types that compare equal have the same values, up to the order of the fields in records. *)
Theorem C37_equal_types_have_the_same_values_partial t u :
  plain_keys t -> plain_keys u -> ty_equal t u = true ->
  (forall v, has_type t v -> exists w, same_value v w /\ has_type u w) /\
  (forall w, has_type u w -> exists v, same_value w v /\ has_type t v).
Proof. intros Ht Hu E. split; [exact (equal_values t u Ht Hu E)|]. exact (equal_values u t Hu Ht (equal_sym t u Ht Hu E)). Qed.
Print Assumptions C37_equal_types_have_the_same_values_partial.
Definition C37_t : ty := YRecord (Some ["x"; "y"]) [YOption (YOption (YNum DInt)); YList (YNum DBool)].
Definition C37_u : ty := YRecord (Some ["y"; "x"]) [YList (YNum DBool); YOption (YNum DInt)].
Ltac plain := cbn; repeat split; repeat constructor; cbn; intuition congruence.
Example C37_equal_ex : plain_keys C37_t /\ plain_keys C37_u /\ proper C37_t /\ ty_equal C37_t C37_u = true /\
  has_type C37_t (VRec [("x", VNone); ("y", VList [])]) /\ has_type C37_u (VRec [("y", VList []); ("x", VNone)]).
Proof.
  split; [plain|]. split; [plain|]. split; [cbn; auto|]. split; [vm_compute; reflexivity|].
  split; cbn; [exists [VNone; VList []]|exists [VList []; VNone]]; cbn; (split; [reflexivity|]); (split; [reflexivity|]); repeat split; auto; exists []; auto.
Qed.
(** Without the condition on keys, a record type can equal one with other keys, and not the other way round: the key "0" is
    looked up as the position 0. *)
Definition C37_digits : ty := YRecord (Some ["0"; "y"]) [YNum DInt; YNum DInt].
Definition C37_words : ty := YRecord (Some ["x"; "y"]) [YNum DInt; YNum DInt].
Theorem C37_equal_refuted :
  ty_equal C37_digits C37_words = true /\ ty_equal C37_words C37_digits = false /\
  exists v, has_type C37_digits v /\ forall w, has_type C37_words w -> ~ same_value v w.
Proof.
  split; [vm_compute; reflexivity|]. split; [vm_compute; reflexivity|]. exists (VRec [("0", VInt 1); ("y", VInt 2)]). split.
  - exists [VInt 1; VInt 2]. repeat split.
  - intros w (row & -> & _ & Hr) HS. destruct row as [|a [|b [|? ?]]]; cbn in Hr; try tauto. cbn [mkrow combine] in HS. inversion HS; subst.
    assert (Hin : In "x" (map fst fs')) by (eapply Permutation_in; [apply Permutation_map, Permutation_sym; eassumption|left; reflexivity]).
    repeat match goal with H : Forall2 _ (_ :: _) _ |- _ => inversion H; clear H; subst | H : Forall2 _ [] _ |- _ => inversion H; clear H; subst end.
    cbn in Hin. repeat match goal with H : _ = fst _ /\ _ |- _ => destruct H as [H _] end. destruct Hin as [Hin|[Hin|[]]]; rewrite <- Hin in *; cbn in *; congruence.
Qed.
Print Assumptions C37_equal_refuted.

(** ** An empty array of a given type *)
Theorem C37_empty t : proper t -> exists c, empty_of t = Ok c /\ type_of c = t /\ den c = Some [].
Proof. apply empty_ok. Qed.
Print Assumptions C37_empty.
Example C37_empty_ex : proper (type_of C37_array).
Proof. cbn. intuition (try lia; try discriminate). Qed.

(** ** Simplifying options keeps the type *)
Theorem C37_simplify_keeps_type_partial c c' :
  simplify_optiontype c = Ok c' -> proper (type_of c) -> (forall index d, c <> Unmasked (Indexed index d)) ->
  ty_equal (type_of c) (type_of c') = true.
Proof. apply simplify_type. Qed.
Print Assumptions C37_simplify_keeps_type_partial.
Example C37_simplify_ex :
  simplify_optiontype (ByteMasked [1; 0; 1] true (IndexedOption [1; -1; -1] (Numpy DInt [3; 4]))) = Ok (IndexedOption [1; -1; -1] (Numpy DInt [3; 4])) /\
  type_of (ByteMasked [1; 0; 1] true (IndexedOption [1; -1; -1] (Numpy DInt [3; 4]))) = YOption (YOption (YNum DInt)).
Proof. split; vm_compute; reflexivity. Qed.
(** The excluded case loses the option: an UnmaskedArray of an IndexedArray becomes the IndexedArray. *)
Theorem C37_simplify_keeps_type_refuted :
  exists c c', simplify_optiontype c = Ok c' /\ type_of c = YOption (YNum DInt) /\ type_of c' = YNum DInt /\ ty_equal (type_of c) (type_of c') = false.
Proof. exists (Unmasked (Indexed [1; 0] (Numpy DInt [3; 4]))), (Indexed [1; 0] (Numpy DInt [3; 4])). repeat split; vm_compute; reflexivity. Qed.
Print Assumptions C37_simplify_keeps_type_refuted.

(** ** Depth *)
(** If all alternatives agree, the reported depth is the number of list levels in the type, and the values are nested that deep. *)
Theorem C37_depth_partial c d :
  depth_of (type_of c) = Some d ->
  purelist_depth c = d /\ forall vs, den c = Some vs -> Forall (nested (Z.to_nat d)) vs.
Proof.
  intros Hd. split; [apply purelist_type; exact Hd|]. intros vs Hv. eapply Forall_impl; [|apply den_typed; exact Hv]. intros v. apply nested_type. exact Hd.
Qed.
Print Assumptions C37_depth_partial.
Definition C37_lists : content := ListOffset [0; 2; 3] (IndexedOption [0; -1; 1] (Union [0; 1] [0; 0] [Regular 1 0 (Numpy DInt [4]); ListA [1] [2] (Numpy DBool [0; 1])])).
Example C37_depth_ex : depth_of (type_of C37_lists) = Some 3 /\ den C37_lists = Some [VList [VList [VInt 4]; VNone]; VList [VList [VBool true]]].
Proof. split; vm_compute; reflexivity. Qed.
(** If they do not agree the code means to report -1, but lists around the union add to it: three levels of lists around a
    union of numbers and lists are reported as depth 2, that of a list of lists of numbers. *)
Theorem C37_depth_refuted : exists c, type_of c = YList (YList (YList (YUnion [YNum DInt; YList (YNum DInt)]))) /\ purelist_depth c = 2.
Proof. exists (ListOffset [0] (ListOffset [0] (ListOffset [0] (Union [] [] [Numpy DInt []; ListOffset [0] (Numpy DInt [])])))). split; vm_compute; reflexivity. Qed.
Print Assumptions C37_depth_refuted.

(** The least and greatest depth, through records and unions. *)
Theorem C37_minmax_depth c :
  Forall (fun d => d <= kMaxInt64) (branches (type_of c)) ->
  is_least (fst (minmax_depth c)) (branches (type_of c)) /\ is_greatest (snd (minmax_depth c)) (branches (type_of c)) /\
  forall vs n, den c = Some vs -> In n (flat_map (number_depths 1) vs) -> fst (minmax_depth c) <= n <= snd (minmax_depth c).
Proof.
  intros HB. destruct (minmax_type c HB) as [A B]. split; [exact A|]. split; [exact B|]. intros vs n Hv Hn. apply in_flat_map in Hn. destruct Hn as (v & Hin & Hn).
  pose proof (den_typed _ _ Hv) as HT. rewrite Forall_forall in HT. pose proof (number_depths_type _ 1 n v (HT v Hin) Hn) as Hb. replace (n - 1 + 1) with n in Hb by lia.
  destruct A as [_ A], B as [_ B]. rewrite Forall_forall in A, B. split; [apply A|apply B]; exact Hb.
Qed.
Print Assumptions C37_minmax_depth.
Example C37_minmax_ex : branches (type_of C37_array) = [2; 1; 2] /\ minmax_depth C37_array = (1, 2) /\
  Forall (fun d => d <= kMaxInt64) (branches (type_of C37_array)).
Proof. split; [vm_compute; reflexivity|]. split; [vm_compute; reflexivity|]. cbn. repeat constructor; unfold kMaxInt64; lia. Qed.
