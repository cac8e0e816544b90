(** C40: slicing an array by an array of integers or booleans, with missing values, in lists. *)
From Verif Require Import Base BaseLemmas OmapLemmas Content SpecArray SpecForm SpecGetitem Core Getitem PCore PList PForm PGetitem KAsSlice AsSlice SpecAsSlice PAsSlice2 PAsSlice3 PAsSlice7.
From Coq Require Import String.
From Coq Require Import List.
Import ListNotations.
Local Open Scope string_scope.
Local Open Scope list_scope.
Local Open Scope Z_scope.

(** A flat slice of integers or booleans, with or without missing values, of any array: the result is the list of the chosen elements, and an
    error means that a position is out of range.  [is64] says which index buffers have 64 bits.
    Missing from the full claim: missing values of two kinds around each other, and slices with fixed-size dimensions ([tidy], [jagged_slice]). *)
Theorem C40_flat_partial : forall is64 c vs slice ms o,
  den c = Some vs -> den slice = Some ms -> tidy slice -> jagged_slice o (form_of slice) -> levels (form_of slice) = O ->
  exists k, forall fuel, (k <= fuel)%nat ->
  match getitem_array is64 fuel c slice with
  | Ok it => exists v, item_den it = Some v /\ sliced (form_of slice) ms vs = Some v
  | Err _ => sliced (form_of slice) ms vs = None
  | UB => False
  end.
Proof.
  intros is64 c vs slice ms o Hd Hm HT HJ HL. exists (2 + bound slice)%nat. intros fuel Hf. exact (getitem_flat is64 c vs slice ms o fuel Hd Hm HT HJ HL ltac:(lia) ltac:(lia)).
Qed.
Print Assumptions C40_flat_partial.

(** A slice that is a list of lists of ... integers or booleans, any number of levels deep, with or without missing values among them.
    Missing from the full claim: lists that are missing below the outermost level, and missing lists in the array when positions are missing in the
    slice: both give wrong results (below). *)
Theorem C40_lists_partial : forall is64 c vs slice ms o g,
  den c = Some vs -> den slice = Some ms -> tidy slice -> form_of slice = FList g -> jagged_slice o g -> slice_fits o (levels g) (form_of c) ->
  exists k, forall fuel, (k <= fuel)%nat ->
  match getitem_array is64 fuel c slice with
  | Ok it => exists v, item_den it = Some v /\ sliced (form_of slice) ms vs = Some v
  | Err _ => sliced (form_of slice) ms vs = None
  | UB => False
  end.
Proof.
  intros is64 c vs slice ms o g Hd Hm HT HF HJ Hfit. exists (2 * bound c + bound slice)%nat. intros fuel Hf. exact (getitem_lists is64 c vs slice ms o g fuel Hd Hm HT HF HJ Hfit ltac:(lia) ltac:(lia)).
Qed.
Print Assumptions C40_lists_partial.

(** A slice of lists of integers or booleans where whole lists are missing.
    Missing from the full claim: more levels of lists below the missing ones, which raise an error (below), and arrays that are longer than the slice. *)
Theorem C40_missing_lists_partial : forall is64 c vs slice ms o g,
  den c = Some vs -> den slice = Some ms -> tidy slice -> form_of slice = FOption (FList g) -> jagged_slice o g -> levels g = O -> slice_fits o 0 (form_of c) ->
  zlen vs <= zlen ms ->
  exists k, forall fuel, (k <= fuel)%nat ->
  match getitem_array is64 fuel c slice with
  | Ok it => exists v, item_den it = Some v /\ sliced (form_of slice) ms vs = Some v
  | Err _ => sliced (form_of slice) ms vs = None
  | UB => False
  end.
Proof.
  intros is64 c vs slice ms o g Hd Hm HT HF HJ HL Hfit Hz. exists (2 * bound c + bound slice)%nat. intros fuel Hf. exact (getitem_missing_lists is64 c vs slice ms o g fuel Hd Hm HT HF HJ HL Hfit ltac:(lia) ltac:(lia) Hz).
Qed.
Print Assumptions C40_missing_lists_partial.

(** ** Masks *)
(** what a mask of booleans keeps; a missing boolean gives a missing value *)
Definition boolean (b : option bool) : value := match b with Some b => VBool b | None => VNone end.
Fixpoint filtered (mask : list (option bool)) (l : list value) : list value :=
  match mask, l with
  | Some true :: m, x :: l => x :: filtered m l
  | Some false :: m, _ :: l => filtered m l
  | None :: m, _ :: l => VNone :: filtered m l
  | _, _ => []
  end.

Lemma elem_mid pre v vs : elem (pre ++ v :: vs) (zlen pre) = Some v.
Proof.
  unfold elem, wrap. pose proof (zlen_nonneg pre). pose proof (zlen_nonneg vs). rewrite zlen_app, zlen_cons. destruct (Z.ltb_spec (zlen pre) 0); [lia|].
  match goal with |- match (if ?b then _ else _) with _ => _ end = _ => replace b with true by (symmetry; lia) end. apply nthZ_mid.
Qed.
Lemma filtered_positions mask : forall l pre, zlen mask = zlen l ->
  omap (fun i => match i with VInt i => elem (pre ++ l) i | VNone => Some VNone | _ => None end) (positions_from (zlen pre) (map boolean mask)) = Some (filtered mask l).
Proof.
  induction mask as [|b mask IH]; intros l pre Hz; [destruct l; [reflexivity|rewrite zlen_cons in Hz; change (zlen (@nil (option bool))) with 0 in Hz; pose proof (zlen_nonneg l); lia]|].
  destruct l as [|x l]; [rewrite zlen_cons in Hz; change (zlen (@nil value)) with 0 in Hz; pose proof (zlen_nonneg mask); lia|]. rewrite !zlen_cons in Hz. cbn [map positions_from]. rewrite omap_app.
  specialize (IH l (pre ++ [x]) ltac:(lia)). rewrite zlen_app, <- app_assoc in IH. change (zlen [x]) with 1 in IH. cbn [app] in IH. rewrite IH. destruct b as [[|]|]; cbn [boolean places omap filtered app]; [rewrite elem_mid| |]; reflexivity.
Qed.
Lemma choose_filtered mask l : zlen mask = zlen l -> choose 0 (VList (as_positions (map boolean mask))) (VList l) = Some (VList (filtered mask l)).
Proof. intros Hz. cbn [choose thru]. pose proof (filtered_positions mask l [] Hz) as G. cbn [app] in G. change (zlen (@nil value)) with 0 in G. unfold as_positions. rewrite G. reflexivity. Qed.

(** array[mask]: exactly the elements where the mask is true, in order, and a missing value for each missing boolean *)
Theorem C40_mask : forall is64 c vs slice mask o,
  den c = Some vs -> den slice = Some (map boolean mask) -> zlen mask = zlen vs -> tidy slice -> jagged_slice o (form_of slice) -> levels (form_of slice) = O ->
  exists k, forall fuel, (k <= fuel)%nat -> exists it, getitem_array is64 fuel c slice = Ok it /\ item_den it = Some (VList (filtered mask vs)).
Proof.
  intros is64 c vs slice mask o Hd Hm Hz HT HJ HL. destruct (C40_flat_partial is64 c vs slice _ o Hd Hm HT HJ HL) as (k & Hk). exists k. intros fuel Hf. specialize (Hk fuel Hf). unfold sliced in Hk. rewrite HL, choose_filtered in Hk by exact Hz.
  destruct (getitem_array is64 fuel c slice) as [it|e|]; [|discriminate|contradiction]. destruct Hk as (v & Hv & E). injection E as <-. eauto.
Qed.
Print Assumptions C40_mask.

Lemma choose_lists d pss vs : choose (S d) (VList (map VList pss)) (VList vs) = if zlen pss =? zlen vs then option_map VList (omap (fun jx => choose d (VList (fst jx)) (snd jx)) (combine pss vs)) else None.
Proof. cbn [choose thru]. rewrite zlen_map. destruct (zlen pss =? zlen vs); [|reflexivity]. f_equal. rewrite PGetitem.combine_map_l, omap_map. reflexivity. Qed.
(** array[mask] for lists of booleans: each list keeps exactly the elements where its own mask is true *)
Theorem C40_mask_lists : forall is64 c lss slice masks o g,
  den c = Some (map VList lss) -> den slice = Some (map (fun m => VList (map boolean m)) masks) -> map zlen masks = map zlen lss ->
  tidy slice -> form_of slice = FList g -> jagged_slice o g -> levels g = O -> slice_fits o 0 (form_of c) ->
  exists k, forall fuel, (k <= fuel)%nat -> exists it, getitem_array is64 fuel c slice = Ok it /\
    item_den it = Some (VList (map (fun ml => VList (filtered (fst ml) (snd ml))) (combine masks lss))).
Proof.
  intros is64 c lss slice masks o g Hd Hm Hz HT HF HJ HL Hfit. destruct (C40_lists_partial is64 c _ slice _ o g Hd Hm HT HF HJ) as (k & Hk); [rewrite HL; exact Hfit|]. exists k. intros fuel Hf. specialize (Hk fuel Hf).
  assert (E : sliced (form_of slice) (map (fun m => VList (map boolean m)) masks) (map VList lss) = Some (VList (map (fun ml => VList (filtered (fst ml) (snd ml))) (combine masks lss)))).
  { unfold sliced. rewrite HF. cbn [levels]. rewrite HL, as_positions_nonbool by (apply Forall_map, Forall_forall; intros; exact I). rewrite map_map. cbn [place]. rewrite <- (map_map (fun m => as_positions (map boolean m)) VList), choose_lists, !zlen_map.
    assert (Hl : zlen masks = zlen lss) by (rewrite <- (zlen_map zlen masks), Hz, zlen_map; reflexivity). rewrite Hl, Z.eqb_refl.
    match goal with |- option_map VList ?x = _ => assert (Ex : x = Some (map (fun ml => VList (filtered (fst ml) (snd ml))) (combine masks lss))) end; [|rewrite Ex; reflexivity].
    clear -Hz. revert lss Hz. induction masks as [|m masks IH]; intros lss Hz; [reflexivity|]. destruct lss as [|l lss]; [discriminate|]. cbn [map] in Hz. injection Hz as Hz1 Hz2. cbn [map combine omap fst snd]. rewrite choose_filtered by exact Hz1. rewrite (IH _ Hz2). reflexivity. }
  rewrite E in Hk. destruct (getitem_array is64 fuel c slice) as [it|e|]; [|discriminate|contradiction]. destruct Hk as (v & Hv & Ev). injection Ev as <-. eauto.
Qed.
Print Assumptions C40_mask_lists.

(** ** Cases *)
Definition run c slice := let* it := getitem_array (fun _ => true) 40 c slice in Ok (item_den it).
Definition spec c slice := match den slice, den c with Some ms, Some vs => sliced (form_of slice) ms vs | _, _ => None end.
Definition ints l := VList (map VInt l).
Definition a1 := Numpy DInt [10;20;30;40;50].
Definition a2 := ListOffset [0;3;3;5] (Numpy DInt [1;2;3;4;5]).
Definition a3 := ListOffset [0;2;3;3] a2.
Example C40_flat_meets : let slice := IndexedOption [0;-1;1;-1] (Numpy DInt [-1;0]) in
  jagged_slice true (form_of slice) /\ tidy slice /\ levels (form_of slice) = O /\ run a1 slice = Ok (Some (VList [VInt 50; VNone; VInt 10; VNone])) /\ spec a1 slice = Some (VList [VInt 50; VNone; VInt 10; VNone]).
Proof. split; [constructor; right; left; reflexivity|]. repeat split. Qed.
Example C40_flat_error : run a1 (Numpy DInt [0;5]) = Err "index out of range" /\ spec a1 (Numpy DInt [0;5]) = None.
Proof. split; reflexivity. Qed.
Example C40_lists_meets : let slice := ListOffset [0;3;3;5] (IndexedOption [0;-1;1;-1;2] (Numpy DBool [1;0;1])) in
  tidy slice /\ jagged_slice true (FOption (FNum DBool)) /\ slice_fits true 0 (form_of a2) /\ run a2 slice = Ok (Some (VList [VList [VInt 1; VNone]; VList []; VList [VNone; VInt 5]])).
Proof. split; [|split; [constructor; right; right; reflexivity|split; [constructor|reflexivity]]]. cbn. repeat constructor; cbv; discriminate. Qed.
Example C40_deep_meets : let slice := ListOffset [0;2;3;3] (ListOffset [0;2;2;3] (Numpy DInt [-1;0;1])) in
  tidy slice /\ slice_fits false 1 (form_of a3) /\ run a3 slice = Ok (Some (VList [VList [ints [3;1]; ints []]; VList [ints [5]]; VList []])).
Proof. split; [|split; [repeat constructor|reflexivity]]. cbn. repeat split; repeat constructor; cbv; discriminate. Qed.
Example C40_missing_lists_meets : let slice := IndexedOption [0;-1;1] (ListOffset [0;3;5] (Numpy DBool [1;0;1;0;1])) in
  tidy slice /\ jagged_slice false (FNum DBool) /\ run a2 slice = Ok (Some (VList [ints [1;3]; VNone; ints [5]])).
Proof. split; [|split; [constructor; right; right; reflexivity|reflexivity]]. cbn. repeat split; repeat constructor; cbv; discriminate. Qed.
Example C40_mask_meets : let slice := ByteMasked [1;1;0;1;1] true (Numpy DBool [1;0;1;1;0]) in let mask := [Some true; Some false; None; Some true; Some false] in
  den slice = Some (map boolean mask) /\ filtered mask [VInt 10; VInt 20; VInt 30; VInt 40; VInt 50] = [VInt 10; VNone; VInt 40] /\ run a1 slice = Ok (Some (VList [VInt 10; VNone; VInt 40])).
Proof. repeat split. Qed.

(** ** Where the code differs *)
(** A boolean array that is not contiguous: the kernels take the number of elements for the number of bytes.  Bytes 0, 2 and 4 are elements 0, 1 and 2;
    the first and the last are true, and only the first is found. *)
Theorem C40_strided_mask_refuted :
  awkward_NumpyArray_getitem_boolean_numtrue [1;0;0;0;1;0] 3 2 = Ok 1 /\ awkward_NumpyArray_getitem_boolean_nonzero [0] [1;0;0;0;1;0] 3 2 = Ok [0] /\
  as_positions [VBool true; VBool false; VBool true] = [VInt 0; VInt 2].
Proof. repeat split. Qed.
Print Assumptions C40_strided_mask_refuted.
(** Missing lists below the outermost level: the lists are taken from the beginning of the content, not from where the array's lists are. *)
Theorem C40_inner_missing_lists_refuted : let c := ListOffset [2;4] (ListOffset [0;2;4;6;8] (Numpy DInt [1;2;3;4;5;6;7;8])) in
  let slice := ListOffset [0;2] (IndexedOption [0;-1] (ListOffset [0;1] (Numpy DInt [0]))) in
  den c = Some [VList [ints [5;6]; ints [7;8]]] /\ den slice = Some [VList [ints [0]; VNone]] /\
  run c slice = Ok (Some (VList [VList [ints [1]; VNone]])) /\ spec c slice = Some (VList [VList [ints [5]; VNone]]).
Proof. repeat split. Qed.
Print Assumptions C40_inner_missing_lists_refuted.
(** Lists missing in the array, and positions missing in the slice: the missing values move. *)
Theorem C40_missing_in_both_refuted : let c := IndexedOption [0;-1;2] a2 in let slice := ListOffset [0;2;3;5] (IndexedOption [0;-1;1;-1;2] (Numpy DInt [1;0;0])) in
  run c slice = Ok (Some (VList [VList [VInt 2; VNone]; VNone; VList [VInt 4; VNone]])) /\ spec c slice = Some (VList [VList [VInt 2; VNone]; VNone; VList [VNone; VInt 4]]).
Proof. repeat split. Qed.
Print Assumptions C40_missing_in_both_refuted.
(** Missing booleans of two kinds around each other *)
Theorem C40_nested_missing_refuted : let slice := IndexedOption [0;-1;1;2] (IndexedOption [0;-1;1] (Numpy DBool [0;1])) in
  den slice = Some [VBool false; VNone; VNone; VBool true] /\ run a1 slice = Err "index out of range" /\ spec a1 slice = Some (VList [VNone; VNone; VInt 40]).
Proof. repeat split. Qed.
Print Assumptions C40_nested_missing_refuted.
(** Missing lists above lists of lists *)
Theorem C40_missing_deep_lists_refuted : let slice := IndexedOption [0;-1;1] (ListOffset [0;2;2] (ListOffset [0;1;1] (Numpy DInt [0]))) in
  run a3 slice = Err "jagged slice inner length differs from array inner length" /\ spec a3 slice = Some (VList [VList [ints [0 + 1]; ints []]; VNone; ints []]).
Proof. repeat split. Qed.
Print Assumptions C40_missing_deep_lists_refuted.
(** An empty list may have any offsets, but as a slice it raises an error. *)
Theorem C40_empty_offsets_refuted : let c := ListOffset [0;0] a2 in let slice := ListOffset [7;7] (ListOffset [0;1;2] (Numpy DInt [1;2])) in
  den slice = Some [VList []] /\ run c slice = Err "Index::getitem_range_nowrap with illegal start:stop for this length" /\ spec c slice = Some (VList [VList []]).
Proof. repeat split. Qed.
Print Assumptions C40_empty_offsets_refuted.
(** Records without fields are not compared with the length of the slice. *)
Theorem C40_no_fields_refuted : let c := Record None 4 [] in let slice := IndexedOption [0;-1;1] (ListOffset [0;2;3] (Numpy DInt [-1;0;1])) in
  run c slice = Ok (Some (VList [VTuple []; VNone; VTuple []])) /\ spec c slice = None.
Proof. repeat split. Qed.
Print Assumptions C40_no_fields_refuted.
