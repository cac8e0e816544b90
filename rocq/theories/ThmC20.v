(** C20: slices with several items, and slices by arrays of lists of integers, select what NumPy would select in every inner list. *)
From Verif Require Import Base BaseLemmas OmapLemmas LoopLemmas Content SpecArray SpecForm SpecSlice SpecGetitem SpecJagged KRange Core Getitem
  PCore PRange PCarry PList PForm PNat PGetitem1 PGetitem PGetitem2 PJagged4.
From Coq Require Import String.
From Coq Require Import List.
Import ListNotations.
Local Open Scope string_scope.
Local Open Scope list_scope.
Local Open Scope Z_scope.

(** The element, list or array that getitem returns is the slice of the array's value, and an error means that the slice has no value:
    some index is out of range.  [is64] says which index buffers have 64 bits.
    Missing from the full claim: the slices that [fits] excludes, most of which give wrong results (the refutations below), the arrays that
    [exact] excludes, unions, and RegularArrays, which can raise an error for an index out of range when there is nothing to slice. *)
Theorem C20_getitem_partial : forall is64 n m c vs items,
  den c = Some vs -> exact c -> short m (VList vs) -> fits n m false items (FList (form_of c)) ->
  exists k, forall fuel, (k <= fuel)%nat ->
  match getitem is64 fuel c items with
  | Ok it => exists v, item_den it = Some v /\ pick items None (VList vs) = Some v
  | Err _ => pick items None (VList vs) = None \/ has_regular c = true
  | UB => False
  end.
Proof.
  intros is64 n m c vs items Hd HE Hsh Hf. assert (Hm : 0 <= m) by (destruct Hsh; pose proof (zlen_nonneg vs); lia).
  exists (S (bound c) + length items)%nat. intros fuel Hk. apply (getitem_correct is64 n m Hm); auto.
Qed.
Print Assumptions C20_getitem_partial.

(** ** arrays of lists *)
Definition all : sliceitem := SRange kSliceNone kSliceNone 1.

Lemma form_lists c : forall vs g, form_of c = FList g -> den c = Some vs -> exists ls, vs = map VList ls.
Proof.
  induction c using content_ind'; intros vs g Hg Hd; cbn [form_of] in Hg; try discriminate.
  1-3: destruct (list_inv _ _ _ _ Hd eq_refl) as (ws & _ & _ & ->); eexists; reflexivity.
  destruct (content_inv1 _ _ Hd) as [ws Hws]. destruct (IHc _ _ Hg Hws) as (ls & ->). cbn [den] in Hd. rewrite Hws in Hd. clear - Hd. revert vs Hd. induction index as [|i index IH]; intros vs Hd; cbn [omap] in Hd.
  - injection Hd as <-. exists []. reflexivity.
  - destruct (nthZ (map VList ls) i) as [v|] eqn:Ev; [|discriminate]. destruct (omap _ index) as [t|]; [|discriminate]. injection Hd as <-. destruct (IH t eq_refl) as (lt & ->). apply nthZ_In in Ev. apply in_map_iff in Ev. destruct Ev as (l & <- & _). exists (l :: lt). reflexivity.
Qed.

Lemma py_all n : 0 <= n -> py_slice (opt64 kSliceNone) (opt64 kSliceNone) 1 n = zseq 0 n.
Proof.
  intros H. unfold py_slice, py_range, py_range_len, py_start, py_stop. change (opt64 kSliceNone) with (@None Z). change (0 <? 1) with true. cbn match.
  destruct (Z.ltb_spec 0 n); [|assert (n = 0) as -> by lia; reflexivity]. rewrite Z.div_1_r. replace (n - 0 - 1 + 1) with n by lia.
  rewrite <- (map_id (zseq 0 n)) at 2. apply map_ext. intros. lia.
Qed.
Lemma pick_all t vs : pick (all :: t) None (VList vs) = option_map VList (omap (pick t None) vs).
Proof. unfold all. cbn [pick thru]. rewrite py_all by apply zlen_nonneg. rewrite omap_nthZ_zseq by (pose proof (zlen_nonneg vs); lia). rewrite slice_full. reflexivity. Qed.
Lemma omap_None_bad {A B} (f : A -> option B) l : omap f l = None -> exists x, In x l /\ f x = None.
Proof. induction l as [|x l IH]; cbn [omap]; [discriminate|]. destruct (f x) eqn:E; [|exists x; split; [left; reflexivity|exact E]]. destruct (omap f l); [discriminate|]. intros _. destruct (IH eq_refl) as (y & ? & ?). exists y. split; [right|]; assumption. Qed.
Lemma omap_lists {B} (f : list value -> option B) (h : value -> option B) ls : (forall l, h (VList l) = f l) -> omap h (map VList ls) = omap f ls.
Proof. intros H. induction ls as [|l ls IH]; cbn [map omap]; [reflexivity|]. rewrite H, IH. reflexivity. Qed.
Lemma omap_id {A} (l : list A) : omap (fun x => Some x) l = Some l.
Proof. induction l as [|x l IH]; cbn [omap]; [reflexivity|rewrite IH; reflexivity]. Qed.

(** array[:, i]: the element of each list at position i, counted from the end when negative *)
Theorem C20_column : forall is64 c vs g i,
  den c = Some vs -> form_of c = FList g -> exact c -> short (2 ^ 62) (VList vs) ->
  exists k, forall fuel, (k <= fuel)%nat ->
  match getitem is64 fuel c [all; SAt i] with
  | Ok it => exists ls xs, vs = map VList ls /\ item_den it = Some (VList xs) /\ Forall2 (fun l x => elem l i = Some x) ls xs
  | Err _ => (exists l, In (VList l) vs /\ elem l i = None) \/ has_regular c = true
  | UB => False
  end.
Proof.
  intros is64 c vs g i Hd Hg HE Hsh. destruct (C20_getitem_partial is64 1 (2 ^ 62) c vs [all; SAt i]) as (k & Hk); auto; [rewrite Hg|].
  { unfold all. apply fits_range; [lia|cbv; discriminate|cbv; discriminate|cbv; discriminate|]. apply fits_at. apply fits_nil. }
  exists k. intros fuel Hf. specialize (Hk fuel Hf). destruct (form_lists _ _ _ Hg Hd) as (ls & ->). rewrite pick_all in Hk.
  rewrite (omap_lists (fun l => elem l i)) in Hk by (intros l; cbn [pick thru]; destruct (elem l i); reflexivity).
  destruct (getitem is64 fuel c [all; SAt i]) as [it|e|].
  - destruct Hk as (v & Hv & E). destruct (omap (fun l => elem l i) ls) as [xs|] eqn:Ex; [|discriminate]. injection E as <-. exists ls, xs. split; [reflexivity|]. split; [exact Hv|]. apply PField.F2_omap in Ex. exact Ex.
  - destruct Hk as [Hk|Hk]; [left|right; exact Hk]. destruct (omap (fun l => elem l i) ls) as [xs|] eqn:Ex; [discriminate|]. apply omap_None_bad in Ex. destruct Ex as (l & Hl & E). exists l. split; [apply in_map; exact Hl|exact E].
  - exact Hk.
Qed.
Print Assumptions C20_column.

(** array[:, start:stop:step]: Python's slice of each list *)
Theorem C20_subslices : forall is64 c vs g start stop step,
  den c = Some vs -> form_of c = FList g -> exact c -> short (2 ^ 62) (VList vs) -> step <> 0 -> - 2 ^ 61 <= step <= 2 ^ 61 ->
  exists k, forall fuel, (k <= fuel)%nat ->
  match getitem is64 fuel c [all; SRange start stop step] with
  | Ok it => exists ls ls', vs = map VList ls /\ item_den it = Some (VList (map VList ls')) /\
               Forall2 (fun l l' => picks l (py_slice (opt64 start) (opt64 stop) step (zlen l)) l') ls ls'
  | Err _ => has_regular c = true
  | UB => False
  end.
Proof.
  intros is64 c vs g a b s Hd Hg HE Hsh Hs0 Hs1. destruct (C20_getitem_partial is64 1 (2 ^ 62) c vs [all; SRange a b s]) as (k & Hk); auto; [rewrite Hg|].
  { unfold all. apply fits_range; [lia|cbv; discriminate|cbv; discriminate|cbv; discriminate|]. apply fits_range; [exact Hs0|unfold int64_min; lia|unfold int64_max; lia|cbv; discriminate|]. apply fits_nil. }
  exists k. intros fuel Hf. specialize (Hk fuel Hf). destruct (form_lists _ _ _ Hg Hd) as (ls & ->). rewrite pick_all in Hk.
  rewrite (omap_lists (fun l => option_map VList (omap (nthZ l) (py_slice (opt64 a) (opt64 b) s (zlen l))))) in Hk by (intros l; cbn [pick thru]; destruct (omap (nthZ l) _) as [xs|]; [rewrite omap_id|]; reflexivity).
  assert (E : exists ls', omap (fun l => option_map VList (omap (nthZ l) (py_slice (opt64 a) (opt64 b) s (zlen l)))) ls = Some (map VList ls') /\ Forall2 (fun l l' => picks l (py_slice (opt64 a) (opt64 b) s (zlen l)) l') ls ls').
  { clear - Hs0. induction ls as [|l ls IH]; [exists []; split; [reflexivity|constructor]|]. destruct IH as (ls' & E1 & E2). cbn [omap]. rewrite E1.
    destruct (omap (nthZ l) (py_slice (opt64 a) (opt64 b) s (zlen l))) as [l'|] eqn:El.
    - exists (l' :: ls'). split; [reflexivity|]. constructor; [|exact E2]. unfold picks. apply omap_picks. exact El.
    - exfalso. apply omap_None_bad in El. destruct El as (p & Hp & En). apply py_slice_in_range in Hp; auto; [|apply zlen_nonneg]. destruct (nthZ_lt l p Hp) as (x & Hx). congruence. }
  destruct E as (ls' & E1 & E2). rewrite E1 in Hk. cbn [option_map] in Hk.
  destruct (getitem is64 fuel c [all; SRange a b s]) as [it|e|].
  - destruct Hk as (v & Hv & E). injection E as <-. exists ls, ls'. auto.
  - destruct Hk as [Hk|Hk]; [discriminate|exact Hk].
  - exact Hk.
Qed.
Print Assumptions C20_subslices.

(** array[:, [i1, i2, ...]]: the elements of each list at these positions *)
Theorem C20_positions : forall is64 c vs g index,
  den c = Some vs -> form_of c = FList g -> exact c -> short (2 ^ 62) (VList vs) -> index <> [] ->
  exists k, forall fuel, (k <= fuel)%nat ->
  match getitem is64 fuel c [all; SArray [zlen index] index] with
  | Ok it => exists ls ls', vs = map VList ls /\ item_den it = Some (VList (map VList ls')) /\ Forall2 (fun l l' => Forall2 (fun i x => elem l i = Some x) index l') ls ls'
  | Err _ => (exists l i, In (VList l) vs /\ In i index /\ elem l i = None) \/ has_regular c = true
  | UB => False
  end.
Proof.
  intros is64 c vs g index Hd Hg HE Hsh Hi. assert (H0 : 0 < zlen index) by (destruct index; [congruence|rewrite zlen_cons; pose proof (zlen_nonneg index); lia]).
  destruct (C20_getitem_partial is64 (zlen index) (2 ^ 62) c vs [all; SArray [zlen index] index]) as (k & Hk); auto; [rewrite Hg|].
  { unfold all. apply fits_range; [lia|cbv; discriminate|cbv; discriminate|cbv; discriminate|]. apply fits_array; [reflexivity|exact H0|]. apply fits_nil. }
  exists k. intros fuel Hf. specialize (Hk fuel Hf). destruct (form_lists _ _ _ Hg Hd) as (ls & ->). rewrite pick_all in Hk.
  rewrite (omap_lists (fun l => option_map VList (omap (elem l) index))) in Hk.
  2:{ intros l. cbn [pick thru]. f_equal. pose proof (rows_index [] index l _ eq_refl) as R. cbn [pick] in R. rewrite R. clear R. destruct (omap (elem l) index) as [xs|] eqn:E; [|reflexivity]. apply rows_nil. apply omap_zlen in E. rewrite zlen_map, zlen_zseq; lia. }
  destruct (getitem is64 fuel c [all; SArray [zlen index] index]) as [it|e|].
  - destruct Hk as (v & Hv & E). destruct (omap _ ls) as [xs|] eqn:Ex; [|discriminate]. injection E as <-.
    assert (G : exists ls', xs = map VList ls' /\ Forall2 (fun l l' => Forall2 (fun i x => elem l i = Some x) index l') ls ls').
    { clear - Ex. revert xs Ex. induction ls as [|l ls IH]; cbn [omap]; intros xs Ex; [injection Ex as <-; exists []; split; [reflexivity|constructor]|].
      destruct (omap (elem l) index) as [l'|] eqn:El; [|discriminate]. cbn [option_map] in Ex. destruct (omap _ ls) as [t|]; [|discriminate]. injection Ex as <-. destruct (IH t eq_refl) as (lt & -> & H). exists (l' :: lt). split; [reflexivity|]. constructor; [|exact H]. apply PField.F2_omap. exact El. }
    destruct G as (ls' & -> & G). exists ls, ls'. auto.
  - destruct Hk as [Hk|Hk]; [left|right; exact Hk]. destruct (omap _ ls) as [xs|] eqn:Ex; [discriminate|]. apply omap_None_bad in Ex. destruct Ex as (l & Hl & E). destruct (omap (elem l) index) eqn:El; [discriminate|]. apply omap_None_bad in El. destruct El as (i & Hin & En).
    exists l, i. split; [apply in_map; exact Hl|]. split; assumption.
  - exact Hk.
Qed.
Print Assumptions C20_positions.

(** ** slices by arrays of lists of integers *)
(** [jag] is the array of lists that the slice item stands for.  Each integer selects from the list at the same place; lists that are missing stay
    missing; an error means that the lengths differ or that an integer is out of range.
    Missing from the full claim: arrays of booleans and arrays with missing values as slices, unions, missing lists above the last level. *)
Theorem C20_jagged_partial : forall is64 c vs offsets sc js,
  den c = Some vs -> jfits (jdepth sc) (form_of c) -> jag (SJagged offsets sc) = Some js ->
  exists k, forall fuel, (k <= fuel)%nat ->
  match getitem is64 fuel c [SJagged offsets sc] with
  | Ok it => exists v, item_den it = Some v /\ jpick (S (jdepth sc)) (VList js) (VList vs) = Some v
  | Err _ => jpick (S (jdepth sc)) (VList js) (VList vs) = None
  | UB => False
  end.
Proof.
  intros is64 c vs offsets sc js Hd Hf Hj. exists (S (2 * bound c))%nat. intros fuel Hk. apply (jagged_getitem is64 c vs offsets sc js fuel Hd Hf Hj). lia.
Qed.
Print Assumptions C20_jagged_partial.

(** ** concrete cases *)
Definition w64 (c : content) : bool := true.
Definition run (c : content) (items : list sliceitem) : res (option value) := match getitem w64 30 c items with Ok it => Ok (item_den it) | Err e => Err e | UB => UB end.
Definition spec (c : content) (items : list sliceitem) : option value := match den c with Some vs => pick items None (VList vs) | None => None end.
Definition ints (l : list Z) : value := VList (map VInt l).

(** [[1,2],[3,4],[5,6]], its second list missing, and three levels *)
Definition a2 : content := ListOffset [0;2;4;6] (Numpy DInt [1;2;3;4;5;6]).
Definition a2m : content := IndexedOption [0;-1;2] a2.
Definition a3 : content := ListOffset [0;2;4] (ListOffset [0;2;4;6;8] (Numpy DInt (zseq 0 8))).

Example C20_ex_hyps : den a2m = Some [ints [1;2]; VNone; ints [5;6]] /\ exact a2m /\ short 3 (VList [ints [1;2]; VNone; ints [5;6]]) /\
  fits 2 3 false [SRange 0 3 2; SArray [2] [1;-1]] (FList (form_of a2m)).
Proof.
  split; [reflexivity|]. split; [exact I|]. split; [cbv; intuition discriminate|]. cbn [form_of a2m a2].
  apply fits_range; [lia|unfold int64_min; lia|unfold int64_max; lia|cbv; discriminate|]. apply fits_option; try discriminate. apply fits_array; [reflexivity|lia|]. apply fits_nil.
Qed.
Example C20_ex_values :
  run a2 [all; SAt (-1)] = Ok (Some (ints [2;4;6])) /\
  run a2 [all; SAt 2] = Err "index out of range" /\
  run a2 [SRange 2 kSliceNone (-1); SRange kSliceNone kSliceNone (-1)] = Ok (Some (VList [ints [6;5]; ints [4;3]; ints [2;1]])) /\
  run a2m [all; SArray [2] [1;0]] = Ok (Some (VList [ints [2;1]; VNone; ints [6;5]])) /\
  run a3 [SArray [2] [1;0]; SArray [2] [0;1]] = Ok (Some (VList [ints [4;5]; ints [2;3]])).
Proof. vm_compute. repeat split; reflexivity. Qed.
Example C20_ex_jagged :
  jag (SJagged [0;2;3] (SJagged [0;1;1;3] (SArray [3] [-1;0;0]))) = Some [VList [ints [-1]; ints []]; VList [ints [0;0]]] /\
  run a2 [SJagged [0;2;2;3] (SArray [3] [-1;0;0])] = Ok (Some (VList [ints [2;1]; ints []; ints [5]])) /\
  run a2 [SJagged [0;2;2] (SArray [2] [-1;0])] = Err "cannot fit jagged slice into RegularArray" /\
  run a3 [SJagged [0;2;4] (SJagged [0;1;1;3;4] (SArray [4] [-1;0;0;1]))] = Ok (Some (VList [VList [ints [1]; ints []]; VList [ints [4;4]; ints [7]]])).
Proof. vm_compute. repeat split; reflexivity. Qed.
Example C20_ex_jfits : jfits 1 (form_of a3) /\ jfits 0 (form_of a2m).
Proof. split; cbn; repeat constructor. Qed.

(** ** what the code gets wrong *)
(** an empty index array drops the outer lists: [[], [], []] becomes [] *)
Theorem C20_empty_index_refuted : run a2 [all; SArray [0] []] = Ok (Some (VList [])) /\ spec a2 [all; SArray [0] []] = Some (VList [ints []; ints []; ints []]).
Proof. vm_compute. split; reflexivity. Qed.
Print Assumptions C20_empty_index_refuted.
(** three index arrays after a range read beyond their buffers *)
Definition a4 : content := ListOffset [0;2;4] (ListOffset [0;2;4;6;8] (ListOffset [0;2;4;6;8;10;12;14;16] (Numpy DInt (zseq 0 16)))).
Theorem C20_three_arrays_refuted :
  run a4 [all; SArray [1] [0]; SArray [1] [1]; SArray [1] [1]] = UB /\ spec a4 [all; SArray [1] [0]; SArray [1] [1]; SArray [1] [1]] = Some (VList [ints [3]; ints [11]]).
Proof. vm_compute. split; reflexivity. Qed.
Print Assumptions C20_three_arrays_refuted.
(** items after the first one are not applied to the fields of records as they are to lists: the last item is lost *)
Definition r3 : content := Record (Some ["x"]) 2 [ListOffset [0;2;4] (ListOffset [0;2;4;6;8] (Numpy DInt (zseq 0 8)))].
Theorem C20_records_refuted :
  run r3 [all; SRange 0 1 1; SAt 0] = Ok (Some (VList [VRec [("x", ints [0;1])]; VRec [("x", ints [4;5])]])) /\
  spec r3 [all; SRange 0 1 1; SAt 0] = Some (VList [VRec [("x", ints [0])]; VRec [("x", ints [4])]]).
Proof. vm_compute. split; reflexivity. Qed.
Print Assumptions C20_records_refuted.
(** index arrays around missing lists are read at the wrong places *)
Theorem C20_missing_between_arrays_refuted :
  run (IndexedOption [-1;0;1] a2) [SArray [3] [0;1;2]; SArray [3] [0;1;1]] = Ok (Some (VList [VNone; VInt 1; VInt 4])) /\
  spec (IndexedOption [-1;0;1] a2) [SArray [3] [0;1;2]; SArray [3] [0;1;1]] = Some (VList [VNone; VInt 2; VInt 4]).
Proof. vm_compute. split; reflexivity. Qed.
Print Assumptions C20_missing_between_arrays_refuted.
(** elements of a field beyond the end of the array of records cause errors *)
Definition r1 : content := Record (Some ["x"]) 1 [ListOffset [0;1;1] (Numpy DInt (zseq 0 8))].
Theorem C20_long_field_refuted : run r1 [all; SAt 0] = Err "index out of range" /\ spec r1 [all; SAt 0] = Some (VList [VRec [("x", VInt 0)]]).
Proof. vm_compute. split; reflexivity. Qed.
Print Assumptions C20_long_field_refuted.
