(** C17: ak.sort gives every list in order with the same elements, ak.argsort gives the positions that do this; elements never move between lists. *)
From Coq Require Import Permutation.
From Verif Require Import Base BaseLemmas Content KCore Core Convert Option Axis KReduce Reduce KSort Sort SpecArray SpecForm SpecMerge SpecSort PForm PSortK PSort.
Local Open Scope string_scope. Local Open Scope list_scope. Local Open Scope Z_scope.

(** The quicksort of the library keeps its ranges in a buffer of 48 levels; it is used when [stable] is not set. *)
Definition short (stable : bool) (vs : list value) : Prop := stable = true \/ zlen vs < 2 ^ 48.

(** The whole property: for every array of nested lists of numbers, some of which (or of the lists) may be missing. *)
Fixpoint lists_of_numbers (f : form) : bool :=
  match f with FUnknown | FNum _ => true | FList f | FOption f => lists_of_numbers f | _ => false end.
Fixpoint list_depth (f : form) : nat := match f with FList f => S (list_depth f) | FOption f => list_depth f | _ => O end.
(** [innermost] with missing lists kept in their place *)
Fixpoint innermost_option (P : list value -> list value -> Prop) (depth : nat) (vs ws : list value) : Prop :=
  match depth with
  | O => P vs ws
  | S depth => Forall2 (fun v w => match v, w with VList l, VList l' => innermost_option P depth l l' | VNone, VNone => True | _, _ => False end) vs ws
  end.
Definition C17_claim : Prop :=
  forall real is64 rc narrow refeq mfuel ascending stable c vs,
  den c = Some vs -> lists_of_numbers (form_of c) = true -> each_innermost (short stable) (list_depth (form_of c)) vs ->
  exists n, forall fuel, (n <= fuel)%nat ->
  exists it ws, sort real is64 rc narrow refeq mfuel false ascending stable fuel c (-1) = Ok it /\ item_den it = Some (VList ws) /\
    innermost_option (is_sort real ascending) (list_depth (form_of c)) vs ws.

(** Proved: nested lists of any depth in any of the three list classes; the numbers may be missing, in any of the four classes of option type.
    Missing: missing lists, numbers that are missing at the top level, indexed arrays, records and unions, and lists whose offsets do not start at zero;
    all but the unions are given wrong results by the code (see below).  Other axes than the innermost one. *)
Theorem C17_sort_partial :
  forall real is64 rc narrow refeq mfuel ascending stable c vs axis,
  den c = Some vs -> sortable false c -> each_innermost (short stable) (list_levels (form_of c)) vs -> axis = -1 \/ axis = Z.of_nat (list_levels (form_of c)) ->
  exists n, forall fuel, (n <= fuel)%nat ->
  exists it ws, sort real is64 rc narrow refeq mfuel false ascending stable fuel c axis = Ok it /\ item_den it = Some (VList ws) /\
    innermost (is_sort real ascending) (list_levels (form_of c)) vs ws.
Proof.
  intros real is64 rc narrow refeq mfuel ascending stable c vs axis Hd HS HQ Hax. exists (bound c). intros fuel Hf.
  exact (top real is64 rc narrow refeq mfuel false ascending stable fuel c vs axis Hf Hd HS HQ Hax).
Qed.
Print Assumptions C17_sort_partial.

(** argsort: as above, and none of the numbers may be missing *)
Theorem C17_argsort_partial :
  forall real is64 rc narrow refeq mfuel ascending stable c vs axis,
  den c = Some vs -> sortable true c -> each_innermost (short stable) (list_levels (form_of c)) vs -> axis = -1 \/ axis = Z.of_nat (list_levels (form_of c)) ->
  exists n, forall fuel, (n <= fuel)%nat ->
  exists it ws, sort real is64 rc narrow refeq mfuel true ascending stable fuel c axis = Ok it /\ item_den it = Some (VList ws) /\
    innermost (is_argsort real ascending stable) (list_levels (form_of c)) vs ws.
Proof.
  intros real is64 rc narrow refeq mfuel ascending stable c vs axis Hd HS HQ Hax. exists (bound c). intros fuel Hf.
  exact (top real is64 rc narrow refeq mfuel true ascending stable fuel c vs axis Hf Hd HS HQ Hax).
Qed.
Print Assumptions C17_argsort_partial.

(** what this means for lists of integers *)
Theorem C17_lists_of_integers : forall real is64 rc narrow refeq mfuel ascending stable offsets data ls,
  den (ListOffset offsets (Numpy DInt data)) = Some (map (fun l => VList (map VInt l)) ls) -> nthZ offsets 0 = Some 0 -> Forall (fun l => zlen l < 2 ^ 48) ls ->
  exists n, forall fuel, (n <= fuel)%nat ->
  exists it ls', sort real is64 rc narrow refeq mfuel false ascending stable fuel (ListOffset offsets (Numpy DInt data)) (-1) = Ok it /\
    item_den it = Some (VList (map (fun l => VList (map VInt l)) ls')) /\
    Forall2 (fun l l' => Permutation l l' /\ sorted (fun x y => if ascending then x <=? y else y <=? x) l') ls ls'.
Proof.
  intros real is64 rc narrow refeq mfuel ascending stable offsets data ls Hd H0 HF.
  destruct (C17_sort_partial real is64 rc narrow refeq mfuel ascending stable _ _ (-1) Hd) as (n & H).
  - split; [exact H0|]. left. exact I.
  - cbn [form_of list_levels each_innermost]. rewrite Forall_map. eapply Forall_impl; [|exact HF]. intros l Hl. right. rewrite zlen_map. exact Hl.
  - left. reflexivity.
  - exists n. intros fuel Hf. destruct (H fuel Hf) as (it & ws & E & D & HI). cbn [form_of list_levels innermost] in HI. clear H Hd HF.
    assert (HX : exists ls', ws = map (fun l => VList (map VInt l)) ls' /\ Forall2 (fun l l' => Permutation l l' /\ sorted (fun x y => if ascending then x <=? y else y <=? x) l') ls ls').
    { clear E D. revert ws HI. induction ls as [|l ls IH]; intros ws HI; inversion HI as [|? w ? ws' HW HI']; subst; [exists []; split; [reflexivity|constructor]|].
      destruct (IH _ HI') as (ls' & -> & HF). destruct w as [ | | | |w| | ]; try contradiction. destruct HW as [HP (s & k & Ew & _ & Hso)].
      destruct (Permutation_map_inv VInt l (Permutation_sym HP)) as (l' & El & HP'). exists (l' :: ls'). split; [cbn [map]; rewrite El; reflexivity|]. constructor; [|exact HF]. split; [exact HP'|].
      assert (HK : forall v, In v w -> v <> VNone) by (rewrite El; intros v Hv; apply in_map_iff in Hv as (z & <- & _); discriminate).
      assert (k = O) as -> by (destruct k; [reflexivity|]; exfalso; apply (HK VNone); [rewrite Ew; apply in_or_app; right; left; reflexivity|reflexivity]).
      cbn [repeat] in Ew. rewrite app_nil_r in Ew. subst s. rewrite El in Hso.
      assert (HC : comparable real (map VInt l)) by (unfold comparable, total_order; split; [|split; [|split]]; intros; exfalso; match goal with H : In (VReal _) (map VInt l) |- _ => apply in_map_iff in H as (? & ? & _); discriminate end).
      specialize (Hso HC). intros i j x y Hij Hx Hy. specialize (Hso i j (VInt x) (VInt y) Hij). rewrite !nthZ_map, Hx, Hy in Hso. specialize (Hso eq_refl eq_refl). unfold vle in Hso. destruct ascending; exact Hso. }
    destruct HX as (ls' & -> & HF). exists it, ls'. auto.
Qed.
Print Assumptions C17_lists_of_integers.

(** The kernels by themselves: consecutive groups of numbers, sorted one by one.  The numbers of a group stay in it whatever the comparison is. *)
Theorem C17_kernel : forall o ascending stable segs, (stable = true \/ Forall (fun s => zlen s < 2 ^ 48) segs) ->
  exists segs', array_sort o (concat segs) (PReduceL.runs 0 (map zlen segs)) ascending stable = Ok (concat segs') /\
    Forall2 (fun s s' => Permutation s s' /\ (total_order o (fun x => In x s) -> sorted (predicate_of o ascending) s')) segs segs'.
Proof.
  intros o ascending stable segs HF. destruct (array_sort_groups o ascending stable segs HF) as (segs' & E & H). exists segs'. split; [exact E|exact H].
Qed.
Print Assumptions C17_kernel.

(** ** Concrete cases *)
Definition ZO : order := {| ole := Z.leb; olt := Z.ltb; oeq := Z.eqb |}.
Definition run (arg asc st : bool) (c : content) (axis : Z) : option value :=
  match sort ZO (fun _ => true) (fun x => x) (fun _ => false) (fun _ _ => false) 20 arg asc st 20 c axis with Ok it => item_den it | _ => None end.
(** [[3, None, 1, 3], [], [2, None]] in a list of lists *)
Definition C17_array : content := ListOffset [0; 2; 3] (ListA [0; 4; 4] [4; 4; 6] (ByteMasked [0; 1; 0; 0; 0; 1] false (Numpy DInt [3; 7; 1; 3; 2; 8]))).
Example C17_ex_hyps : den C17_array = Some [VList [VList [VInt 3; VNone; VInt 1; VInt 3]; VList []]; VList [VList [VInt 2; VNone]]] /\ sortable false C17_array /\
  each_innermost (short false) (list_levels (form_of C17_array)) [VList [VList [VInt 3; VNone; VInt 1; VInt 3]; VList []]; VList [VList [VInt 2; VNone]]].
Proof. split; [reflexivity|]. split; [split; [reflexivity|]; left; right; split; [reflexivity|]; split; [reflexivity|exact I]|]. repeat constructor; right; vm_compute; reflexivity. Qed.
Example C17_ex_sort : run false true false C17_array (-1) = Some (VList [VList [VList [VInt 1; VInt 3; VInt 3; VNone]; VList []]; VList [VList [VInt 2; VNone]]]).
Proof. vm_compute. reflexivity. Qed.
Definition C17_numbers : content := Regular 4 2 (Numpy DReal [5; 2; 2; 9; 1; 0; 1; 4]).
Example C17_ex_arg_hyps : sortable true C17_numbers /\ den C17_numbers = Some [VList [VReal 5; VReal 2; VReal 2; VReal 9]; VList [VReal 1; VReal 0; VReal 1; VReal 4]] /\
  comparable ZO [VReal 5; VReal 2; VReal 2; VReal 9].
Proof.
  split; [left; exact I|]. split; [reflexivity|]. unfold comparable, total_order, ZO; cbn [ole olt oeq]. repeat split; intros.
  - destruct (Z.leb_spec x y); [left; reflexivity|right; apply Z.leb_le; lia].
  - rewrite Z.leb_le in *. lia.
  - destruct (Z.leb_spec y x), (Z.ltb_spec x y); try lia; reflexivity.
  - apply Z.eqb_eq in H1. apply Z.leb_le. lia.
  - apply Z.eqb_eq in H1. apply Z.leb_le. lia.
Qed.
Example C17_ex_argsort : run true false true C17_numbers 1 = Some (VList [VList [VInt 3; VInt 0; VInt 1; VInt 2]; VList [VInt 3; VInt 0; VInt 2; VInt 1]]).
Proof. vm_compute. reflexivity. Qed.

(** ** What goes wrong elsewhere *)
Definition outcome (arg : bool) (c : content) (axis : Z) : res item := sort ZO (fun _ => true) (fun x => x) (fun _ => false) (fun _ _ => false) 20 arg true false 20 c axis.
(** a slice of a list array, [[1, 2], [], [9, 8]] with its offsets starting at 1: the sorted numbers are moved to the front of the content but the offsets are kept *)
Definition C17_sliced : content := ListOffset [1; 3; 3; 5] (Numpy DInt [3; 1; 2; 9; 8]).
Theorem C17_sliced_refuted : den C17_sliced = Some [VList [VInt 1; VInt 2]; VList []; VList [VInt 9; VInt 8]] /\ exists it, outcome false C17_sliced 1 = Ok it /\ item_den it = None.
Proof. split; [reflexivity|]. eexists. split; vm_compute; reflexivity. Qed.
Print Assumptions C17_sliced_refuted.
(** [3, None, 1] loses its missing value *)
Definition C17_flat_option : content := IndexedOption [0; -1; 1] (Numpy DInt [3; 1]).
Theorem C17_flat_option_refuted : den C17_flat_option = Some [VInt 3; VNone; VInt 1] /\ run false true false C17_flat_option (-1) = Some (VList [VInt 1; VInt 3]).
Proof. split; vm_compute; reflexivity. Qed.
Print Assumptions C17_flat_option_refuted.
(** argsort numbers only the elements that are not missing: [[8, None, 1], [3]] gives [[1, 0, None], [0]], where position 1 is the missing one *)
Definition C17_arg_option : content := ListOffset [0; 3; 4] (IndexedOption [3; -1; 1; 0] (Numpy DInt [3; 1; 2; 8])).
Theorem C17_argsort_missing_refuted : den C17_arg_option = Some [VList [VInt 8; VNone; VInt 1]; VList [VInt 3]] /\
  run true true false C17_arg_option (-1) = Some (VList [VList [VInt 1; VInt 0; VNone]; VList [VInt 0]]).
Proof. split; vm_compute; reflexivity. Qed.
Print Assumptions C17_argsort_missing_refuted.
(** missing lists *)
Definition C17_missing_lists : content := ListOffset [0; 2; 4] (IndexedOption [0; -1; 1; 3] (ListOffset [0; 3; 3; 4; 5] (Numpy DInt [3; 1; 2; 1; 8]))).
Theorem C17_missing_lists_refuted : den C17_missing_lists = Some [VList [VList [VInt 3; VInt 1; VInt 2]; VNone]; VList [VList []; VList [VInt 8]]] /\
  exists it, outcome false C17_missing_lists 2 = Ok it /\ item_den it = None.
Proof. split; [reflexivity|]. eexists. split; vm_compute; reflexivity. Qed.
Print Assumptions C17_missing_lists_refuted.
(** an array of records gives one record of sorted columns; a list of records gives an invalid array *)
Definition C17_record : content := Record (Some ["x"]) 3 [Numpy DInt [3; 1; 2]].
Theorem C17_records_refuted : run false true false C17_record 0 = Some (VRec [("x", VList [VInt 1; VInt 2; VInt 3])]) /\
  den (ListOffset [0; 2; 3] C17_record) = Some [VList [VRec [("x", VInt 3)]; VRec [("x", VInt 1)]]; VList [VRec [("x", VInt 2)]]] /\
  exists it, outcome false (ListOffset [0; 2; 3] C17_record) 1 = Ok it /\ item_den it = None.
Proof. split; [vm_compute; reflexivity|]. split; [reflexivity|]. eexists. split; vm_compute; reflexivity. Qed.
Print Assumptions C17_records_refuted.
(** so the whole property does not hold *)
Theorem C17_all_layouts_refuted : ~ C17_claim.
Proof.
  intros H. destruct (H ZO (fun _ => true) (fun x => x) (fun _ => false) (fun _ _ => false) 20%nat true false C17_flat_option [VInt 3; VNone; VInt 1] eq_refl eq_refl) as (n & Hn).
  { right. vm_compute. reflexivity. }
  destruct (Hn (Nat.max n 20) (Nat.le_max_l _ _)) as (it & ws & E & D & HI).
  assert (EM : exists k, Nat.max n 20 = (3 + k)%nat) by (exists (Nat.max n 20 - 3)%nat; lia). destruct EM as (k & EM). rewrite EM in E. vm_compute in E. injection E as <-. vm_compute in D. injection D as <-.
  cbn in HI. destruct HI as [HP _]. apply Permutation_length in HP. discriminate HP.
Qed.
Print Assumptions C17_all_layouts_refuted.
