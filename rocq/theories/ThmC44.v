(** C44: is_unique says whether the elements of an array are all different, and unique gives every number once, in increasing order. *)
From Coq Require Import Permutation.
From Verif Require Import Base BaseLemmas Content KCore Core Convert KReduce Reduce KSort Sort Unique SpecArray SpecForm SpecSort SpecUnique PList PUnique PUnique2 PUnique3 PUnique4.
Local Open Scope string_scope. Local Open Scope list_scope. Local Open Scope Z_scope.

(** two elements are equal *)
Fixpoint equal_values (real : order) (v w : value) {struct v} : bool :=
  let all := fix all (l l' : list value) {struct l} : bool :=
    match l, l' with [], [] => true | v :: l, w :: l' => equal_values real v w && all l l' | _, _ => false end in
  match v, w with
  | VList l, VList l' => all l l'
  | VTuple l, VTuple l' => all l l'
  | VRec l, VRec l' =>
      (fix fields (l l' : list (string * value)) {struct l} : bool :=
         match l, l' with [], [] => true | (k, v) :: l, (k', w) :: l' => (k =? k')%string && equal_values real v w && fields l l' | _, _ => false end) l l'
  | _, _ => equal_numbers real v w
  end.
(** The whole property: whatever the array, an answer says whether two elements that are not missing are equal.
    It fails for lists and records, see below. *)
Definition C44_claim : Prop :=
  forall real is64 index_offset fuel c vs b,
  den c = Some vs -> no_nan real vs -> is_unique real is64 index_offset fuel c = Ok b ->
  (b = true <-> forall i j v w, i < j -> nthZ (present vs) i = Some v -> nthZ (present vs) j = Some w -> equal_values real v w = false).

(** ** numbers *)
(** unique: every number once, in increasing order *)
Theorem C44_unique_numbers : forall real c vs,
  match c with Empty | Numpy _ _ => True | _ => False end -> den c = Some vs -> no_nan real vs ->
  exists c' ws, unique real c = Ok c' /\ den c' = Some ws /\ distinct_values real vs ws.
Proof.
  intros real c vs Hc Hd HN. destruct c as [ |dt data| | | | | | | | | | ]; try contradiction.
  - cbn in Hd. injection Hd as <-. exists Empty, []. split; [reflexivity|]. split; [reflexivity|]. split; [|split; [|split]].
    + intros i j x y _ Hx. rewrite nthZ_nil in Hx. discriminate.
    + intros i j x y _ Hx. rewrite nthZ_nil in Hx. discriminate.
    + intros w [].
    + intros v [].
  - cbn [den] in Hd. injection Hd as <-. destruct (unique_numbers real dt data HN) as (out & E & HD & _). exists (Numpy dt out), (map (scalar dt) out). cbn [unique]. rewrite E. cbn [bind den]. auto.
Qed.
Print Assumptions C44_unique_numbers.

(** what this means for integers *)
Theorem C44_unique_integers : forall real data,
  exists out, unique real (Numpy DInt data) = Ok (Numpy DInt out) /\
    (forall i j x y, i < j -> nthZ out i = Some x -> nthZ out j = Some y -> x < y) /\ (forall x, In x out <-> In x data).
Proof.
  intros real data. assert (HN : no_nan real (map (scalar DInt) data)).
  { split; [repeat split; intros; match goal with H : In (VReal _) _ |- _ => apply in_map_iff in H; destruct H as (? & H & _); discriminate end|].
    intros x y H. apply in_map_iff in H. destruct H as (? & H & _). discriminate. }
  destruct (unique_numbers real DInt data HN) as (out & E & (H1 & H2 & H3 & H4) & _). exists out. cbn [unique]. rewrite E. split; [reflexivity|]. split.
  - intros i j x y Hij Hx Hy. assert (V1 : nthZ (map (scalar DInt) out) i = Some (VInt x)) by (rewrite nthZ_map, Hx; reflexivity). assert (V2 : nthZ (map (scalar DInt) out) j = Some (VInt y)) by (rewrite nthZ_map, Hy; reflexivity).
    specialize (H1 i j _ _ Hij V1 V2). specialize (H2 i j _ _ Hij V1 V2). cbn in H1, H2. lia.
  - intros x. split; intros Hx.
    + specialize (H3 (VInt x) (in_map (scalar DInt) _ _ Hx)). apply in_map_iff in H3. destruct H3 as (y & Ey & Hy). injection Ey as ->. exact Hy.
    + destruct (H4 (VInt x) (in_map (scalar DInt) _ _ Hx)) as (w & Hw & Ew). apply in_map_iff in Hw. destruct Hw as (y & <- & Hy). cbn in Ew. apply Z.eqb_eq in Ew. subst. exact Hy.
Qed.
Print Assumptions C44_unique_integers.
Definition integers : order := {| ole := Z.leb; olt := Z.ltb; oeq := Z.eqb |}.
Example C44_unique_demo : unique integers (Numpy DInt [5; 6; 1; 3; 4; 5; 1]) = Ok (Numpy DInt [1; 3; 4; 5; 6]).
Proof. vm_compute. reflexivity. Qed.

(** is_unique of numbers, also when they are picked by an index, some of them missing.
    Missing values do not count.  The index starts where its buffer starts. *)
Theorem C44_is_unique_partial : forall real is64 c vs,
  den c = Some vs -> picked_numbers c = true -> no_nan real vs ->
  exists n, forall fuel, (n <= fuel)%nat ->
  exists b, is_unique real is64 (fun _ => 0) fuel c = Ok b /\ (b = true <-> all_different real (present vs)).
Proof. intros real is64 c vs Hd HP HN. exists (picked_levels c). intros fuel Hf. exact (picked_unique real is64 fuel c vs Hf Hd HP HN). Qed.
Print Assumptions C44_is_unique_partial.
Example C44_is_unique_demo :
  let c := IndexedOption [3; -1; 0; 1; -1] (Indexed [4; 2; 4; 0] (Numpy DReal [7; 7; 5; 8; 9])) in
  den c = Some [VReal 7; VNone; VReal 9; VReal 5; VNone] /\ picked_numbers c = true /\ no_nan integers [VReal 7; VNone; VReal 9; VReal 5; VNone] /\
  is_unique integers (fun _ => true) (fun _ => 0) 9 c = Ok true /\
  is_unique integers (fun _ => true) (fun _ => 0) 9 (IndexedOption [3; -1; 0; 1; 2] (Indexed [4; 2; 4; 0] (Numpy DReal [7; 7; 5; 8; 9]))) = Ok false.
Proof.
  repeat split; intros; cbn in *; try reflexivity.
  - destruct (Z.leb_spec x y); [now left|right; apply Z.leb_le; lia].
  - lia.
  - destruct (Z.ltb_spec x y); destruct (Z.leb_spec y x); try reflexivity; lia.
  - lia.
  - lia.
  - destruct (Z.eqb_spec x y); destruct (Z.leb_spec x y); destruct (Z.leb_spec y x); cbn; try reflexivity; lia.
Qed.

(** ** lists of numbers *)
(** Proved: two lists are only reported as equal when they hold the same numbers (the order of the numbers is ignored, as the tests of the
    library want it).  Missing: the other direction, which is false (see below); lists of anything but numbers. *)
Definition list_of_numbers (c : content) : Prop :=
  match c with ListA _ _ (Numpy _ _) | ListOffset _ (Numpy _ _) | Regular _ _ (Numpy _ _) => True | _ => False end.
Theorem C44_lists_partial : forall real is64 index_offset c vs,
  list_of_numbers c -> den c = Some vs -> Forall (fun v => match v with VList l => zlen l < 2 ^ 48 | _ => True end) vs ->
  exists n, forall fuel, (n <= fuel)%nat ->
  exists b, is_unique real is64 index_offset fuel c = Ok b /\
    (b = false -> exists i j l l', i < j /\ nthZ vs i = Some (VList l) /\ nthZ vs j = Some (VList l') /\ same_numbers real l l').
Proof.
  intros real is64 index_offset c vs Hc Hd HS. exists 2%nat. intros fuel Hf. destruct fuel as [|[|fuel]]; [lia|lia|].
  assert (HV : exists l dt data, list_view c = Some (l, Numpy dt data)) by (destruct c as [ | |s t c|o c|s z c| | | | | | | ]; try contradiction; destruct c; try contradiction; do 3 eexists; reflexivity).
  destruct HV as (l & dt & data & Hv). exact (lists_unique real is64 index_offset fuel c dt data l vs Hv Hd HS).
Qed.
Print Assumptions C44_lists_partial.
Example C44_lists_demo :
  let c := ListOffset [0; 3; 3; 5; 6; 9; 10] (Numpy DInt [33; 11; 22; 0; 44; 99; 22; 33; 11; 55]) in
  list_of_numbers c /\ is_unique integers (fun _ => true) (fun _ => 0) 2 c = Ok false /\
  is_unique integers (fun _ => true) (fun _ => 0) 2 (ListA [0; 3; 5] [3; 5; 6] (Numpy DInt [33; 11; 22; 0; 44; 99])) = Ok true.
Proof. split; [exact I|]. split; vm_compute; reflexivity. Qed.

(** the last list is not compared with the others *)
Theorem C44_last_list_refuted : exists c, den c = Some [VList [VInt 1]; VList [VInt 1]] /\ is_unique integers (fun _ => true) (fun _ => 0) 2 c = Ok true.
Proof. exists (ListOffset [0; 1; 2] (Numpy DInt [1; 1])). split; vm_compute; reflexivity. Qed.
Print Assumptions C44_last_list_refuted.
(** two equal lists are forgotten when two later lists of the same length differ *)
Theorem C44_later_lists_refuted : exists c, den c = Some [VList [VInt 1]; VList [VInt 1]; VList [VInt 2]; VList [VInt 9]] /\ is_unique integers (fun _ => true) (fun _ => 0) 2 c = Ok true.
Proof. exists (ListOffset [0; 1; 2; 3; 4] (Numpy DInt [1; 1; 2; 9])). split; vm_compute; reflexivity. Qed.
Print Assumptions C44_later_lists_refuted.
(** a single list without elements is said to be repeated *)
Theorem C44_empty_list_refuted : exists c, den c = Some [VList []] /\ is_unique integers (fun _ => true) (fun _ => 0) 2 c = Ok false.
Proof. exists (ListOffset [0; 0] Empty). split; vm_compute; reflexivity. Qed.
Print Assumptions C44_empty_list_refuted.
(** the positions of lists are used as positions of numbers, past the end of the buffer *)
Theorem C44_nested_lists_refuted : exists c, den c = Some [VList [VList []; VList []]] /\ is_unique integers (fun _ => true) (fun _ => 0) 9 c = UB.
Proof. exists (ListOffset [0; 2] (ListOffset [0; 0; 0] (Numpy DInt []))). split; vm_compute; reflexivity. Qed.
Print Assumptions C44_nested_lists_refuted.

(** ** records *)
(** Proved: records of two or more fields of numbers that are reported as unique are different.
    Missing: the other direction; it is false, because an answer is never false (see below). *)
Theorem C44_records_partial : forall real is64 index_offset fuel keys len cs vs,
  den (Record keys len cs) = Some vs -> 2 <= zlen cs ->
  (forall c, In c cs -> exists dt data, c = Numpy dt data /\ no_nan real (map (scalar dt) data)) ->
  is_unique real is64 index_offset (S (S fuel)) (Record keys len cs) = Ok true -> NoDup vs.
Proof. intros. eapply records_unique; eassumption. Qed.
Print Assumptions C44_records_partial.
Example C44_records_demo :
  let c := Record (Some ["x"; "y"]) 3 [Numpy DInt [1; 1; 2]; Numpy DInt [4; 5; 6]] in
  den c <> None /\ is_unique integers (fun _ => true) (fun _ => 0) 2 c = Ok true.
Proof. split; [vm_compute; discriminate|vm_compute; reflexivity]. Qed.
(** records are never reported as repeated *)
Theorem C44_records_never_false_refuted : forall real is64 index_offset fuel keys len cs b,
  is_unique real is64 index_offset fuel (Record keys len cs) = Ok b -> b = true.
Proof.
  intros real is64 index_offset fuel keys len cs b H. destruct fuel as [|fuel]; [discriminate|]. rewrite record_unfold in H. destruct cs; [injection H as <-; reflexivity|]. eapply go_true; eassumption.
Qed.
Print Assumptions C44_records_never_false_refuted.
Theorem C44_records_refuted : exists c, den c = Some [VRec [("x", VInt 1)]; VRec [("x", VInt 1)]] /\ is_unique integers (fun _ => true) (fun _ => 0) 2 c = Ok true.
Proof. exists (Record (Some ["x"]) 2 [Numpy DInt [1; 1]]). split; vm_compute; reflexivity. Qed.
Print Assumptions C44_records_refuted.

(** ** views *)
(** an index that does not start where its buffer starts: its first elements are not looked at *)
Theorem C44_sliced_index_refuted : exists c, den c = Some [VInt 7; VInt 7] /\ is_unique integers (fun _ => true) (fun _ => 1) 9 c = Ok true.
Proof. exists (Indexed [0; 0] (Numpy DInt [7; 8])). split; vm_compute; reflexivity. Qed.
Print Assumptions C44_sliced_index_refuted.
(** a contiguous part of a longer buffer: only its own numbers count *)
Theorem C44_unique_view : forall real dt buf offset length,
  0 <= offset -> 0 <= length -> offset + length <= zlen buf -> no_nan real (map (scalar dt) (slice offset (offset + length) buf)) ->
  exists out, unique_data (order_of real dt) buf offset length = Ok out /\
    distinct_values real (map (scalar dt) (slice offset (offset + length) buf)) (map (scalar dt) out).
Proof.
  intros real dt buf offset length Ho Hl Hb HN. destruct (unique_numbers real dt _ HN) as (out & E & HD & _). exists out. split; [|exact HD]. rewrite <- E. clear E HD.
  rewrite zlen_slice by lia. replace (offset + length - offset) with length by lia. unfold unique_data. destruct (awkward_content_reduce_zeroparents_64 _ _); try reflexivity. cbn [bind].
  rewrite (view_Ok offset) by lia. rewrite (view_Ok 0) by (rewrite ?zlen_slice by lia; lia). cbn [bind]. rewrite Z.add_0_l.
  assert (ES : slice 0 length (slice offset (offset + length) buf) = slice offset (offset + length) buf); [|rewrite ES; reflexivity].
  replace length with (zlen (slice offset (offset + length) buf)) at 1 by (rewrite zlen_slice by lia; lia). apply slice_full.
Qed.
Print Assumptions C44_unique_view.
Example C44_unique_view_demo : unique_data integers [9; 3; 1; 3; 2; 0] 1 4 = Ok [1; 2; 3].
Proof. vm_compute. reflexivity. Qed.
(** every second number of a buffer: the numbers between them are taken instead *)
Theorem C44_strided_refuted : exists buf offset stride length,
  map (fun i => nthZ buf (offset + i * stride)) (zseq 0 length) = [Some 1; Some 1] /\ unique_data integers buf offset length = Ok [1; 2].
Proof. exists [1; 2; 1; 4], 0, 2, 2. split; vm_compute; reflexivity. Qed.
Print Assumptions C44_strided_refuted.

Theorem C44_claim_refuted : ~ C44_claim.
Proof.
  intros H. specialize (H integers (fun _ => true) (fun _ => 0) 2%nat (ListOffset [0; 1; 2] (Numpy DInt [1; 1])) _ true eq_refl).
  destruct H as [H _]; [|vm_compute; reflexivity|].
  - split; [repeat split; intros; cbn in *; intuition discriminate|]. intros x y Hx. cbn in Hx. intuition discriminate.
  - specialize (H eq_refl 0 1 (VList [VInt 1]) (VList [VInt 1]) ltac:(lia) eq_refl eq_refl). vm_compute in H. discriminate.
Qed.
Print Assumptions C44_claim_refuted.
