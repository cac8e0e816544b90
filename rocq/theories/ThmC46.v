(** C46: a copy of an array holds the same elements and shares no memory with it. *)
From Verif Require Import Base BaseLemmas Content SpecArray Copy SpecCopy PForm PCopy.
Local Open Scope string_scope. Local Open Scope list_scope. Local Open Scope Z_scope.

(** The whole property.  It fails for slices, see below. *)
Definition C46_claim : Prop := forall m n c, read m n = Ok c ->
  exists m' n', deep_copy m n = Ok (m', n') /\ read m' n' = Ok c.

(** The copy has the layout and the buffers' elements of the original.  It keeps them whatever is done to the buffers that were there before,
    and the original keeps its own whatever is done to the buffers of the copy.
    Missing: NumpyArrays that are contiguous and do not start where their buffer starts (false, see below); several dimensions. *)
Theorem C46_copy_partial : forall m n c, read m n = Ok c -> from_the_start n ->
  exists m' n', deep_copy m n = Ok (m', n') /\ read m' n' = Ok c /\ read m' n = Ok c /\
    (forall m'', same_buffers (zlen m) (zlen m') m' m'' -> read m'' n' = Ok c) /\
    (forall m'', same_buffers 0 (zlen m) m' m'' -> read m'' n = Ok c).
Proof.
  intros m n c E HW. destruct (all_copied n m c E HW) as (new & n' & D & R). exists (m ++ new), n'. split; [exact D|]. split; [apply R; intros k _; reflexivity|].
  split; [eapply read_same; [apply extended|exact E]|]. split; [exact R|]. intros m'' HS. eapply read_same; [|exact E]. intros k Hk. rewrite HS by exact Hk. exact (extended m new k Hk).
Qed.
Print Assumptions C46_copy_partial.
(** a record of lists and of every second number of the same buffer *)
Definition C46_memory : memory := [[0; 2; 3]; [10; 11; 12; 13; 14]; [0; 0; 2; -1]].
Definition C46_array : node :=
  MRecord (Some ["x"; "y"]) 2 [MListOffset (mkView 0 0 3) (MNumpy DInt 1 0 3 1); MIndexedOption (mkView 2 2 2) (MNumpy DInt 1 0 3 2)].
Example C46_copy_demo :
  match read C46_memory C46_array with Ok c => den c | _ => None end = Some [VRec [("x", VList [VInt 10; VInt 11]); ("y", VInt 14)]; VRec [("x", VList [VInt 12]); ("y", VNone)]] /\
  from_the_start C46_array /\
  match deep_copy C46_memory C46_array with
  | Ok (m', n') => match read ([[]; []; []] ++ skipn 3 m') n' with Ok c => den c | _ => None end
  | _ => None
  end = Some [VRec [("x", VList [VInt 10; VInt 11]); ("y", VInt 14)]; VRec [("x", VList [VInt 12]); ("y", VNone)]].
Proof. split; [vm_compute; reflexivity|]. split; [cbn; repeat split; auto|vm_compute; reflexivity]. Qed.

(** every slice of a NumpyArray that does not begin at its beginning: its elements are copied to the beginning of a new buffer, and the copy
    looks for them where they were, past the end of that buffer *)
Theorem C46_slice_refuted : forall m dt ptr offset length m' n', 0 < offset -> 0 < length ->
  deep_copy m (MNumpy dt ptr offset length 1) = Ok (m', n') -> read m' n' = UB.
Proof. exact sliced. Qed.
Print Assumptions C46_slice_refuted.
Example C46_slice_demo : exists m' n', read [[1; 2; 3]] (MNumpy DInt 0 1 2 1) = Ok (Numpy DInt [2; 3]) /\
  deep_copy [[1; 2; 3]] (MNumpy DInt 0 1 2 1) = Ok (m', n') /\ m' = [[1; 2; 3]; [2; 3]] /\ n' = MNumpy DInt 1 1 2 1.
Proof. eexists _, _. split; [vm_compute; reflexivity|]. split; [vm_compute; reflexivity|]. split; reflexivity. Qed.
Theorem C46_claim_refuted : ~ C46_claim.
Proof.
  intros H. destruct (H [[1; 2; 3]] (MNumpy DInt 0 1 2 1) (Numpy DInt [2; 3]) eq_refl) as (m' & n' & D & R). rewrite (sliced [[1; 2; 3]] DInt 0 1 2 m' n') in R; [discriminate|lia|lia|exact D].
Qed.
Print Assumptions C46_claim_refuted.
