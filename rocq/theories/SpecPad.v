(** Specification of padding: missing values are added at the end of a list until it has [target] elements; with [clip], what is
    beyond [target] elements is cut off. *)
From Verif Require Import Base Content SpecArray SpecForm SpecAxis.

Definition padded (clip : bool) (target : Z) (l : list value) : list value :=
  let p := l ++ repeat VNone (Z.to_nat (target - zlen l)) in
  if clip then slice 0 target p else p.
Definition pad (clip : bool) (target : Z) (l : list value) : value := VList (padded clip target l).

(** every branch of the type has lists [k] levels down (an array of unknown type counts as having none) *)
Fixpoint has_lists (k : Z) (f : form) {struct f} : bool :=
  match f with
  | FUnknown | FNum _ => false
  | FList f' => if k =? 1 then true else has_lists (k - 1) f'
  | FOption f' => has_lists k f'
  | FRecord _ fs => forallb (has_lists k) fs
  | FUnion fs => forallb (has_lists k) fs
  end.

(** values of a column of a list of records or tuples; missing rows are skipped *)
Definition column (i : nat) (vs : list value) : list value :=
  flat_map (fun v =>
    match v with
    | VRec fields => match nth_error fields i with Some kv => [snd kv] | None => [] end
    | VTuple l => match nth_error l i with Some x => [x] | None => [] end
    | _ => []
    end) vs.
Definition values (c : content) : list value := match den c with Some vs => vs | None => [] end.

(** rpad reads the first element of a ListArray, so there must be one.  [vs] are the elements that are seen in [c].  A
    ListOffsetArray below two or more IndexedArrays or option-type nodes ([n] of them) may have been turned into a ListArray. *)
Fixpoint nonempty_lists (n : nat) (k : Z) (c : content) (vs : list value) {struct c} : Prop :=
  match c with
  | Empty | Numpy _ _ | Union _ _ _ => True
  | ListA _ _ c' => if k =? 1 then exists v, In v vs /\ v <> VNone else nonempty_lists 0 (k - 1) c' (values c')
  | ListOffset _ c' => if k =? 1 then (n <= 1)%nat \/ exists v, In v vs /\ v <> VNone else nonempty_lists 0 (k - 1) c' (values c')
  | Regular _ _ c' => if k =? 1 then True else nonempty_lists 0 (k - 1) c' (values c')
  | Indexed _ c' | IndexedOption _ c' | ByteMasked _ _ c' | BitMasked _ _ _ _ c' =>
      if k =? 1 then nonempty_lists (S n) k c' vs else nonempty_lists 0 k c' (values c')
  | Unmasked c' => if k =? 1 then nonempty_lists n k c' vs else nonempty_lists 0 k c' (values c')
  | Record _ _ cs =>
      (fix go (i : nat) (cs : list content) : Prop :=
         match cs with
         | [] => True
         | c' :: cs => (if k =? 1 then nonempty_lists n k c' (column i vs) else nonempty_lists 0 k c' (values c')) /\ go (S i) cs
         end) O cs
  end.
