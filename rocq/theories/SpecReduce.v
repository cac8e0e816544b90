(** Specification of the reducers (ak.sum, ak.prod, ak.count, ak.count_nonzero, ak.any, ak.all, ak.min, ak.max, ak.argmin, ak.argmax).

    Only the names of the reducers ([reducer]) and the arithmetic of floating point numbers ([floats]) come from the model. *)
From Verif Require Import Base Content SpecArray SpecForm SpecMerge Reduce.

(** what every member of a group is combined into; a member comes with its position in the list it is in *)
Definition member : Type := Z * value.

Definition number (v : value) : Z := match v with VInt z => z | VReal x => x | VBool b => if b then 1 else 0 | _ => 0 end.
Definition truthy (F : floats) (v : value) : bool :=
  match v with VInt z => negb (z =? 0) | VReal x => fnz F x | VBool b => b | _ => false end.
Definition less (F : floats) (v w : value) : bool :=
  match v, w with
  | VInt a, VInt b => a <? b
  | VReal a, VReal b => flt F a b
  | VBool a, VBool b => negb a && b
  | _, _ => false
  end.

(** the 64-bit integer that is equal to [z] modulo 2^64 *)
Definition int64 (z : Z) : Z := let m := z mod 2 ^ 64 in if m <? 2 ^ 63 then m else m - 2 ^ 64.
Definition total (l : list Z) : Z := fold_right Z.add 0 l.
Definition product (l : list Z) : Z := fold_right Z.mul 1 l.

(** the first member that no other member beats *)
Definition winner (beats : value -> value -> bool) (ms : list member) : option member :=
  fold_left (fun best m => match best with None => Some m | Some b => if beats (snd m) (snd b) then Some m else Some b end) ms None.
Definition position (m : option member) : value := VInt (match m with Some m => fst m | None => -1 end).

(** the members [ms] are numbers of type [dt] *)
Definition reduced (F : floats) (r : reducer) (dt : dtype) (ms : list member) : value :=
  let vs := map snd ms in
  match r, dt with
  | Count, _ => VInt (zlen vs)
  | CountNonzero, _ | Sum, DBool => VInt (zlen (filter (truthy F) vs))
  | Sum, DReal => VReal (fold_left (fadd F) (map number vs) (fzero F))
  | Sum, DInt => VInt (int64 (total (map number vs)))
  | Prod, DReal => VReal (fold_left (fmul F) (map number vs) (fone F))
  | Prod, _ => VInt (int64 (product (map number vs)))
  | Any, _ => VBool (existsb (truthy F) vs)
  | All, _ => VBool (forallb (truthy F) vs)
  | Min _, DBool => VBool (forallb (truthy F) vs)
  | Min i, DInt => VInt (fold_right Z.min (match i with Some (z, _) => z | None => max_int64 end) (map number vs))
  | Min i, DReal => VReal (fold_left (fun t x => if flt F x t then x else t) (map number vs) (match i with Some (_, x) => x | None => finf F end))
  | Max _, DBool => VBool (existsb (truthy F) vs)
  | Max i, DInt => VInt (fold_right Z.max (match i with Some (z, _) => z | None => min_int64 end) (map number vs))
  | Max i, DReal => VReal (fold_left (fun t x => if flt F t x then x else t) (map number vs) (match i with Some (_, x) => x | None => fninf F end))
  | Argmin, _ => position (winner (less F) ms)
  | Argmax, _ => position (winner (fun v w => less F w v) ms)
  end.

Definition enumerate (l : list value) : list member := combine (zseq 0 (zlen l)) l.
Definition present (m : member) : bool := match snd m with VNone => false | _ => true end.
Definition field (i : Z) (v : value) : value :=
  match (match v with VRec l => nthZ (map snd l) i | VTuple l => nthZ l i | _ => None end) with Some w => w | None => VNone end.

(** the number of list levels of a type in which every branch has the same number *)
Fixpoint levels (f : form) : option Z :=
  match f with
  | FUnknown | FNum _ => Some 1
  | FList f' => option_map (Z.add 1) (levels f')
  | FOption f' => levels f'
  | FRecord _ fs | FUnion fs =>
      match map levels fs with
      | [] => Some 1
      | Some d :: ds => if forallb (fun d' => match d' with Some d' => d' =? d | None => false end) ds then Some d else None
      | None :: _ => None
      end
  end.
Definition has_levels (f : form) (k : Z) : bool := match levels f with Some d => d =? k | None => false end.

Section Reduced.
Variable F : floats.
Variable r : reducer.
Variable mask : bool.     (* mask_identity: is the result missing if there is nothing to reduce? *)

Definition leaf (keepdims : bool) (dt : dtype) (ms : list member) : value :=
  let v := match ms with [] => if mask then VNone else reduced F r dt ms | _ => reduced F r dt ms end in
  if keepdims then VList [v] else v.

(** the members of the lists at position [j] *)
Definition column (ms : list member) (j : Z) : list member :=
  flat_map (fun m => match snd m with VList l => match nthZ l j with Some v => [(fst m, v)] | None => [] end | _ => [] end) ms.
Definition width (ms : list member) : Z :=
  fold_right Z.max 0 (map (fun m => match snd m with VList l => zlen l | _ => 0 end) ms).

(** [red keepdims k f ms]: reduce the group of members [ms] of type [f] along the axis [k] levels above the innermost one
    (k = 1: the innermost lists are reduced) *)
Fixpoint red (keepdims : bool) (k : Z) (f : form) (ms : list member) {struct f} : value :=
  match f with
  | FUnknown => leaf keepdims (preferred_dtype r) ms
  | FNum dt => leaf keepdims dt ms
  | FOption f' => if has_levels f' k then red keepdims k f' (filter present ms) else red keepdims k f' ms
  | FList f' =>
      if has_levels f k then
        let l := VList (map (fun j => red false (k - 1) f' (column ms j)) (zseq 0 (width ms))) in
        if keepdims then VList [l] else l
      else VList (map (fun m => match snd m with VList l => red keepdims k f' (enumerate l) | v => v end) ms)
  | FRecord keys fs =>
      mkrow keys ((fix fields (i : Z) (fs : list form) : list value :=
        match fs with
        | [] => []
        | f :: fs => red keepdims k f (map (fun m => (fst m, field i (snd m))) ms) :: fields (i + 1) fs
        end) 0 fs)
  | FUnion _ => VNone
  end.
End Reduced.

(** ** The arrays the theorems are about *)
(** the fields of every record type are not lists *)
Fixpoint flat_records (f : form) : bool :=
  match f with
  | FUnknown | FNum _ => true
  | FList f | FOption f => flat_records f
  | FRecord _ fs | FUnion fs => forallb (fun f => has_levels f 1) fs
  end.
(** the same, but the type may be a record of such types *)
Fixpoint top_records (f : form) : bool := match f with FRecord _ fs => forallb top_records fs | _ => flat_records f end.

Definition is_list (c : content) : bool := match c with ListA _ _ _ | ListOffset _ _ | Regular _ _ _ => true | _ => false end.
(** option types directly around numbers *)
Fixpoint unindexed (c : content) : bool :=
  match c with
  | Indexed _ _ | Record _ _ _ | Union _ _ _ => false
  | IndexedOption _ c | ByteMasked _ _ c | BitMasked _ _ _ _ c | Unmasked c => unindexed c
  | _ => true
  end.

(** [zb]: the offsets of every list node start at zero; otherwise no list is inside an option type or indexed.
    [pos]: for the reducers that return positions *)
Fixpoint prepared (zb pos : bool) (c : content) {struct c} : Prop :=
  let inner c' := has_levels (form_of c') 1 = true \/ (zb = true /\ is_list c' = true) in
  match c with
  | Empty | Numpy _ _ => True
  | ListOffset offsets c' => (if zb then nthZ offsets 0 = Some 0 else Forall (fun o => 0 <= o <= length_ c') offsets) /\ prepared zb pos c'
  | ListA _ _ c' | Regular _ _ c' => prepared zb pos c'
  | Indexed _ c' => inner c' /\ prepared zb pos c'
  | IndexedOption _ c' | ByteMasked _ _ c' | BitMasked _ _ _ _ c' | Unmasked c' =>
      inner c' /\ (pos = true -> is_list c' = true \/ unindexed c' = true) /\ prepared zb pos c'
  | Record _ _ cs | Union _ _ cs => fold_right and True (map (prepared zb pos) cs)
  end.

(** lists of numbers, or of option types directly around numbers *)
Definition plain_lists (c : content) : bool := match c with ListA _ _ c' | ListOffset _ c' | Regular _ _ c' => unindexed c' | _ => false end.
