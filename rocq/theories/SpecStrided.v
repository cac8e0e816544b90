(** Specification of multidimensional arrays as NumPy defines them: element (i, j, ...) of an array is the item at byte
    offset + i * strides[0] + j * strides[1] + ...; a slice of an array is given by its shape and, for each of its elements, the
    element of the array that it is.  Of the model only the types of arrays and slice items are used. *)
From Verif Require Import Base Content KRange SpecSlice SpecArray Strided.
Local Open Scope list_scope.
Local Open Scope Z_scope.

(** ** Arrays *)
(** [idx] is the index of an element of an array of this shape *)
Definition inside (shape idx : list Z) : Prop := Forall2 (fun n i => 0 <= i < n) shape idx.
Fixpoint dot (idx strides : list Z) : Z :=
  match idx, strides with i :: idx, s :: strides => i * s + dot idx strides | _, _ => 0 end.
(** the [n] bytes at position [at_] *)
Definition block (mem : list Z) (at_ n : Z) : option (list Z) :=
  if (0 <=? at_) && (at_ + n <=? zlen mem) then Some (slice at_ (at_ + n) mem) else None.
Definition element (a : ndarray) (idx : list Z) : option (list Z) := block (nd_mem a) (nd_offset a + dot idx (nd_strides a)) (nd_itemsize a).
(** every element lies in the buffer *)
Definition wellformed (a : ndarray) : Prop :=
  zlen (nd_shape a) = zlen (nd_strides a) /\ Forall (fun n => 0 <= n) (nd_shape a) /\ 0 < nd_itemsize a /\
  forall idx, inside (nd_shape a) idx -> element a idx <> None.
(** all indices, in order *)
Fixpoint indices (shape : list Z) : list (list Z) :=
  match shape with
  | [] => [[]]
  | n :: shape => flat_map (fun i => map (cons i) (indices shape)) (zseq 0 n)
  end.

(** ** Slices *)
(** position [i] of [n], counted from the end when negative *)
Definition position (i n : Z) : option Z :=
  let k := if i <? 0 then i + n else i in if (0 <=? k) && (k <? n) then Some k else None.
(** the positions of a range *)
Definition positions (start stop step n : Z) : list Z := py_slice (opt64 start) (opt64 stop) step n.
(** Arrays in a slice, and integers together with them, are broadcast to one shape: a dimension of length 1 is repeated. *)
Definition repeated (p shape : list Z) : list Z := map (fun ni => if fst ni =? 1 then 0 else snd ni) (combine shape p).
(** what the index array, or the integer, says at index [p] of the common shape *)
Definition says (it : nditem) (p : list Z) : option Z :=
  match it with
  | NAt i => Some i
  | NArray index shape strides => nthZ index (dot (repeated p shape) strides)
  | _ => None
  end.
(** [common] is the common shape of the arrays, if there are any: then integers count as arrays *)
Definition fancy (common : option (list Z)) (it : nditem) : bool :=
  match it, common with NArray _ _ _, Some _ | NAt _, Some _ => true | _, _ => false end.
(** the number of dimensions that the items are about *)
Definition consumed (items : list nditem) : Z := zlen (filter (fun it => match it with NEllipsis | NNewAxis => false | _ => true end) items).

(** The shape of the slice.  [met] says that an index array has been met before; the first one puts the common shape in place of its
    dimension, the others only drop theirs.  An ellipsis keeps as many dimensions as the items after it leave over. *)
Fixpoint slice_shape (common : option (list Z)) (met : bool) (items : list nditem) (shape : list Z) : option (list Z) :=
  match items with
  | [] => Some shape
  | NNewAxis :: items => option_map (cons 1) (slice_shape common met items shape)
  | NEllipsis :: items =>
      let k := zlen shape - consumed items in
      if k <? 0 then None
      else option_map (app (firstn (Z.to_nat k) shape)) (slice_shape common met items (skipn (Z.to_nat k) shape))
  | NRange start stop step :: items =>
      match shape with
      | n :: shape => option_map (cons (zlen (positions start stop step n))) (slice_shape common met items shape)
      | [] => None
      end
  | it :: items =>
      match shape with
      | n :: shape =>
          match common with
          | Some c =>
              if forallb (fun p => match says it p with Some i => match position i n with Some _ => true | None => false end | None => false end) (indices c)
              then option_map (app (if met then [] else c)) (slice_shape common true items shape)
              else None
          | None =>
              match it with
              | NAt i => match position i n with Some _ => slice_shape common met items shape | None => None end
              | _ => None
              end
          end
      | [] => None
      end
  end.
(** The element of the array that is element [idx] of the slice.  [p] is the index into the common shape, once it is known. *)
Fixpoint source (common : option (list Z)) (p : option (list Z)) (items : list nditem) (shape idx : list Z) : option (list Z) :=
  match items with
  | [] => Some idx
  | NNewAxis :: items => source common p items shape (tl idx)
  | NEllipsis :: items =>
      let k := Z.to_nat (zlen shape - consumed items) in
      option_map (app (firstn k idx)) (source common p items (skipn k shape) (skipn k idx))
  | NRange start stop step :: items =>
      match shape, idx with
      | n :: shape, j :: idx =>
          match nthZ (positions start stop step n) j, source common p items shape idx with
          | Some i, Some src => Some (i :: src)
          | _, _ => None
          end
      | _, _ => None
      end
  | it :: items =>
      match shape with
      | n :: shape =>
          let '(q, rest) :=
            match common, p with
            | None, _ => ([], idx)
            | Some c, Some q => (q, idx)
            | Some c, None => (firstn (List.length c) idx, skipn (List.length c) idx)
            end in
          let p := match common with None => p | Some _ => Some q end in
          match says it q with
          | Some i =>
              match position i n, source common p items shape rest with
              | Some k, Some src => Some (k :: src)
              | _, _ => None
              end
          | None => None
          end
      | [] => None
      end
  end.

(** [s] is the slice [items] of [a] *)
Definition is_slice (common : option (list Z)) (items : list nditem) (a s : ndarray) : Prop :=
  slice_shape common false items (nd_shape a) = Some (nd_shape s) /\
  forall idx, inside (nd_shape s) idx ->
    exists src, source common None items (nd_shape a) idx = Some src /\ inside (nd_shape a) src /\ element s idx = element a src.

(** ** Slice items *)
(** An index array (strides count elements), all of whose elements are in its buffer. *)
Definition array_ok (index shape strides : list Z) : Prop :=
  shape <> [] /\ zlen shape = zlen strides /\ Forall (fun n => 0 <= n) shape /\ forall p, inside shape p -> nthZ index (dot p strides) <> None.
Definition item_ok (it : nditem) : Prop :=
  match it with
  | NRange _ _ step => step <> 0 /\ step <> kSliceNone     (* no step is written as 1 *)
  | NArray index shape strides => array_ok index shape strides
  | _ => True
  end.
(** NumPy's broadcasting: the common shape [b] of the index arrays has as many dimensions as each of them; in each dimension an array has the
    length of the common shape or 1, and some array has the length of the common shape. *)
Definition broadcast_to (b shape : list Z) : Prop := Forall2 (fun c n => n = c \/ n = 1) b shape.
Definition common_shape (items : list nditem) (b : list Z) : Prop :=
  (exists index shape strides, In (NArray index shape strides) items) /\
  (forall index shape strides, In (NArray index shape strides) items -> broadcast_to b shape) /\
  (forall k c, nthZ b k = Some c -> exists index shape strides, In (NArray index shape strides) items /\ nthZ shape k = Some c).
(** no dimension of length 1 is broadcast to length 0 *)
Definition no_empty_broadcast (items : list nditem) (b : list Z) : Prop :=
  forall index shape strides, In (NArray index shape strides) items -> Forall2 (fun c n => n = 1 -> c <> 0) b shape.
(** the index arrays and the integers stand next to each other *)
Definition array_or_integer (it : nditem) : bool := match it with NAt _ | NArray _ _ _ => true | _ => false end.
Definition adjacent (items : list nditem) : Prop :=
  exists before among after, items = before ++ among ++ after /\ existsb array_or_integer before = false /\ forallb array_or_integer among = true /\ existsb array_or_integer after = false.
Definition ellipses (items : list nditem) : Z := zlen (filter (fun it => match it with NEllipsis => true | _ => false end) items).

(** ** Nested lists *)
Fixpoint nested (shape : list Z) (f : list Z -> value) : value :=
  match shape with
  | [] => f []
  | n :: shape => VList (map (fun i => nested shape (fun idx => f (i :: idx))) (zseq 0 n))
  end.
