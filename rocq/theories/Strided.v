(** NumpyArray with any number of dimensions: a buffer of bytes, a shape, and a stride in bytes for each dimension
    (include/awkward/array/NumpyArray.h).  Elements, ranges, slices, making contiguous, picking rows, nested lists.

    Simplifications: no identities and parameters; sizes and positions are unbounded integers (64 bits in the C++).  A copy of rows
    into fresh memory of exactly their size is the concatenation of the rows.  Slices with missing values, jagged arrays and fields
    (getitem_too_general, NumpyArray.cpp:1315-1328; SliceField) are not modelled. *)
From Verif Require Import Base Content KRange KGetitem KCore Core.
Local Open Scope string_scope.
Local Open Scope list_scope.
Local Open Scope Z_scope.

Record ndarray := mkND { nd_mem : list Z; nd_shape : list Z; nd_strides : list Z; nd_offset : Z; nd_itemsize : Z }.

(** memcpy of [n] bytes from position [from]: nothing is read when [n] is 0 *)
Definition bytes (mem : list Z) (from n : Z) : res (list Z) :=
  if n =? 0 then Ok [] else if (0 <=? from) && (0 <=? n) && (from + n <=? zlen mem) then Ok (slice from (from + n) mem) else UB.

(** ** Elements and ranges *)
(** NumpyArray::getitem_at_nowrap, NumpyArray.cpp:1223-1247 *)
Definition nd_at_nowrap (a : ndarray) (at_ : Z) : res ndarray :=
  match nd_shape a, nd_strides a with
  | _ :: shape, s :: strides => Ok (mkND (nd_mem a) shape strides (nd_offset a + s * at_) (nd_itemsize a))
  | _, _ => UB
  end.
(** NumpyArray::getitem_at, NumpyArray.cpp:1208-1220 *)
Definition nd_at (a : ndarray) (at_ : Z) : res ndarray :=
  match nd_shape a with
  | n :: _ =>
      let regular_at := if at_ <? 0 then at_ + n else at_ in
      if (regular_at <? 0) || (n <=? regular_at) then Err "index out of range" else nd_at_nowrap a regular_at
  | [] => UB
  end.
(** NumpyArray::getitem_range_nowrap, NumpyArray.cpp:1259-1284 *)
Definition nd_range_nowrap (a : ndarray) (start stop : Z) : res ndarray :=
  match nd_shape a, nd_strides a with
  | _ :: shape, s :: _ => Ok (mkND (nd_mem a) ((stop - start) :: shape) (nd_strides a) (nd_offset a + s * start) (nd_itemsize a))
  | _, _ => UB
  end.
(** NumpyArray::getitem_range, NumpyArray.cpp:1250-1256 *)
Definition nd_range (a : ndarray) (start stop : Z) : res ndarray :=
  match nd_shape a with
  | n :: _ =>
      let '(i, j) := regularize_rangeslice start stop true (negb (start =? kSliceNone)) (negb (stop =? kSliceNone)) n in
      nd_range_nowrap a i j
  | [] => UB
  end.

(** ** Contiguous arrays *)
(** NumpyArray::iscontiguous, NumpyArray.cpp:3948-3955: from the last dimension to the first *)
Fixpoint iscontiguous_from (x : Z) (rshape rstrides : list Z) : bool :=
  match rshape, rstrides with
  | n :: rshape, s :: rstrides => (x =? s) && iscontiguous_from (x * n) rshape rstrides
  | _, _ => true
  end.
Definition nd_iscontiguous (a : ndarray) : bool := iscontiguous_from (nd_itemsize a) (rev (nd_shape a)) (rev (nd_strides a)).
(** awkward_NumpyArray_contiguous_init.cpp:9-17 *)
Definition awkward_NumpyArray_contiguous_init (to : list Z) (skip stride : Z) : res (list Z) :=
  for_ 0 skip (fun i to => wr to i (i * stride)) to.
(** awkward_NumpyArray_contiguous_next.cpp:9-21 *)
Definition awkward_NumpyArray_contiguous_next (topos frompos : list Z) (length skip stride : Z) : res (list Z) :=
  for_ 0 length (fun i topos => for_ 0 skip (fun j topos => let* p := rd frompos i in wr topos (i * skip + j) (p + j * stride)) topos) topos.
(** awkward_NumpyArray_contiguous_copy.cpp:9-19; [base] is the position of the data *)
Definition awkward_NumpyArray_contiguous_copy (mem : list Z) (base len stride : Z) (pos : list Z) : res (list Z) :=
  let* rows := mapres (fun i => let* p := rd pos i in bytes mem (base + p) stride) (zseq 0 len) in Ok (concat rows).
(** NumpyArray::contiguous_next, NumpyArray.cpp:3984-4071, with flatten_shape and flatten_strides (1629-1649) *)
Fixpoint contiguous_next (mem : list Z) (offset itemsize : Z) (shape strides : list Z) (bytepos : list Z) {struct strides} : res ndarray :=
  match strides with
  | [] => UB
  | s :: strides' =>
      if nd_iscontiguous (mkND mem shape strides offset itemsize) then
        let* out := awkward_NumpyArray_contiguous_copy mem offset (zlen bytepos) s bytepos in
        Ok (mkND out shape strides 0 itemsize)
      else
        match shape, strides' with
        | [_], _ =>
            let* out := awkward_NumpyArray_contiguous_copy mem offset (zlen bytepos) itemsize bytepos in
            Ok (mkND out shape [itemsize] 0 itemsize)
        | n0 :: n1 :: shape', s1 :: _ =>
            let* nextbytepos := awkward_NumpyArray_contiguous_next (alloc (zlen bytepos * n1)) bytepos (zlen bytepos) n1 s1 in
            let* out := contiguous_next mem offset itemsize (n0 * n1 :: shape') strides' nextbytepos in
            match nd_strides out with
            | t :: _ => Ok (mkND (nd_mem out) shape (n1 * t :: nd_strides out) (nd_offset out) itemsize)
            | [] => UB
            end
        | _, _ => UB
        end
  end.
(** NumpyArray::contiguous, NumpyArray.cpp:3958-3981 *)
Definition nd_contiguous (a : ndarray) : res ndarray :=
  if nd_iscontiguous a then Ok a
  else
    match nd_shape a, nd_strides a with
    | n :: _, s :: _ =>
        let* bytepos := awkward_NumpyArray_contiguous_init (alloc n) n s in
        contiguous_next (nd_mem a) (nd_offset a) (nd_itemsize a) (nd_shape a) (nd_strides a) bytepos
    | _, _ => UB
    end.

(** ** Picking rows *)
(** awkward_NumpyArray_getitem_next_null.cpp:9-20 *)
Definition awkward_NumpyArray_getitem_next_null (mem : list Z) (base len stride : Z) (pos : list Z) : res (list Z) :=
  let* rows := mapres (fun i => let* p := rd pos i in bytes mem (base + p * stride) stride) (zseq 0 len) in Ok (concat rows).
(** NumpyArray::carry, NumpyArray.cpp:1452-1493 *)
Definition nd_carry (a : ndarray) (carry : list Z) : res ndarray :=
  let* a := nd_contiguous a in
  match nd_shape a, nd_strides a with
  | n :: shape, s :: _ =>
      let* arange := awkward_Index_iscontiguous carry (zlen carry) in
      if arange then (if zlen carry =? n then Ok a else nd_range_nowrap a 0 (zlen carry))
      else
        let* out := awkward_NumpyArray_getitem_next_null (nd_mem a) (nd_offset a) (zlen carry) s carry in
        Ok (mkND out (zlen carry :: shape) (nd_strides a) 0 (nd_itemsize a))
  | _, _ => UB
  end.

(** ** Nested lists *)
(** the items of a contiguous buffer; [decode] gives the number that some bytes stand for *)
Definition nd_items (decode : list Z -> Z) (mem : list Z) (offset itemsize n : Z) : res (list Z) :=
  mapres (fun i => let* b := bytes mem (offset + i * itemsize) itemsize in Ok (decode b)) (zseq 0 n).
Fixpoint nest (shape : list Z) (out : content) : res content :=
  match shape with
  | n :: ((m :: _) as shape') => let* inner := nest shape' out in mkRegular m n inner
  | _ => Ok out
  end.
(** NumpyArray::toRegularArray, NumpyArray.cpp:475-504 *)
Definition nd_toRegularArray (decode : list Z -> Z) (dt : dtype) (a : ndarray) : res content :=
  let* c := nd_contiguous a in
  let* items := nd_items decode (nd_mem c) (nd_offset c) (nd_itemsize c) (fold_left Z.mul (nd_shape a) 1) in
  nest (nd_shape a) (Numpy dt items).

(** ** Slices *)
(** SliceAt, SliceRange, SliceEllipsis, SliceNewAxis, SliceArray64 (whose strides count elements): Slice.h *)
Inductive nditem :=
| NAt (at_ : Z)
| NRange (start stop step : Z)
| NEllipsis
| NNewAxis
| NArray (index shape strides : list Z).
Definition is_array (it : nditem) : bool := match it with NArray _ _ _ => true | _ => false end.
(** Slice::dimlength, Slice.cpp:829-843 *)
Definition nd_dimlength (items : list nditem) : Z :=
  zlen (filter (fun it => match it with NAt _ | NRange _ _ _ | NArray _ _ _ => true | _ => false end) items).

(** the shape to which the arrays are broadcast, Slice.cpp:972-998; [None] when there is no array *)
Fixpoint sealed_shape (shape : option (list Z)) (items : list nditem) : res (option (list Z)) :=
  match items with
  | [] => Ok shape
  | NArray _ arrayshape _ :: items =>
      match shape with
      | None => sealed_shape (Some arrayshape) items
      | Some shape =>
          if negb (zlen shape =? zlen arrayshape) then Err "cannot broadcast arrays in slice"
          else sealed_shape (Some (map (fun nm => if snd nm =? 0 then 0 else if fst nm <? snd nm then snd nm else fst nm) (combine shape arrayshape))) items
      end
  | _ :: items => sealed_shape shape items
  end.
(** Slice.cpp:1000-1036 *)
Definition sealed_item (shape : list Z) (it : nditem) : res nditem :=
  match it with
  | NAt i => Ok (NArray [i] shape (map (fun _ => 0) shape))
  | NArray index arrayshape arraystrides =>
      let* strides := mapres (fun nms => let '(n, (m, s)) := nms in
                        if m =? n then Ok s else if m =? 1 then Ok 0 else Err "cannot broadcast arrays in slice")
                        (combine shape (combine arrayshape arraystrides)) in
      Ok (NArray index shape strides)
  | it => Ok it
  end.
(** what stands from the first array to the last: Slice.cpp:1074-1083 *)
Fixpoint drop_to_array (items : list nditem) : list nditem :=
  match items with
  | [] => []
  | it :: rest => if is_array it then items else drop_to_array rest
  end.
Definition is_ellipsis (it : nditem) : bool := match it with NEllipsis => true | _ => false end.
(** Slice::become_sealed, Slice.cpp:965-1087 *)
Definition become_sealed (items : list nditem) : res (list nditem) :=
  let* shape := sealed_shape None items in
  match shape with
  | None => Ok items
  | Some shape =>
      let* items := mapres (sealed_item shape) items in
      if 1 <? zlen (filter is_ellipsis items) then Err "a slice can have no more than one ellipsis ('...')"
      else
        let between := drop_to_array (rev (drop_to_array items)) in
        if zlen (filter is_array items) =? zlen between then Ok items
        else Err "advanced indexes separated by basic indexes is not permitted (simple integers are advanced when any arrays are present)"
  end.

(** start and number of the positions of a range: NumpyArray.cpp:4175-4190, 4499-4522; without a step it is 1; a step of 0 divides by 0 *)
Definition nd_lenhead (start stop step n : Z) : res (Z * Z * Z) :=
  let step := if step =? kSliceNone then 1 else step in
  let '(start, stop) := regularize_rangeslice start stop (0 <? step) (negb (start =? kSliceNone)) (negb (stop =? kSliceNone)) n in
  if step =? 0 then UB
  else
    let numer := Z.abs (start - stop) in
    let denom := Z.abs step in
    Ok (start, step, Z.quot numer denom + (if negb (Z.rem numer denom =? 0) then 1 else 0)).
(** flatten_shape: NumpyArray.cpp:1629-1639 *)
Definition flatten_shape (shape : list Z) : list Z :=
  match shape with n0 :: n1 :: shape => n0 * n1 :: shape | _ => [] end.

(** NumpyArray::getitem_bystrides, NumpyArray.cpp:4074-4281.  [fuel] bounds the recursion. *)
Fixpoint getitem_bystrides (fuel : nat) (a : ndarray) (items : list nditem) (length : Z) : res ndarray :=
  match fuel with
  | O => UB
  | S fuel =>
      match items with
      | [] => Ok a
      | NAt at_ :: tail =>
          match nd_shape a, nd_strides a with
          | _ :: n :: _, _ :: s :: _ =>
              let i := if at_ <? 0 then at_ + n else at_ in
              if (i <? 0) || (n <=? i) then Err "index out of range"
              else
                let next := mkND (nd_mem a) (flatten_shape (nd_shape a)) (tl (nd_strides a)) (nd_offset a + i * s) (nd_itemsize a) in
                let* out := getitem_bystrides fuel next tail length in
                Ok (mkND (nd_mem out) (length :: tl (nd_shape out)) (nd_strides out) (nd_offset out) (nd_itemsize a))
          | _, _ => Err "too many dimensions in slice"
          end
      | NRange start stop step :: tail =>
          match nd_shape a, nd_strides a with
          | _ :: n :: _, s0 :: s :: _ =>
              let* r := nd_lenhead start stop step n in
              let '(start, step, lenhead) := r in
              let next := mkND (nd_mem a) (flatten_shape (nd_shape a)) (tl (nd_strides a)) (nd_offset a + start * s) (nd_itemsize a) in
              let* out := getitem_bystrides fuel next tail (length * lenhead) in
              Ok (mkND (nd_mem out) (length :: lenhead :: tl (nd_shape out)) (s0 :: s * step :: tl (nd_strides out)) (nd_offset out) (nd_itemsize a))
          | _, _ => Err "too many dimensions in slice"
          end
      | NEllipsis :: tail =>
          if (zlen tail =? 0) || (zlen (nd_shape a) - 1 =? nd_dimlength tail) then getitem_bystrides fuel a tail length
          else getitem_bystrides fuel a (NRange kSliceNone kSliceNone 1 :: NEllipsis :: tail) length
      | NNewAxis :: tail =>
          let* out := getitem_bystrides fuel a tail length in
          match nd_strides out with
          | s :: _ => Ok (mkND (nd_mem out) (length :: 1 :: tl (nd_shape out)) (s :: nd_strides out) (nd_offset out) (nd_itemsize a))
          | [] => UB
          end
      | NArray _ _ _ :: _ => Err "unrecognized slice item type for NumpyArray::getitem_bystrides"
      end
  end.

(** awkward_slicearray_ravel.cpp:9-37; [t] and [f] are the positions of the two pointers *)
Fixpoint awkward_slicearray_ravel (to : list Z) (t : Z) (from : list Z) (f : Z) (shape strides : list Z) : res (list Z) :=
  match shape, strides with
  | [n], s :: _ => for_ 0 n (fun i to => let* x := rd from (f + i * s) in wr to (t + i) x) to
  | n :: ((m :: _) as shape), s :: strides => for_ 0 n (fun i to => awkward_slicearray_ravel to (t + i * m) from (f + i * s) shape strides) to
  | _, _ => UB
  end.
(** SliceArrayOf::ravel, Slice.cpp:378-404 *)
Definition nd_ravel (index shape strides : list Z) : res (list Z) :=
  awkward_slicearray_ravel (alloc (fold_left Z.mul shape 1)) 0 index 0 shape strides.
(** awkward_regularize_arrayslice.cpp:9-23, in place *)
Definition awkward_regularize_arrayslice (flathead : list Z) (length : Z) : res (list Z) := mapres (fun x => regular_at x length) flathead.
(** awkward_NumpyArray_getitem_next_at.cpp:9-19 *)
Definition awkward_NumpyArray_getitem_next_at (nextcarry carry : list Z) (lencarry skip at_ : Z) : res (list Z) :=
  for_ 0 lencarry (fun i nextcarry => let* c := rd carry i in wr nextcarry i (skip * c + at_)) nextcarry.
(** awkward_NumpyArray_getitem_next_range.cpp:9-23 *)
Definition awkward_NumpyArray_getitem_next_range (nextcarry carry : list Z) (lencarry lenhead skip start step : Z) : res (list Z) :=
  for_ 0 lencarry (fun i nextcarry => for_ 0 lenhead (fun j nextcarry =>
    let* c := rd carry i in wr nextcarry (i * lenhead + j) (skip * c + start + j * step)) nextcarry) nextcarry.
(** awkward_NumpyArray_getitem_next_range_advanced.cpp:9-26 *)
Definition awkward_NumpyArray_getitem_next_range_advanced (nextcarry nextadvanced carry advanced : list Z) (lencarry lenhead skip start step : Z) : res (list Z * list Z) :=
  for_ 0 lencarry (fun i st => for_ 0 lenhead (fun j st =>
    let '(nextcarry, nextadvanced) := st in
    let* c := rd carry i in
    let* nextcarry := wr nextcarry (i * lenhead + j) (skip * c + start + j * step) in
    let* d := rd advanced i in
    let* nextadvanced := wr nextadvanced (i * lenhead + j) d in
    Ok (nextcarry, nextadvanced)) st) (nextcarry, nextadvanced).
(** awkward_NumpyArray_getitem_next_array.cpp:9-24 *)
Definition awkward_NumpyArray_getitem_next_array (nextcarry nextadvanced carry flathead : list Z) (lencarry lenflathead skip : Z) : res (list Z * list Z) :=
  for_ 0 lencarry (fun i st => for_ 0 lenflathead (fun j st =>
    let '(nextcarry, nextadvanced) := st in
    let* c := rd carry i in
    let* x := rd flathead j in
    let* nextcarry := wr nextcarry (i * lenflathead + j) (skip * c + x) in
    let* nextadvanced := wr nextadvanced (i * lenflathead + j) j in
    Ok (nextcarry, nextadvanced)) st) (nextcarry, nextadvanced).
(** awkward_NumpyArray_getitem_next_array_advanced.cpp:9-20 *)
Definition awkward_NumpyArray_getitem_next_array_advanced (nextcarry carry advanced flathead : list Z) (lencarry skip : Z) : res (list Z) :=
  for_ 0 lencarry (fun i nextcarry =>
    let* c := rd carry i in
    let* d := rd advanced i in
    let* x := rd flathead d in
    wr nextcarry i (skip * c + x)) nextcarry.

(** the strides put before the others for each dimension of an array, from the last to the first: NumpyArray.cpp:4763-4767 *)
Fixpoint array_strides (arrayshape strides : list Z) : res (list Z) :=
  match arrayshape with
  | [] => Ok strides
  | x :: arrayshape =>
      let* strides := array_strides arrayshape strides in
      match strides with s :: _ => Ok (x * s :: strides) | [] => UB end
  end.
(** NumpyArray::getitem_next, NumpyArray.cpp:4284-4821.  [advanced] is None for Index64::empty_advanced(). *)
Fixpoint nd_getitem_next (fuel : nat) (a : ndarray) (items : list nditem) (carry : list Z) (advanced : option (list Z)) (length stride : Z) : res ndarray :=
  match fuel with
  | O => UB
  | S fuel =>
      match items with
      | [] =>
          let* out := awkward_NumpyArray_getitem_next_null (nd_mem a) (nd_offset a) (zlen carry) stride carry in
          Ok (mkND out (zlen carry :: tl (nd_shape a)) (stride :: tl (nd_strides a)) 0 (nd_itemsize a))
      | NAt at_ :: tail =>
          match nd_shape a, nd_strides a with
          | _ :: n :: _, _ :: s :: _ =>
              let next := mkND (nd_mem a) (flatten_shape (nd_shape a)) (tl (nd_strides a)) (nd_offset a) (nd_itemsize a) in
              let* i := regular_at at_ n in
              let* nextcarry := awkward_NumpyArray_getitem_next_at (alloc (zlen carry)) carry (zlen carry) n i in
              let* out := nd_getitem_next fuel next tail nextcarry advanced length s in
              Ok (mkND (nd_mem out) (length :: tl (nd_shape out)) (nd_strides out) (nd_offset out) (nd_itemsize a))
          | _, _ => Err "too many dimensions in slice"
          end
      | NRange start stop step :: tail =>
          match nd_shape a, nd_strides a with
          | _ :: n :: _, _ :: s :: _ =>
              let* r := nd_lenhead start stop step n in
              let '(start, step, lenhead) := r in
              let next := mkND (nd_mem a) (flatten_shape (nd_shape a)) (tl (nd_strides a)) (nd_offset a) (nd_itemsize a) in
              let* ca :=
                match advanced with
                | Some adv =>
                    if zlen adv =? 0 then
                      let* nextcarry := awkward_NumpyArray_getitem_next_range (alloc (zlen carry * lenhead)) carry (zlen carry) lenhead n start step in
                      Ok (nextcarry, advanced)
                    else
                      let* ca := awkward_NumpyArray_getitem_next_range_advanced (alloc (zlen carry * lenhead)) (alloc (zlen carry * lenhead)) carry adv (zlen carry) lenhead n start step in
                      Ok (fst ca, Some (snd ca))
                | None =>
                    let* nextcarry := awkward_NumpyArray_getitem_next_range (alloc (zlen carry * lenhead)) carry (zlen carry) lenhead n start step in
                    Ok (nextcarry, advanced)
                end in
              let* out := nd_getitem_next fuel next tail (fst ca) (snd ca) (length * lenhead) s in
              match nd_strides out with
              | t :: _ => Ok (mkND (nd_mem out) (length :: lenhead :: tl (nd_shape out)) (lenhead * t :: nd_strides out) (nd_offset out) (nd_itemsize a))
              | [] => UB
              end
          | _, _ => Err "too many dimensions in slice"
          end
      | NEllipsis :: tail =>
          if (zlen tail =? 0) || (zlen (nd_shape a) - 1 =? nd_dimlength tail) then nd_getitem_next fuel a tail carry advanced length stride
          else nd_getitem_next fuel a (NRange kSliceNone kSliceNone 1 :: NEllipsis :: tail) carry advanced length stride
      | NNewAxis :: tail =>
          let* out := nd_getitem_next fuel a tail carry advanced length stride in
          match nd_strides out with
          | s :: _ => Ok (mkND (nd_mem out) (length :: 1 :: tl (nd_shape out)) (s :: nd_strides out) (nd_offset out) (nd_itemsize a))
          | [] => UB
          end
      | NArray index arrayshape arraystrides :: tail =>
          match nd_shape a, nd_strides a with
          | _ :: n :: _, _ :: s :: _ =>
              let next := mkND (nd_mem a) (flatten_shape (nd_shape a)) (tl (nd_strides a)) (nd_offset a) (nd_itemsize a) in
              let* flathead := nd_ravel index arrayshape arraystrides in
              let* flathead := awkward_regularize_arrayslice flathead n in
              match advanced with
              | None =>
                  let m := zlen carry * zlen flathead in
                  let* ca := awkward_NumpyArray_getitem_next_array (alloc m) (alloc m) carry flathead (zlen carry) (zlen flathead) n in
                  let* out := nd_getitem_next fuel next tail (fst ca) (Some (snd ca)) (length * zlen flathead) s in
                  let* outstrides := array_strides arrayshape (nd_strides out) in
                  Ok (mkND (nd_mem out) (length :: arrayshape ++ tl (nd_shape out)) outstrides (nd_offset out) (nd_itemsize a))
              | Some adv =>
                  let* nextcarry := awkward_NumpyArray_getitem_next_array_advanced (alloc (zlen carry)) carry adv flathead (zlen carry) n in
                  let* out := nd_getitem_next fuel next tail nextcarry advanced (length * hd 0 arrayshape) s in
                  Ok (mkND (nd_mem out) (length :: tl (nd_shape out)) (nd_strides out) (nd_offset out) (nd_itemsize a))
              end
          | _, _ => Err "too many dimensions in slice"
          end
      end
  end.

Definition nd_fuel (a : ndarray) (items : list nditem) : nat := S (S (2 * (List.length (nd_shape a) + List.length items))).
(** NumpyArray::getitem, NumpyArray.cpp:1331-1430 *)
Definition nd_getitem (a : ndarray) (items : list nditem) : res ndarray :=
  match nd_shape a with
  | [] => Err "cannot get-item on a scalar"
  | _ :: _ =>
      if existsb is_array items then
        let* safe := nd_contiguous a in
        match nd_shape safe, nd_strides safe with
        | n :: shape, s :: strides =>
            let next := mkND (nd_mem safe) (1 :: nd_shape safe) (n * s :: nd_strides safe) (nd_offset safe) (nd_itemsize safe) in
            let* out := nd_getitem_next (nd_fuel a items) next items [0] None 1 (n * s) in
            Ok (mkND (nd_mem out) (tl (nd_shape out)) (tl (nd_strides out)) (nd_offset out) (nd_itemsize a))
        | _, _ => UB
        end
      else
        match nd_shape a, nd_strides a with
        | n :: _, s :: _ =>
            let next := mkND (nd_mem a) (1 :: nd_shape a) (n * s :: nd_strides a) (nd_offset a) (nd_itemsize a) in
            let* out := getitem_bystrides (nd_fuel a items) next items 1 in
            Ok (mkND (nd_mem out) (tl (nd_shape out)) (tl (nd_strides out)) (nd_offset out) (nd_itemsize a))
        | _, _ => UB
        end
  end.
(** what Python's array[items] calls: python/content.cpp toslice, then getitem *)
Definition nd_slice (a : ndarray) (items : list nditem) : res ndarray :=
  let* items := become_sealed items in nd_getitem a items.
