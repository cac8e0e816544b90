(** Converting the numbers of an array (ak.values_astype): Content::numbers_to_type of every class.
    Not modelled: parameters (a NumpyArray that is "byte" or "char" is kept, NumpyArray.cpp:5092-5097), float32, complex numbers and dates,
    VirtualArray (VirtualArray.cpp:1206-1209, the array it makes is converted) and identities (copied). *)
From Verif Require Import Base Content KCore Core KOption Option Strided.
Local Open Scope string_scope.
Local Open Scope list_scope.
Local Open Scope Z_scope.

(** the types of numbers: bool, intN and uintN, float64, and the names that are refused
    (float16, float128, complex256, unknown: NumpyArray.cpp:5669-5673, 5680-5684, 5691-5695, 5699-5702) *)
Inductive ntype := TBool | TInt (signed : bool) (bits : Z) | TReal | TRefused.
Definition dtype_of (t : ntype) : dtype := match t with TBool => DBool | TInt _ _ => DInt | TReal | TRefused => DReal end.

(** the integer of [bits] bits with the same low bits (conversion between integer types) *)
Definition wrap_to (signed : bool) (bits : Z) (z : Z) : Z :=
  if signed then (z + 2 ^ (bits - 1)) mod 2 ^ bits - 2 ^ (bits - 1) else z mod 2 ^ bits.
Definition representable (signed : bool) (bits : Z) (z : Z) : bool :=
  if signed then (- 2 ^ (bits - 1) <=? z) && (z <? 2 ^ (bits - 1)) else (0 <=? z) && (z <? 2 ^ bits).

Section Astype.
(** floating point: x > 0, the integer part (none for NaN and infinity), the number nearest to an integer *)
Variable positive : Z -> bool.
Variable whole : Z -> option Z.
Variable nearest : Z -> Z.

(** (TO)x in awkward_NumpyArray_fill.cpp:9-17 and awkward_NumpyArray_fill_frombool.cpp:9-17;
    x > 0 in awkward_NumpyArray_fill_tobool.cpp:9-17, for all types but bool.
    Converting a floating-point number that does not fit an integer type is undefined. *)
Definition convert (from : dtype) (to : ntype) (x : Z) : res Z :=
  match to, from with
  | TBool, DBool => Ok (b2z (negb (x =? 0)))
  | TBool, DInt => Ok (b2z (0 <? x))
  | TBool, DReal => Ok (b2z (positive x))
  | TInt s n, DBool => Ok (b2z (negb (x =? 0)))
  | TInt s n, DInt => Ok (wrap_to s n x)
  | TInt s n, DReal => match whole x with Some z => if representable s n z then Ok z else UB | None => UB end
  | TReal, DBool => Ok (nearest (b2z (negb (x =? 0))))
  | TReal, DInt => Ok (nearest x)
  | TReal, DReal => Ok x
  | TRefused, _ => Err "cannot recast NumpyArray with format"
  end.
(** the loop of the same files *)
Definition awkward_NumpyArray_fill_to (toptr : list Z) (tooffset : Z) (fromptr : list Z) (length : Z) (conv : Z -> res Z) : res (list Z) :=
  for_ 0 length (fun i toptr =>
    let* x := rd fromptr i in
    let* y := conv x in
    wr toptr (tooffset + i) y) toptr.
(** NumpyArray::cast_to_type: NumpyArray.cpp:5708-5722, and as_type: NumpyArray.cpp:5635-5706 *)
Definition as_type (from : dtype) (to : ntype) (data : list Z) (length : Z) : res (list Z) :=
  match to with
  | TRefused => Err "cannot recast NumpyArray with format"
  | _ => awkward_NumpyArray_fill_to (alloc length) 0 data length (convert from to)
  end.

(** numbers_to_type: BitMaskedArray.cpp:1137-1140, ByteMaskedArray.cpp:1417-1430, EmptyArray.cpp:790-794, IndexedArray.cpp:2753-2766,
    ListArray.cpp:2070-2085, ListOffsetArray.cpp:2389-2402, NumpyArray.cpp:5090-5218 (one dimension), RecordArray.cpp:1841-1856,
    RegularArray.cpp:1659-1671, UnionArray.cpp:2275-2293, UnmaskedArray.cpp:1138-1146.
    IndexOf::deep_copy (Index.cpp:365-376) copies the elements. *)
Fixpoint numbers_to_type (t : ntype) (c : content) : res content :=
  match c with
  | Empty => Ok Empty
  | Numpy dt data =>
      let* ptr := as_type dt t data (zlen data) in
      Ok (Numpy (dtype_of t) ptr)
  | ListA starts stops c => let* c := numbers_to_type t c in mkListA starts stops c
  | ListOffset offsets c => let* c := numbers_to_type t c in mkListOffset offsets c
  | Regular size zl c => let* c := numbers_to_type t c in mkRegular size zl c
  | Indexed index c => let* c := numbers_to_type t c in Ok (Indexed index c)
  | IndexedOption index c => let* c := numbers_to_type t c in Ok (IndexedOption index c)
  | ByteMasked mask vw c => let* c := numbers_to_type t c in mkByteMasked mask vw c
  | BitMasked mask vw lsb len c' =>
      let* bm := toByteMaskedArray c in
      match bm with
      | ByteMasked mask vw _ => let* c := numbers_to_type t c' in mkByteMasked mask vw c
      | _ => UB
      end
  | Unmasked c => let* c := numbers_to_type t c in Ok (Unmasked c)
  | Record keys len cs => let* cs := mapres (numbers_to_type t) cs in mkRecord keys len cs
  | Union tags index cs => let* cs := mapres (numbers_to_type t) cs in mkUnion tags index cs
  end.

(** NumpyArray with any number of dimensions: NumpyArray.cpp:5100-5107, 5115-5119 and 5208-5217.  The length is that of the first dimension.
    [decode] and [encode] are the bytes of a number of the old type and of the new one, which has [itemsize] bytes. *)
Fixpoint shape_strides (itemsize : Z) (rshape : list Z) : list Z :=
  match rshape with [] => [] | n :: rshape => shape_strides (itemsize * n) rshape ++ [itemsize] end.
Definition nd_to_type (decode : list Z -> Z) (encode : Z -> list Z) (from : dtype) (to : ntype) (itemsize : Z) (a : ndarray) : res ndarray :=
  let* a := nd_contiguous a in
  let strides := shape_strides itemsize (rev (nd_shape a)) in
  let length := hd 1 (nd_shape a) in
  let* data := nd_items decode (nd_mem a) (nd_offset a) (nd_itemsize a) length in
  let* ptr := as_type from to data length in
  Ok (mkND (flat_map encode ptr) (nd_shape a) strides 0 itemsize).
End Astype.
