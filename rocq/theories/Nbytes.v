(** The memory that an array takes: array.nbytes, Content::nbytes.  Arrays refer to buffers as in Copy.v.
    Simplifications: all the elements of a buffer have the same number of bytes, [width ptr] (sizeof(T), itemsize_), in all arrays that refer to it;
    sums do not overflow; NumpyArray has one dimension.  Not modelled: identities (there are none), VirtualArray. *)
From Verif Require Import Base Content Copy.
Local Open Scope Z_scope.

(** std::map<size_t, int64_t>& largest: pointers and numbers of bytes.  The update of IndexOf::nbytes_part and of NumpyArray::nbytes_part:
    Index.cpp:269-275, NumpyArray.cpp:1096-1100 *)
Fixpoint note (largest : list (Z * Z)) (ptr bytes : Z) : list (Z * Z) :=
  match largest with
  | [] => [(ptr, bytes)]
  | (p, b) :: t => if p =? ptr then (if b <? bytes then (ptr, bytes) :: t else (p, b) :: t) else (p, b) :: note t ptr bytes
  end.
(** Index.cpp:269-275 *)
Definition note_index (width : Z -> Z) (largest : list (Z * Z)) (v : iview) : list (Z * Z) := note largest (v_ptr v) (width (v_ptr v) * v_length v).

(** nbytes_part: BitMaskedArray.cpp:566-572, ByteMaskedArray.cpp:548-554, EmptyArray.cpp:276-280, IndexedArray.cpp:1186-1193,
    ListArray.cpp:583-590, ListOffsetArray.cpp:595-601, NumpyArray.cpp:1091-1104, RecordArray.cpp:714-721, RegularArray.cpp:544-549,
    UnionArray.cpp:1013-1020, UnmaskedArray.cpp:460-462 *)
Fixpoint nbytes_part (width : Z -> Z) (largest : list (Z * Z)) (n : node) : list (Z * Z) :=
  match n with
  | MEmpty => largest
  | MNumpy _ ptr _ length _ => note largest ptr (width ptr * length)
  | MListA starts stops c => nbytes_part width (note_index width (note_index width largest starts) stops) c
  | MListOffset offsets c => nbytes_part width (note_index width largest offsets) c
  | MRegular _ _ c => nbytes_part width largest c
  | MIndexed index c => nbytes_part width (note_index width largest index) c
  | MIndexedOption index c => nbytes_part width (note_index width largest index) c
  | MByteMasked mask _ c => nbytes_part width (note_index width largest mask) c
  | MBitMasked mask _ _ _ c => nbytes_part width (note_index width largest mask) c
  | MUnmasked c => nbytes_part width largest c
  | MRecord _ _ cs => fold_left (nbytes_part width) cs largest
  | MUnion _ _ cs => fold_left (nbytes_part width) cs largest
  end.

(** Content::nbytes: Content.cpp:885-896 *)
Definition nbytes (width : Z -> Z) (n : node) : Z := fold_right (fun pb out => snd pb + out) 0 (nbytes_part width [] n).
