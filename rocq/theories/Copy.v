(** Copying an array (ak.copy, copy.deepcopy): Content::deep_copy of every class.  Here arrays refer to buffers in memory, several of them
    perhaps to the same one, and a view is a part of a buffer.
    Simplifications: buffers are lists of elements (bytes in the C++); NumpyArray has one dimension, and its offset and its stride count
    elements.  Not modelled: identities, parameters, VirtualArray (VirtualArray.cpp:529-534: the array it makes is copied). *)
From Verif Require Import Base Content.
Local Open Scope Z_scope.

(** the buffers; a pointer is the position of a buffer *)
Definition memory := list (list Z).
(** Index: ptr_, offset_, length_ (Index.h) *)
Record iview := mkView { v_ptr : Z; v_offset : Z; v_length : Z }.
(** the classes of arrays; NumpyArray has ptr_, byteoffset_, shape_[0] and strides_[0] (NumpyArray.h) *)
Inductive node : Type :=
| MEmpty
| MNumpy (dt : dtype) (ptr offset length stride : Z)
| MListA (starts stops : iview) (c : node)
| MListOffset (offsets : iview) (c : node)
| MRegular (size zeros_length : Z) (c : node)
| MIndexed (index : iview) (c : node)
| MIndexedOption (index : iview) (c : node)
| MByteMasked (mask : iview) (valid_when : bool) (c : node)
| MBitMasked (mask : iview) (valid_when lsb : bool) (len : Z) (c : node)
| MUnmasked (c : node)
| MRecord (keys : option (list string)) (len : Z) (cs : list node)
| MUnion (tags index : iview) (cs : list node).

(** ** What an array holds *)
(** the elements of an index: Index.cpp:228-239 *)
Definition read_index (m : memory) (v : iview) : res (list Z) :=
  let* buf := rd m (v_ptr v) in
  if v_length v <? 0 then UB else mapres (fun i => rd buf (v_offset v + i)) (zseq 0 (v_length v)).
(** the elements of a NumpyArray: NumpyArray.cpp:1223-1247 *)
Definition read_numpy (m : memory) (ptr offset length stride : Z) : res (list Z) :=
  let* buf := rd m ptr in
  if length <? 0 then UB else mapres (fun i => rd buf (offset + i * stride)) (zseq 0 length).
Fixpoint read (m : memory) (n : node) : res content :=
  match n with
  | MEmpty => Ok Empty
  | MNumpy dt ptr offset length stride => let* data := read_numpy m ptr offset length stride in Ok (Numpy dt data)
  | MListA starts stops c => let* a := read_index m starts in let* b := read_index m stops in let* c := read m c in Ok (ListA a b c)
  | MListOffset offsets c => let* a := read_index m offsets in let* c := read m c in Ok (ListOffset a c)
  | MRegular size zl c => let* c := read m c in Ok (Regular size zl c)
  | MIndexed index c => let* a := read_index m index in let* c := read m c in Ok (Indexed a c)
  | MIndexedOption index c => let* a := read_index m index in let* c := read m c in Ok (IndexedOption a c)
  | MByteMasked mask vw c => let* a := read_index m mask in let* c := read m c in Ok (ByteMasked a vw c)
  | MBitMasked mask vw lsb len c => let* a := read_index m mask in let* c := read m c in Ok (BitMasked a vw lsb len c)
  | MUnmasked c => let* c := read m c in Ok (Unmasked c)
  | MRecord keys len cs => let* cs := mapres (read m) cs in Ok (Record keys len cs)
  | MUnion tags index cs => let* a := read_index m tags in let* b := read_index m index in let* cs := mapres (read m) cs in Ok (Union a b cs)
  end.

(** ** Copies *)
(** kernel::malloc, and what is copied to it *)
Definition new_buffer (m : memory) (buf : list Z) : memory * Z := (m ++ [buf], zlen m).
(** IndexOf::deep_copy: Index.cpp:365-376 *)
Definition copy_index (m : memory) (v : iview) : res (memory * iview) :=
  let* data := read_index m v in
  let '(m, ptr) := new_buffer m data in
  Ok (m, mkView ptr 0 (v_length v)).
(** NumpyArray::deep_copy: NumpyArray.cpp:1130-1171, with copyarrays.  contiguous() (NumpyArray.cpp:3957-3981) makes a buffer of the elements,
    unless they are contiguous; then the elements, from data() (NumpyArray.cpp:398-402) on, are copied, and byteoffset_ is kept. *)
Definition copy_numpy (m : memory) (dt : dtype) (ptr offset length stride : Z) : res (memory * node) :=
  let* data := read_numpy m ptr offset length stride in
  let '(m, ptr) := new_buffer m data in
  if stride =? 1 then Ok (m, MNumpy dt ptr offset length stride) else Ok (m, MNumpy dt ptr 0 length 1).
(** deep_copy with copyarrays and copyindexes: BitMaskedArray.cpp:590-609, ByteMaskedArray.cpp:570-587, EmptyArray.cpp:292-301,
    IndexedArray.cpp:1210-1227, ListArray.cpp:608-627, ListOffsetArray.cpp:618-635, RecordArray.cpp:738-758, RegularArray.cpp:565-581,
    UnionArray.cpp:1038-1060, UnmaskedArray.cpp:474-486 *)
Section Copies.
  Variable f : memory -> node -> res (memory * node).
  Fixpoint copies (m : memory) (cs : list node) : res (memory * list node) :=
    match cs with
    | [] => Ok (m, [])
    | c :: cs => let* p := f m c in let '(m, c) := p in let* q := copies m cs in let '(m, cs) := q in Ok (m, c :: cs)
    end.
End Copies.
Fixpoint deep_copy (m : memory) (n : node) : res (memory * node) :=
  match n with
  | MEmpty => Ok (m, MEmpty)
  | MNumpy dt ptr offset length stride => copy_numpy m dt ptr offset length stride
  | MListA starts stops c =>
      let* p := copy_index m starts in let '(m, starts) := p in
      let* p := copy_index m stops in let '(m, stops) := p in
      let* p := deep_copy m c in let '(m, c) := p in Ok (m, MListA starts stops c)
  | MListOffset offsets c =>
      let* p := copy_index m offsets in let '(m, offsets) := p in
      let* p := deep_copy m c in let '(m, c) := p in Ok (m, MListOffset offsets c)
  | MRegular size zl c => let* p := deep_copy m c in let '(m, c) := p in Ok (m, MRegular size zl c)
  | MIndexed index c =>
      let* p := copy_index m index in let '(m, index) := p in
      let* p := deep_copy m c in let '(m, c) := p in Ok (m, MIndexed index c)
  | MIndexedOption index c =>
      let* p := copy_index m index in let '(m, index) := p in
      let* p := deep_copy m c in let '(m, c) := p in Ok (m, MIndexedOption index c)
  | MByteMasked mask vw c =>
      let* p := copy_index m mask in let '(m, mask) := p in
      let* p := deep_copy m c in let '(m, c) := p in Ok (m, MByteMasked mask vw c)
  | MBitMasked mask vw lsb len c =>
      let* p := copy_index m mask in let '(m, mask) := p in
      let* p := deep_copy m c in let '(m, c) := p in Ok (m, MBitMasked mask vw lsb len c)
  | MUnmasked c => let* p := deep_copy m c in let '(m, c) := p in Ok (m, MUnmasked c)
  | MRecord keys len cs => let* p := copies deep_copy m cs in let '(m, cs) := p in Ok (m, MRecord keys len cs)
  | MUnion tags index cs =>
      let* p := copy_index m tags in let '(m, tags) := p in
      let* p := copy_index m index in let '(m, index) := p in
      let* p := copies deep_copy m cs in let '(m, cs) := p in Ok (m, MUnion tags index cs)
  end.
