(** Reading the bytes that ROOT writes for std::vector<std::vector<T>>: src/libawkward/io/uproot.cpp. *)
From Verif Require Import Base Content KCore Core Strided Forth.
From Coq Require Import String Ascii.
From Coq Require Import List.
Import ListNotations.
Local Open Scope string_scope.
Local Open Scope list_scope.
Local Open Scope Z_scope.

(** data.data(), uproot.cpp:54 and NumpyArray.h:117-118 (ptr + byteoffset): the shape and the strides are not looked at *)
Definition load (data : ndarray) (pos n : Z) : res (list Z) :=
  let p := nd_offset data + pos in
  if (0 <=? p) && (p + n <=? zlen (nd_mem data)) then Ok (slice p (p + n) (nd_mem data)) else UB.

(** byteswap<int32_t>, uproot.cpp:21-28: the 32 bits are first extended to 64.  [Forth.byteswap32] has the same shifts and masks.
    [wrapS] (Forth.v) is the conversion to a signed type. *)
Definition byteswap_int32 (big : Z) : Z := wrapS 32 (byteswap32 (big mod 2 ^ 64)).
(** byteswap<int64_t>, uproot.cpp:30-41, and byteswap<double>, :43-47; a double is the unsigned value of its 64 bits *)
Definition byteswap_bits64 (big : Z) : Z := byteswap64 big.

(** the two types that are read, uproot.cpp:125-135 *)
Inductive roottype := RInt32 | RFloat64.
Definition sizeof (t : roottype) : Z := match t with RInt32 => 4 | RFloat64 => 8 end.
(** byteswap of a reinterpret_cast pointer to T at data_ptr[pos], on a little-endian machine that allows unaligned loads *)
Definition load_item (t : roottype) (data : ndarray) (pos : Z) : res Z :=
  let* bs := load data pos (sizeof t) in
  Ok (match t with RInt32 => byteswap_int32 (wrapS 32 (le_unsigned bs)) | RFloat64 => byteswap_bits64 (le_unsigned bs) end).

(** int32_t arithmetic: overflow is undefined *)
Definition add32 (a b : Z) : res Z := if (- 2 ^ 31 <=? a + b) && (a + b <? 2 ^ 31) then Ok (a + b) else UB.

(** :79-93: while (pos < byte_offsets_ptr[entry] + numbytes).  [stop] is that sum; pos += sizeof(...) is done in size_t and converted back.
    [n] bounds the number of inner lists: each has at least the four bytes of its length.
    GrowableBuffer::append adds to the end (Growable.v). *)
Fixpoint inner_lists (n : nat) (t : roottype) (data : ndarray) (stop pos last_offsets2 count : Z) (offsets2 content : list Z) : res (Z * Z * list Z * list Z) :=
  if negb (pos <? stop) then Ok (last_offsets2, count, offsets2, content) else
  match n with
  | O => UB
  | S n =>
      let* length := load_item RInt32 data pos in
      let pos := wrapS 32 (pos + 4) in
      let* st := for_ 0 length (fun j st =>
        let '(pos, content) := st in
        let* x := load_item t data pos in
        Ok (wrapS 32 (pos + sizeof t), content ++ [x])) (pos, content) in
      let '(pos, content) := st in
      let last_offsets2 := last_offsets2 + length in
      inner_lists n t data stop pos last_offsets2 (count + 1) (offsets2 ++ [last_offsets2]) content
  end.

(** uproot_issue_90_impl, uproot.cpp:49-115 *)
Definition uproot_issue_90_impl (t : roottype) (data : ndarray) (byte_offsets : list Z) : res content :=
  let* offsets1 := wr (alloc (zlen byte_offsets)) 0 0 in
  let* st := for_ 0 (zlen byte_offsets - 1) (fun entry st =>
    let '(offsets1, last_offsets2, offsets2, content) := st in
    let* start := rd byte_offsets entry in
    let* numbytes := load_item RInt32 data start in
    let numbytes := Z.land numbytes (Z.lnot 0x40000000) in
    let* numbytes := add32 numbytes 4 in
    let pos := wrapS 32 (start + 6) in
    let* stop := add32 start numbytes in
    let* r := inner_lists (Datatypes.length (nd_mem data)) t data stop pos last_offsets2 0 offsets2 content in
    let '(last_offsets2, count, offsets2, content) := r in
    let* before := rd offsets1 entry in
    let* offsets1 := wr offsets1 (entry + 1) (before + count) in
    Ok (offsets1, last_offsets2, offsets2, content)) (offsets1, 0, [0], []) in
  let '(offsets1, _, offsets2, content) := st in
  let* outlist2 := mkListOffset offsets2 (Numpy (match t with RInt32 => DInt | RFloat64 => DReal end) content) in
  mkListOffset offsets1 outlist2.

(** as much of a Form as uproot_issue_90 looks at *)
Inductive rootform := FListOffset (content : rootform) | FNumpy (dtype : string) | FOther.

(** uproot_issue_90, uproot.cpp:117-143 *)
Definition uproot_issue_90 (form : rootform) (data : ndarray) (byte_offsets : list Z) : res content :=
  match form with
  | FListOffset (FListOffset (FNumpy dtype)) =>
      if String.eqb dtype "int32" then uproot_issue_90_impl RInt32 data byte_offsets
      else if String.eqb dtype "float64" then uproot_issue_90_impl RFloat64 data byte_offsets
      else Err "uproot_issue_90 only handles two types"
  | _ => Err "uproot_issue_90 only handles two types"
  end.
