(** The layout nodes of src/libawkward/array as an inductive type.

    Simplifications: integer widths of index buffers are dropped (ListArray32/U32/64 and so on are one
    node), identities and parameters are dropped, every NumpyArray here is
    one-dimensional and contiguous (include/awkward/array/NumpyArray.h; strided arrays are in NumpyNd.v),
    and an IndexOf view (ptr, offset, length) is the list of its elements. *)
From Verif Require Import Base.

Inductive dtype := DBool | DInt | DReal.

Inductive content : Type :=
| Empty                                                       (* EmptyArray *)
| Numpy (dt : dtype) (data : list Z)                          (* NumpyArray *)
| ListA (starts stops : list Z) (c : content)                 (* ListArrayOf<T> *)
| ListOffset (offsets : list Z) (c : content)                 (* ListOffsetArrayOf<T> *)
| Regular (size zeros_length : Z) (c : content)               (* RegularArray *)
| Indexed (index : list Z) (c : content)                      (* IndexedArrayOf<T, false> *)
| IndexedOption (index : list Z) (c : content)                (* IndexedArrayOf<T, true> *)
| ByteMasked (mask : list Z) (valid_when : bool) (c : content)            (* ByteMaskedArray *)
| BitMasked (mask : list Z) (valid_when lsb_order : bool) (length : Z) (c : content) (* BitMaskedArray *)
| Unmasked (c : content)                                      (* UnmaskedArray *)
| Record (keys : option (list string)) (length : Z) (contents : list content)  (* RecordArray *)
| Union (tags index : list Z) (contents : list content).      (* UnionArrayOf<T, I> *)

(** Content::length of each class: EmptyArray.cpp:283, NumpyArray.cpp:1107, ListArray.cpp:594,
    ListOffsetArray.cpp:605, RegularArray.cpp:244-246 and 552, IndexedArray.cpp:1197, ByteMaskedArray.cpp:557,
    BitMaskedArray.cpp:575, UnmaskedArray.cpp:465, RecordArray.cpp:724, UnionArray.cpp:1024.
    C++ integer division is [Z.quot]. *)
Fixpoint length_ (c : content) : Z :=
  match c with
  | Empty => 0
  | Numpy _ data => zlen data
  | ListA starts _ _ => zlen starts
  | ListOffset offsets _ => zlen offsets - 1
  | Regular size zl c => if negb (size =? 0) then Z.quot (length_ c) size else zl
  | Indexed index _ => zlen index
  | IndexedOption index _ => zlen index
  | ByteMasked mask _ _ => zlen mask
  | BitMasked _ _ _ len _ => len
  | Unmasked c => length_ c
  | Record _ len _ => len
  | Union tags _ _ => zlen tags
  end.

Section Induction.
  Variable P : content -> Prop.
  Hypothesis HEmpty : P Empty.
  Hypothesis HNumpy : forall dt data, P (Numpy dt data).
  Hypothesis HListA : forall starts stops c, P c -> P (ListA starts stops c).
  Hypothesis HListOffset : forall offsets c, P c -> P (ListOffset offsets c).
  Hypothesis HRegular : forall size zl c, P c -> P (Regular size zl c).
  Hypothesis HIndexed : forall index c, P c -> P (Indexed index c).
  Hypothesis HIndexedOption : forall index c, P c -> P (IndexedOption index c).
  Hypothesis HByteMasked : forall mask vw c, P c -> P (ByteMasked mask vw c).
  Hypothesis HBitMasked : forall mask vw lsb len c, P c -> P (BitMasked mask vw lsb len c).
  Hypothesis HUnmasked : forall c, P c -> P (Unmasked c).
  Hypothesis HRecord : forall keys len cs, Forall P cs -> P (Record keys len cs).
  Hypothesis HUnion : forall tags index cs, Forall P cs -> P (Union tags index cs).
  Fixpoint content_ind' (c : content) : P c :=
    let go := fix go (cs : list content) : Forall P cs :=
      match cs with [] => Forall_nil P | c :: cs => Forall_cons c (content_ind' c) (go cs) end in
    match c with
    | Empty => HEmpty
    | Numpy dt data => HNumpy dt data
    | ListA a b c => HListA a b c (content_ind' c)
    | ListOffset o c => HListOffset o c (content_ind' c)
    | Regular s z c => HRegular s z c (content_ind' c)
    | Indexed i c => HIndexed i c (content_ind' c)
    | IndexedOption i c => HIndexedOption i c (content_ind' c)
    | ByteMasked m v c => HByteMasked m v c (content_ind' c)
    | BitMasked m v l n c => HBitMasked m v l n c (content_ind' c)
    | Unmasked c => HUnmasked c (content_ind' c)
    | Record k n cs => HRecord k n cs (go cs)
    | Union t i cs => HUnion t i cs (go cs)
    end.
End Induction.

(** Constructors that check their arguments *)
(** ListArray.cpp:262-278 *)
Definition mkListA (starts stops : list Z) (c : content) : res content :=
  if zlen stops <? zlen starts then Err "ListArray stops must not be shorter than its starts"
  else Ok (ListA starts stops c).
(** ListOffsetArray.cpp:249-264 *)
Definition mkListOffset (offsets : list Z) (c : content) : res content :=
  if zlen offsets =? 0 then Err "ListOffsetArray offsets length must be at least 1"
  else Ok (ListOffset offsets c).
(** RegularArray.cpp:236-258 *)
Definition mkRegular (size zl : Z) (c : content) : res content :=
  if size <? 0 then Err "RegularArray size must be non-negative"
  else if length_ (Regular size zl c) <? 0 then Err "RegularArray zeros_length must be non-negative"
  else Ok (Regular size zl c).
(** ByteMaskedArray.cpp:252-266 *)
Definition mkByteMasked (mask : list Z) (vw : bool) (c : content) : res content :=
  if length_ c <? zlen mask then Err "ByteMaskedArray content must not be shorter than its mask"
  else Ok (ByteMasked mask vw c).
(** BitMaskedArray.cpp:274-298 *)
Definition mkBitMasked (mask : list Z) (vw lsb : bool) (len : Z) (c : content) : res content :=
  let bitlength := Z.quot len 8 + (if Z.rem len 8 =? 0 then 0 else 1) in
  if zlen mask <? bitlength then Err "BitMaskedArray mask must not be shorter than its ceil(length / 8.0)"
  else if length_ c <? len then Err "BitMaskedArray content must not be shorter than its length"
  else Ok (BitMasked mask vw lsb len c).
(** RecordArray.cpp:358-375 *)
Definition mkRecord (keys : option (list string)) (len : Z) (cs : list content) : res content :=
  match keys with
  | Some ks => if negb (zlen ks =? zlen cs) then Err "recordlookup and contents must have the same number of fields"
               else Ok (Record keys len cs)
  | None => Ok (Record keys len cs)
  end.
(** UnionArray.cpp:430-447 *)
Definition mkUnion (tags index : list Z) (cs : list content) : res content :=
  match cs with
  | [] => Err "UnionArray must have at least one content"
  | _ => if zlen index <? zlen tags then Err "UnionArray index must not be shorter than its tags"
         else Ok (Union tags index cs)
  end.

(** traverse a list with a partial function *)
Section Mapres.
  Context {A B : Type} (f : A -> res B).
  Fixpoint mapres (l : list A) : res (list B) :=
    match l with [] => Ok [] | x :: t => let* y := f x in let* ys := mapres t in Ok (y :: ys) end.
End Mapres.

(** contents[k], then a call on it; [UB] outside *)
Section NthApply.
  Context {A B : Type} (f : A -> res B).
  Fixpoint nth_apply (l : list A) (k : Z) : res B :=
    match l with [] => UB | x :: t => if k =? 0 then f x else nth_apply t (k - 1) end.
End NthApply.

(** What getitem_at returns: a scalar NumpyArray, None, an array, or a Record (an array and a position). *)
Inductive item :=
| IScalar (dt : dtype) (z : Z)
| INone
| IArray (c : content)
| IRecord (array : content) (at_ : Z).

