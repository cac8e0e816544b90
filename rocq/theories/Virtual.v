(** Virtual arrays: VirtualArray.cpp, virtual/ArrayGenerator.cpp, virtual/ArrayCache.cpp, and the parts of the Form classes they use.

    Simplifications: a virtual array is the outermost node, never inside another one, and its device is the CPU; identities, parameters and
    the remembered depths (set_cache_depths_from) are dropped, and so are the integer widths of index buffers in forms; a generator of the
    user is a function that gives the same array, or the same error, whenever it is called; an error leaves the caches and inferred forms
    as they were before the request; getitem_fields is not modelled. *)
From Verif Require Import Base Content KRange KCore Core KConvert Convert KOption Option Getitem.
From Coq Require Import String.
From Coq Require Import List.
Import ListNotations.
Local Open Scope string_scope.
Local Open Scope list_scope.
Local Open Scope Z_scope.

(** ** forms: the layout classes of an array without its data (Content.h, class Form) *)
Inductive lform : Type :=
| LEmpty
| LNumpy (dt : dtype)
| LList (f : lform)
| LListOffset (f : lform)
| LRegular (size : Z) (f : lform)
| LIndexed (f : lform)
| LIndexedOption (f : lform)
| LByteMasked (valid_when : bool) (f : lform)
| LBitMasked (valid_when lsb_order : bool) (f : lform)
| LUnmasked (f : lform)
| LRecord (keys : option (list string)) (fs : list lform)
| LUnion (fs : list lform).

(** Content::form: ListArray.cpp:512-520 and the same in every class *)
Fixpoint layout (c : content) : lform :=
  match c with
  | Empty => LEmpty
  | Numpy dt _ => LNumpy dt
  | ListA _ _ c => LList (layout c)
  | ListOffset _ c => LListOffset (layout c)
  | Regular size _ c => LRegular size (layout c)
  | Indexed _ c => LIndexed (layout c)
  | IndexedOption _ c => LIndexedOption (layout c)
  | ByteMasked _ vw c => LByteMasked vw (layout c)
  | BitMasked _ vw lsb _ c => LBitMasked vw lsb (layout c)
  | Unmasked c => LUnmasked (layout c)
  | Record keys _ cs => LRecord keys (map layout cs)
  | Union _ _ cs => LUnion (map layout cs)
  end.

Definition dtype_eqb (a b : dtype) : bool :=
  match a, b with DBool, DBool | DInt, DInt | DReal, DReal => true | _, _ => false end.

(** Form::equal(other, true, true, false, true): EmptyArray.cpp:123-152, NumpyArray.cpp:254-288, ListArray.cpp:195-234, ListOffsetArray.cpp:185-223,
    RegularArray.cpp:172-210, IndexedArray.cpp:183-221 and 429-467, ByteMaskedArray.cpp:166-205, BitMaskedArray.cpp:174-216, UnmaskedArray.cpp:141-178,
    RecordArray.cpp:245-323, UnionArray.cpp:274-327.  Fields are compared by name, whatever their order. *)
Fixpoint form_equal (f g : lform) {struct f} : bool :=
  match f, g with
  | LEmpty, LEmpty => true
  | LNumpy a, LNumpy b => dtype_eqb a b
  | LList f, LList g => form_equal f g
  | LListOffset f, LListOffset g => form_equal f g
  | LRegular s f, LRegular t g => form_equal f g && (s =? t)
  | LIndexed f, LIndexed g => form_equal f g
  | LIndexedOption f, LIndexedOption g => form_equal f g
  | LByteMasked v f, LByteMasked w g => form_equal f g && Bool.eqb v w
  | LBitMasked v l f, LBitMasked w m g => form_equal f g && Bool.eqb v w && Bool.eqb l m
  | LUnmasked f, LUnmasked g => form_equal f g
  | LRecord (Some ks) fs, LRecord (Some ls) gs =>
      (zlen ks =? zlen ls) &&
      (fix go (fs : list lform) (ks : list string) {struct fs} : bool :=
         match fs, ks with
         | f :: fs, k :: ks => match key_index ls k 0 with
                               | Some j => match nthZ gs j with Some g => form_equal f g | None => false end
                               | None => false
                               end && go fs ks
         | _, _ => true
         end) fs ks
  | LRecord None fs, LRecord None gs | LUnion fs, LUnion gs =>
      (zlen fs =? zlen gs) &&
      (fix go (fs gs : list lform) : bool :=
         match fs, gs with f :: fs, g :: gs => form_equal f g && go fs gs | _, _ => true end) fs gs
  | _, _ => false
  end.

(** Form::getitem_range: Content.cpp:794-797; BitMaskedForm: BitMaskedArray.cpp:218-227 *)
Fixpoint form_range (f : lform) : lform :=
  match f with
  | LBitMasked vw _ f => LByteMasked vw (form_range f)
  | _ => f
  end.

(** simplify_optiontype of forms: IndexedArray.cpp:245-289 and 491-535, ByteMaskedArray.cpp:231-248, BitMaskedArray.cpp:253-270,
    UnmaskedArray.cpp:200-212 *)
Definition form_option (f : lform) : bool :=
  match f with LIndexed _ | LIndexedOption _ | LByteMasked _ _ | LBitMasked _ _ _ | LUnmasked _ => true | _ => false end.
Definition form_indexed_simplify (isoption : bool) (f : lform) : lform :=
  match f with
  | LIndexed g => if isoption then LIndexedOption g else LIndexed g
  | LIndexedOption g | LByteMasked _ g | LBitMasked _ _ g | LUnmasked g => LIndexedOption g
  | _ => if isoption then LIndexedOption f else LIndexed f
  end.
Definition form_simplify (f : lform) : lform :=
  match f with
  | LIndexed g => form_indexed_simplify false g
  | LIndexedOption g => form_indexed_simplify true g
  | LByteMasked _ g | LBitMasked _ _ g => if form_option g then form_indexed_simplify true g else f
  | LUnmasked g => if form_option g then g else f
  | _ => f
  end.

(** Form::getitem_field: EmptyArray.cpp:160-165, NumpyArray.cpp:291-296, ListArray.cpp:239-248, ListOffsetArray.cpp:228-236, RegularArray.cpp:215-223,
    IndexedArray.cpp:226-234 and 472-480, ByteMaskedArray.cpp:210-219, BitMaskedArray.cpp:229-239, UnmaskedArray.cpp:183-190,
    RecordArray.cpp:331-334 with content(key) 71-74, UnionArray.cpp:326-332 *)
Fixpoint form_field (key : string) (f : lform) : res lform :=
  match f with
  | LEmpty => Err "key does not exist (data might not be records)"
  | LNumpy _ => Err "key does not exist (data are not records)"
  | LList f => let* g := form_field key f in Ok (LList g)
  | LListOffset f => let* g := form_field key f in Ok (LListOffset g)
  | LRegular size f => let* g := form_field key f in Ok (LRegular size g)
  | LIndexed f => let* g := form_field key f in Ok (form_simplify (LIndexed g))
  | LIndexedOption f => let* g := form_field key f in Ok (form_simplify (LIndexedOption g))
  | LByteMasked vw f => let* g := form_field key f in Ok (form_simplify (LByteMasked vw g))
  | LBitMasked vw lsb f => let* g := form_field key f in Ok (form_simplify (LBitMasked vw lsb g))
  | LUnmasked f => let* g := form_field key f in Ok (form_simplify (LUnmasked g))
  | LRecord keys fs => let* i := fieldindex keys key (zlen fs) in rd fs i
  | LUnion _ => Err "UnionForm breaks the one-to-one relationship between fieldindexes and keys"
  end.

(** ** virtual arrays *)
(** VirtualArray.h:260-276, ArrayGenerator.h: a generator with its expected form (null: [None]) and length (negative: unknown).
    [id] is the cache key, which also names the generator object.  Only the user's virtual arrays have a cache: the ones made by slicing,
    with a SliceGenerator, have none (VirtualArray.cpp:610, 648, 682, 722, 976, 995, 1010, 1026). *)
Inductive varray : Type :=
| VUser (id : Z) (form : option lform) (len : Z) (cached : bool)
| VSlice (id : Z) (form : option lform) (len : Z) (source : varray) (where_ : list sliceitem).
Definition vid (v : varray) : Z := match v with VUser id _ _ _ | VSlice id _ _ _ _ => id end.
Definition vform (v : varray) : option lform := match v with VUser _ f _ _ | VSlice _ f _ _ _ => f end.
Definition vlen (v : varray) : Z := match v with VUser _ _ n _ | VSlice _ _ n _ _ => n end.

(** What a request returns: another virtual array, or an array or element of a materialised one *)
Inductive result : Type :=
| Lazy (v : varray)
| Now (it : item).

(** The state that requests share: the entries of the caches, the forms that generators have inferred (inferred_form_, ArrayGenerator.h),
    the number of names given out (ArrayCache::newkey, ArrayCache.cpp:14-18), and a clock that tells one cache lookup from the next *)
Record world : Type := World { clock : nat; fresh : Z; store : list (Z * content); inferred : list (Z * lform) }.
Fixpoint lookup {A} (k : Z) (l : list (Z * A)) : option A :=
  match l with [] => None | (j, x) :: t => if j =? k then Some x else lookup k t end.

Section Virtual.
Variable is64 : content -> bool.
Variable fuel : nat.
(** what the user's generator with this name gives *)
Variable make : Z -> res content.
(** whether the cache has lost the entry it is asked for, by the time of the lookup: a cache may drop any entry at any time, and all of
    them when it is garbage collected (is_broken) *)
Variable lost : nat -> bool.

(** ArrayCache::get and set: ArrayCache.h:30-52, in Python: src/python/virtual.cpp, PyArrayCache *)
Definition cache_get (id : Z) (w : world) : option content * world :=
  (if lost (clock w) then None else lookup id (store w), World (S (clock w)) (fresh w) (store w) (inferred w)).
Definition cache_set (id : Z) (c : content) (w : world) : world :=
  World (clock w) (fresh w) ((id, c) :: store w) (inferred w).

(** ArrayGenerator::form: ArrayGenerator.cpp:17-23 *)
Definition generator_form (v : varray) (w : world) : option lform :=
  match vform v with Some f => Some f | None => lookup (vid v) (inferred w) end.

(** ArrayGenerator::generate_and_check after generate: ArrayGenerator.cpp:32-54 *)
Definition check_generated (id : Z) (form : option lform) (len : Z) (out : content) (w : world) : res (content * world) :=
  if (0 <=? len) && (length_ out <? len) then Err "generated array does not have sufficient length"
  else match form with
  | Some f => if form_equal f (layout out) then Ok (out, w) else Err "generated array does not conform to expected form"
  | None => Ok (out, World (clock w) (fresh w) (store w) ((id, layout out) :: inferred w))
  end.

(** Content::getitem where the result is an array *)
Definition as_array (it : item) : res content := match it with IArray c => Ok c | _ => Err "not an array" end.

(** SliceGenerator::generate, given its content's array: ArrayGenerator.cpp:75-96 *)
Definition slice_generate (c : content) (where_ : list sliceitem) : res content :=
  match where_ with
  | [SRange start stop step] =>
      if step =? 1 then getitem_range c start stop else let* it := getitem is64 fuel c where_ in as_array it
  | _ => let* it := getitem is64 fuel c where_ in as_array it
  end.

(** VirtualArray::array: VirtualArray.cpp:368-396 *)
Fixpoint array (v : varray) (w : world) : res (content * world) :=
  match v with
  | VUser id form len cached =>
      let '(hit, w) := if cached then cache_get id w else (None, w) in
      let* cw := match hit with
                 | Some c => Ok (c, w)
                 | None => let* out := make id in check_generated id form len out w
                 end in
      let '(c, w) := cw in
      Ok (c, if cached then cache_set id c w else w)
  | VSlice id form len source where_ =>
      let* cw := array source w in
      let '(c, w) := cw in
      let* out := slice_generate c where_ in
      check_generated id form len out w
  end.

(** VirtualArray::peek_array: VirtualArray.cpp:348-354 *)
Definition peek (v : varray) (w : world) : option content * world :=
  match v with
  | VUser id _ _ true => cache_get id w
  | _ => (None, w)
  end.

(** VirtualArray::length: VirtualArray.cpp:508-515 *)
Definition v_length (v : varray) (w : world) : res (Z * world) :=
  if vlen v <? 0 then let* cw := array v w in let '(c, w) := cw in Ok (length_ c, w)
  else Ok (vlen v, w).

(** A new VirtualArray with a SliceGenerator on a shallow copy of this one, and no cache *)
Definition new_slice (form : option lform) (len : Z) (v : varray) (where_ : list sliceitem) (w : world) : res (result * world) :=
  Ok (Lazy (VSlice (fresh w) form len v where_), World (clock w) (fresh w + 1) (store w) (inferred w)).

(** VirtualArray::getitem_at: VirtualArray.cpp:544-564; length() is asked twice *)
Definition v_getitem_at (v : varray) (at_ : Z) (w : world) : res (result * world) :=
  let* nw := if at_ <? 0 then v_length v w else Ok (0, w) in
  let '(n, w) := nw in
  let regular_at := at_ + n in
  let* nw := v_length v w in
  let '(n, w) := nw in
  if negb ((0 <=? regular_at) && (regular_at <? n)) then Err "index out of range" else
  let* cw := array v w in
  let '(c, w) := cw in
  let* it := getitem_at_nowrap c regular_at in
  Ok (Now it, w).

(** VirtualArray::getitem_range_nowrap: VirtualArray.cpp:586-619 *)
Definition v_getitem_range_nowrap (v : varray) (start stop : Z) (w : world) : res (result * world) :=
  let '(hit, w) := peek v w in
  match hit with
  | Some c => let* r := getitem_range_nowrap c start stop in Ok (Now (IArray r), w)
  | None =>
      if (0 <=? vlen v) && (start =? 0) && (stop =? vlen v) then Ok (Lazy v, w)
      else new_slice (option_map form_range (generator_form v w)) (stop - start) v [SRange start stop 1] w
  end.

(** VirtualArray::getitem_range: VirtualArray.cpp:566-584 *)
Definition v_getitem_range (v : varray) (start stop : Z) (w : world) : res (result * world) :=
  if vlen v <? 0 then
    let* cw := array v w in
    let '(c, w) := cw in
    let* r := getitem_range c start stop in Ok (Now (IArray r), w)
  else
    let '(hit, w) := peek v w in
    match hit with
    | Some c => let* r := getitem_range c start stop in Ok (Now (IArray r), w)
    | None =>
        let '(a, b) := regularize_rangeslice start stop true (negb (start =? kSliceNone)) (negb (stop =? kSliceNone)) (vlen v) in
        v_getitem_range_nowrap v a b w
    end.

(** VirtualArray::getitem_field: VirtualArray.cpp:621-655 *)
Definition v_getitem_field (v : varray) (key : string) (w : world) : res (result * world) :=
  let '(hit, w) := peek v w in
  match hit with
  | Some c => let* r := getitem_field key c in Ok (Now (IArray r), w)
  | None =>
      let* form := match generator_form v w with Some f => let* g := form_field key f in Ok (Some g) | None => Ok None end in
      new_slice form (vlen v) v [SField key] w
  end.

(** VirtualArray::carry: VirtualArray.cpp:698-731 *)
Definition v_carry (v : varray) (cry : list Z) (allow_lazy : bool) (w : world) : res (result * world) :=
  let* contiguous := awkward_Index_iscontiguous cry (zlen cry) in
  if contiguous then
    let* nw := v_length v w in
    let '(n, w) := nw in
    if zlen cry =? n then Ok (Lazy v, w) else v_getitem_range_nowrap v 0 (zlen cry) w
  else
    let '(hit, w) := peek v w in
    match hit with
    | Some c => let* r := carry c cry allow_lazy in Ok (Now (IArray r), w)
    | None => new_slice None (zlen cry) v [SArray [zlen cry] cry] w
    end.

(** VirtualArray::getitem: VirtualArray.cpp:936-1053.  A slice by one field does not depend on the rest of the slice here. *)
Definition v_getitem (v : varray) (where_ : list sliceitem) (w : world) : res (result * world) :=
  let '(hit, w) := peek v w in
  let generated w :=
    let* cw := array v w in
    let '(c, w) := cw in
    let* it := getitem is64 fuel c where_ in Ok (Now it, w) in
  match hit with
  | Some c => let* it := getitem is64 fuel c where_ in Ok (Now it, w)
  | None =>
      match where_ with
      | [SRange start stop step] =>
          if step =? 0 then Err "slice step cannot be zero"
          else if 0 <=? vlen v then
            let '(a, b) := regularize_rangeslice start stop (0 <? step) (negb (start =? kSliceNone)) (negb (stop =? kSliceNone)) (vlen v) in
            let length :=
              if ((0 <? step) && (0 <? b - a)) || ((step <? 0) && (b - a <? 0)) then
                let numer := Z.abs (a - b) in
                let denom := Z.abs step in
                Z.quot numer denom + (if negb (Z.rem numer denom =? 0) then 1 else 0)
              else 0 in
            new_slice None length v where_ w
          else generated w
      | [SEllipsis] => new_slice None (vlen v) v where_ w
      | [SNewAxis] => new_slice None 1 v where_ w
      | [SArray (n :: _) _] => new_slice None n v where_ w
      | [SField key] => v_getitem_field v key w
      | _ => generated w
      end
  end.

(** ** requests to the result of an earlier request *)
Inductive request : Type :=
| RRange (start stop : Z)                      (* getitem_range *)
| RSlice (start stop step : Z)                 (* getitem with one range *)
| RIndex (index : list Z)                      (* getitem with one array of integers *)
| RField (key : string)                        (* getitem_field *)
| RCarry (index : list Z).                     (* carry, which every other operation uses *)

Definition ask (x : result) (r : request) (w : world) : res (result * world) :=
  let now r := let* c := r in Ok (Now (IArray c), w) in
  match x, r with
  | Lazy v, RRange start stop => v_getitem_range v start stop w
  | Lazy v, RSlice start stop step => v_getitem v [SRange start stop step] w
  | Lazy v, RIndex index => v_getitem v [SArray [zlen index] index] w
  | Lazy v, RField key => v_getitem_field v key w
  | Lazy v, RCarry index => v_carry v index true w
  | Now (IArray c), RRange start stop => now (getitem_range c start stop)
  | Now (IArray c), RSlice start stop step => let* it := getitem is64 fuel c [SRange start stop step] in Ok (Now it, w)
  | Now (IArray c), RIndex index => let* it := getitem is64 fuel c [SArray [zlen index] index] in Ok (Now it, w)
  | Now (IArray c), RField key => now (getitem_field key c)
  | Now (IArray c), RCarry index => now (carry c index true)
  | Now _, _ => Err "not an array"
  end.

(** Looking at the data: every method that VirtualArray passes on to array() (VirtualArray.cpp:499-503, 529-533, 776-933) *)
Definition read (x : result) (w : world) : res (item * world) :=
  match x with
  | Lazy v => let* cw := array v w in let '(c, w) := cw in Ok (IArray c, w)
  | Now it => Ok (it, w)
  end.
Definition ask_length (x : result) (w : world) : res (Z * world) :=
  match x with
  | Lazy v => v_length v w
  | Now (IArray c) => Ok (length_ c, w)
  | Now _ => Err "not an array"
  end.
Definition ask_at (x : result) (at_ : Z) (w : world) : res (result * world) :=
  match x with
  | Lazy v => v_getitem_at v at_ w
  | Now (IArray c) => let* it := getitem_at c at_ in Ok (Now it, w)
  | Now _ => Err "not an array"
  end.

(** A history of requests, each to an array obtained before: the arrays obtained so far, in order *)
Inductive action : Type :=
| ARequest (which : Z) (r : request)
| ARead (which : Z)
| ALength (which : Z)
| AAt (which : Z) (at_ : Z).
Definition act (a : action) (pool : list result) (w : world) : res (list result * world) :=
  match a with
  | ARequest k r => let* x := rd pool k in let* yw := ask x r w in Ok (pool ++ [fst yw], snd yw)
  | ARead k => let* x := rd pool k in let* yw := read x w in Ok (pool, snd yw)
  | ALength k => let* x := rd pool k in let* yw := ask_length x w in Ok (pool, snd yw)
  | AAt k i => let* x := rd pool k in let* yw := ask_at x i w in Ok (pool, snd yw)
  end.
Fixpoint history (acts : list action) (pool : list result) (w : world) : res (list result * world) :=
  match acts with
  | [] => Ok (pool, w)
  | a :: acts => let* pw := act a pool w in history acts (fst pw) (snd pw)
  end.
End Virtual.
