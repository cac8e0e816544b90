(** Types (src/libawkward/type/) and the type of an array.

    Not modelled: parameters (every one is empty, so the tests of parameters_equal succeed), typestr, the text of a type,
    ArrayType (a type and a length). *)
From Coq Require Import String.
From Verif Require Import Base Content KCore Core Getitem.
Local Open Scope string_scope.
Local Open Scope list_scope.
Local Open Scope Z_scope.

Inductive ty :=
| YUnknown                                                  (* UnknownType.h *)
| YNum (dt : dtype)                                         (* PrimitiveType.h *)
| YList (t : ty)                                            (* ListType.h *)
| YRegular (t : ty) (size : Z)                              (* RegularType.h *)
| YOption (t : ty)                                          (* OptionType.h *)
| YRecord (keys : option (list string)) (ts : list ty)      (* RecordType.h; no keys: a tuple *)
| YUnion (ts : list ty).                                    (* UnionType.h *)

(** type(typestrs) of each class is form(true).type(typestrs): EmptyArray.cpp:30-34 and 222-224, NumpyArray.cpp:76-98 and 766-768,
    ListArray.cpp:62-67 and 506-508, ListOffsetArray.cpp:56-61 and 527-529, RegularArray.cpp:53-59 and 466-468,
    IndexedArray.cpp:55-75, 314-324 and 1109-1111, ByteMaskedArray.cpp:60-65 and 485-487, BitMaskedArray.cpp:64-69 and 501-503,
    UnmaskedArray.cpp:43-48 and 398-401, RecordArray.cpp:99-109 and 599-601, UnionArray.cpp:62-71 and 906-908 *)
Fixpoint type_of (c : content) : ty :=
  match c with
  | Empty => YUnknown
  | Numpy dt _ => YNum dt
  | ListA _ _ c => YList (type_of c)
  | ListOffset _ c => YList (type_of c)
  | Regular size _ c => YRegular (type_of c) size
  | Indexed _ c => type_of c
  | IndexedOption _ c => YOption (type_of c)
  | ByteMasked _ _ c => YOption (type_of c)
  | BitMasked _ _ _ _ c => YOption (type_of c)
  | Unmasked c => YOption (type_of c)
  | Record keys _ cs => YRecord keys (map type_of cs)
  | Union _ _ cs => YUnion (map type_of cs)
  end.

(** OptionType::type, OptionType.cpp:104-110, called on an OptionType whose type_ is [t] *)
Fixpoint option_type (t : ty) : ty := match t with YOption t => option_type t | _ => t end.

(** util::haskey, util.cpp:553-565: fieldindex does not throw *)
Definition haskey (keys : option (list string)) (key : string) (numfields : Z) : bool :=
  match fieldindex keys key numfields with Ok _ => true | _ => false end.

(** equal(other, check_parameters): UnknownType.cpp:40-51, PrimitiveType.cpp:45-56, ListType.cpp:46-57, RegularType.cpp:48-60,
    OptionType.cpp:55-66, RecordType.cpp:158-196, UnionType.cpp:50-69.
    field(key) is types_[fieldindex(key)]: RecordType.cpp:251-254. *)
Fixpoint ty_equal (a b : ty) {struct a} : bool :=
  match a, b with
  | YUnknown, YUnknown => true
  | YNum dt, YNum du => match dt, du with DBool, DBool | DInt, DInt | DReal, DReal => true | _, _ => false end
  | YList t, YList u => ty_equal t u
  | YRegular t n, YRegular u m => (n =? m) && ty_equal t u
  | YOption t, YOption u =>
      (fix inner (t : ty) : bool := match t with YOption t' => inner t' | _ => ty_equal t (option_type u) end) t
  | YRecord keys ts, YRecord keys' us =>
      let n := zlen ts in
      let field_equal := map ty_equal ts in
      if negb (n =? zlen us) then false
      else
        match keys, keys' with
        | Some ks, Some _ =>
            forallb (fun key =>
              haskey keys' key n &&
              match fieldindex keys key n, fieldindex keys' key n with
              | Ok i, Ok j => match nthZ field_equal i, nthZ us j with Some eq, Some u => eq u | _, _ => false end
              | _, _ => false
              end) ks
        | None, None =>
            forallb (fun j => match nthZ field_equal j, nthZ us j with Some eq, Some u => eq u | _, _ => false end) (zseq 0 n)
        | _, _ => false
        end
  | YUnion ts, YUnion us =>
      let field_equal := map ty_equal ts in
      if negb (zlen ts =? zlen us) then false
      else forallb (fun j => match nthZ field_equal j, nthZ us j with Some eq, Some u => eq u | _, _ => false end) (zseq 0 (zlen ts))
  | _, _ => false
  end.

(** empty(): UnknownType.cpp:82-85, PrimitiveType.cpp:87-108, ListType.cpp:84-94, RegularType.cpp:87-95, OptionType.cpp:93-101,
    RecordType.cpp:223-236, UnionType.cpp:111-124 *)
Fixpoint empty_of (t : ty) : res content :=
  match t with
  | YUnknown => Ok Empty
  | YNum dt => Ok (Numpy dt [])
  | YList t => let* c := empty_of t in mkListOffset [0] c
  | YRegular t size => let* c := empty_of t in mkRegular size 0 c
  | YOption t => let* c := empty_of t in Ok (IndexedOption [] c)
  | YRecord keys ts => let* cs := mapres empty_of ts in mkRecord keys 0 cs
  | YUnion ts => let* cs := mapres empty_of ts in mkUnion [] [] cs
  end.
