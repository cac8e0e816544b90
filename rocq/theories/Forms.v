(** Forms, written to JSON (tojson), read from JSON (Form::fromjson) and compared (equal).

    The text is written and parsed by rapidjson, which is not part of the repository: a text is represented by the JSON value it
    describes.  The values of parameters are JSON texts; here they are the JSON values these describe. *)
From Coq Require Import String.
From Verif Require Import Base.
Local Open Scope Z_scope.
Local Open Scope list_scope.
Local Open Scope string_scope.

(** a rapidjson Value; [JReal] a number with a fraction or an exponent, identified by its code *)
Inductive json : Type :=
| JNull
| JBool (b : bool)
| JInt (z : Z)
| JReal (code : Z)
| JString (s : string)
| JArray (l : list json)
| JObject (l : list (string * json)).

(** a std::string made of GetString(), and Key(const char* ): it ends at the first NUL *)
Fixpoint cstr (s : string) : string :=
  match s with
  | EmptyString => EmptyString
  | String c s => if Ascii.eqb c Ascii.zero then EmptyString else String c (cstr s)
  end.

(** util::dtype, util.h *)
Inductive prim :=
| NOT_PRIMITIVE | boolean | int8 | int16 | int32 | int64 | uint8 | uint16 | uint32 | uint64 | float16 | float32 | float64 | float128
| complex64 | complex128 | complex256 | datetime64 | timedelta64.
Scheme Equality for prim.

(** util.cpp:23-82; name.rfind(x, 0) == 0: the name begins with x *)
Definition name_to_dtype (name : string) : prim :=
  if name =? "bool" then boolean else if name =? "int8" then int8 else if name =? "int16" then int16 else if name =? "int32" then int32
  else if name =? "int64" then int64 else if name =? "uint8" then uint8 else if name =? "uint16" then uint16 else if name =? "uint32" then uint32
  else if name =? "uint64" then uint64 else if name =? "float16" then float16 else if name =? "float32" then float32 else if name =? "float64" then float64
  else if name =? "float128" then float128 else if name =? "complex64" then complex64 else if name =? "complex128" then complex128
  else if name =? "complex256" then complex256 else if String.prefix "datetime64" name then datetime64
  else if String.prefix "timedelta64" name then timedelta64 else NOT_PRIMITIVE.
(** util.cpp:84-126 *)
Definition dtype_to_name (dt : prim) : string :=
  match dt with
  | boolean => "bool" | int8 => "int8" | int16 => "int16" | int32 => "int32" | int64 => "int64"
  | uint8 => "uint8" | uint16 => "uint16" | uint32 => "uint32" | uint64 => "uint64"
  | float16 => "float16" | float32 => "float32" | float64 => "float64" | float128 => "float128"
  | complex64 => "complex64" | complex128 => "complex128" | complex256 => "complex256"
  | datetime64 => "datetime64" | timedelta64 => "timedelta64" | NOT_PRIMITIVE => "unknown"
  end.
(** util.cpp:128-223, on a little-endian machine *)
Definition format_to_dtype (format : string) (itemsize : Z) : prim :=
  let fmt := if (1 <? zlen (list_ascii_of_string format))%Z then
               match format with
               | String c rest => if (Ascii.eqb c "<" || Ascii.eqb c "=")%bool then Some rest else if Ascii.eqb c ">" then None else Some format
               | EmptyString => Some format
               end
             else Some format in
  match fmt with
  | None => NOT_PRIMITIVE
  | Some fmt =>
      let is l := existsb (String.eqb fmt) l in
      if is ["?"] then boolean
      else if is ["b"; "h"; "i"; "l"; "q"] then
        if (itemsize =? 1)%Z then int8 else if (itemsize =? 2)%Z then int16 else if (itemsize =? 4)%Z then int32 else if (itemsize =? 8)%Z then int64 else NOT_PRIMITIVE
      else if is ["c"; "B"; "H"; "I"; "L"; "Q"] then
        if (itemsize =? 1)%Z then uint8 else if (itemsize =? 2)%Z then uint16 else if (itemsize =? 4)%Z then uint32 else if (itemsize =? 8)%Z then uint64 else NOT_PRIMITIVE
      else if is ["e"] then float16 else if is ["f"] then float32 else if is ["d"] then float64 else if is ["g"] then float128
      else if is ["Zf"] then complex64 else if is ["Zd"] then complex128 else if is ["Zg"] then complex256
      else if is ["M"] then datetime64 else if is ["m"] then timedelta64 else NOT_PRIMITIVE
  end.
(** util.cpp:225-281 with an empty format, for a compiler other than Visual C++ and a 64-bit machine *)
Definition dtype_to_format (dt : prim) : string :=
  match dt with
  | boolean => "?" | int8 => "b" | int16 => "h" | int32 => "i" | int64 => "l" | uint8 => "B" | uint16 => "H" | uint32 => "I" | uint64 => "L"
  | float16 => "e" | float32 => "f" | float64 => "d" | float128 => "g" | complex64 => "Zf" | complex128 => "Zd" | complex256 => "Zg"
  | datetime64 => "M" | timedelta64 => "m" | NOT_PRIMITIVE => ""
  end.
(** util.cpp:318-360 *)
Definition dtype_to_itemsize (dt : prim) : Z :=
  match dt with
  | boolean | int8 | uint8 => 1 | int16 | uint16 | float16 => 2 | int32 | uint32 | float32 => 4
  | int64 | uint64 | float64 | complex64 | datetime64 | timedelta64 => 8 | float128 | complex128 => 16 | complex256 => 32
  | NOT_PRIMITIVE => 0
  end.

(** Index::Form, Index.h *)
Inductive iform := i8 | u8 | i32 | u32 | i64.
Scheme Equality for iform.
(** Index.cpp:42-59 *)
Definition form2str (w : iform) : string := match w with i8 => "i8" | u8 => "u8" | i32 => "i32" | u32 => "u32" | i64 => "i64" end.
(** Index.cpp:19-40: strncmp(str.c_str(), "i8", str.length()) == 0 compares only the characters of str *)
Definition str2form (s : string) : res iform :=
  if String.prefix s "i8" then Ok i8 else if String.prefix s "u8" then Ok u8 else if String.prefix s "i32" then Ok i32
  else if String.prefix s "u32" then Ok u32 else if String.prefix s "i64" then Ok i64 else Err "unrecognized Index::Form".

(** Form, Content.h: has_identities_, parameters_ (a std::map: in the order of its keys, without repetitions), form_key_ *)
Record meta := mkMeta { has_identities : bool; parameters : list (string * json); form_key : option string }.

(** the Form classes of src/libawkward/array *)
Inductive form : Type :=
| FNumpy (m : meta) (inner_shape : list Z) (itemsize : Z) (format : string) (dt : prim)
| FRecord (m : meta) (recordlookup : option (list string)) (contents : list form)
| FListOffset (m : meta) (offsets : iform) (content : form)
| FList (m : meta) (starts stops : iform) (content : form)
| FRegular (m : meta) (content : form) (size : Z)
| FIndexedOption (m : meta) (index : iform) (content : form)
| FIndexed (m : meta) (index : iform) (content : form)
| FByteMasked (m : meta) (mask : iform) (content : form) (valid_when : bool)
| FBitMasked (m : meta) (mask : iform) (content : form) (valid_when lsb_order : bool)
| FUnmasked (m : meta) (content : form)
| FUnion (m : meta) (tags index : iform) (contents : list form)
| FEmpty (m : meta)
| FVirtual (m : meta) (inner : option form) (has_length : bool).

Definition meta_of (f : form) : meta :=
  match f with
  | FNumpy m _ _ _ _ | FRecord m _ _ | FListOffset m _ _ | FList m _ _ _ | FRegular m _ _ | FIndexedOption m _ _ | FIndexed m _ _
  | FByteMasked m _ _ _ | FBitMasked m _ _ _ _ | FUnmasked m _ | FUnion m _ _ _ | FEmpty m | FVirtual m _ _ => m
  end.

(** Value::IsInt: a number that fits in 32 bits *)
Definition isint (z : Z) : bool := ((- 2 ^ 31 <=? z) && (z <? 2 ^ 31))%Z.

(** ** Writing *)
Section Writing.
(** (int64_t) of a floating point number; [None]: undefined *)
Variable truncate : Z -> option Z.

(** copyjson, io/json.cpp:37-74 *)
Fixpoint copyjson (j : json) : res json :=
  match j with
  | JNull => Ok JNull
  | JBool b => Ok (JBool b)
  | JInt z => if isint z then Ok (JInt z) else Err "unrecognized JSON element type"
  | JReal x => match truncate x with Some z => Ok (JInt z) | None => UB end
  | JString s => Ok (JString (cstr s))
  | JArray l =>
      let* l := (fix each (l : list json) := match l with [] => Ok [] | x :: l => let* x := copyjson x in let* l := each l in Ok (x :: l) end) l in
      Ok (JArray l)
  | JObject l =>
      let* l := (fix each (l : list (string * json)) :=
        match l with [] => Ok [] | (k, x) :: l => let* x := copyjson x in let* l := each l in Ok ((cstr k, x) :: l) end) l in
      Ok (JObject l)
  end.

(** Content.cpp:761-767 *)
Definition identities_tojson (m : meta) (verbose : bool) : list (string * json) :=
  if verbose || has_identities m then [("has_identities", JBool (has_identities m))] else [].
(** Content.cpp:769-780 *)
Definition parameters_tojson (m : meta) (verbose : bool) : res (list (string * json)) :=
  if verbose || negb (zlen (parameters m) =? 0)%Z then
    let* l := (fix each (l : list (string * json)) :=
      match l with [] => Ok [] | (k, x) :: l => let* x := copyjson x in let* l := each l in Ok ((cstr k, x) :: l) end) (parameters m) in
    Ok [("parameters", JObject l)]
  else Ok [].
(** Content.cpp:782-792 *)
Definition form_key_tojson (m : meta) (verbose : bool) : list (string * json) :=
  match form_key m with Some k => [("form_key", JString k)] | None => if verbose then [("form_key", JNull)] else [] end.
(** beginrecord, the fields, these three, endrecord *)
Definition finish (m : meta) (verbose : bool) (fields : list (string * json)) : res json :=
  let* p := parameters_tojson m verbose in Ok (JObject ((fields ++ identities_tojson m verbose ++ p ++ form_key_tojson m verbose)%list)).

(** NumpyForm::tojson_part, NumpyArray.cpp:126-167 *)
Definition numpy_tojson (m : meta) (inner_shape : list Z) (itemsize : Z) (format : string) (dt : prim) (verbose toplevel : bool) : res json :=
  let p := dtype_to_name dt in
  if verbose || toplevel || (p =? "") || negb (zlen inner_shape =? 0)%Z || has_identities m || negb (zlen (parameters m) =? 0)%Z
     || (match form_key m with Some _ => true | None => false end) then
    finish m verbose
     ([("class", JString "NumpyArray")]
       ++ (if verbose || negb (zlen inner_shape =? 0)%Z then [("inner_shape", JArray (map JInt inner_shape))] else [])
       ++ [("itemsize", JInt itemsize); ("format", JString format)]
       ++ (if negb (p =? "") then [("primitive", JString p)] else if verbose then [("primitive", JNull)] else []))%list
  else Ok (JString p).

(** tojson_part: RecordArray.cpp:111-136, ListOffsetArray.cpp:63-87, ListArray.cpp:69-95, RegularArray.cpp:61-74, IndexedArray.cpp:77-101 and 326-347,
    ByteMaskedArray.cpp:67-82, BitMaskedArray.cpp:71-88, UnmaskedArray.cpp:50-60, UnionArray.cpp:73-103, EmptyArray.cpp:36-44, VirtualArray.cpp:56-74 *)
Fixpoint tojson_part (verbose : bool) (f : form) : res json :=
  match f with
  | FNumpy m inner_shape itemsize format dt => numpy_tojson m inner_shape itemsize format dt verbose false
  | FRecord m None contents =>
      let* l := (fix each (l : list form) := match l with [] => Ok [] | x :: l => let* x := tojson_part verbose x in let* l := each l in Ok (x :: l) end) contents in
      finish m verbose [("class", JString "RecordArray"); ("contents", JArray l)]
  | FRecord m (Some keys) contents =>
      let* l := (fix each (l : list form) (keys : list string) :=
        match keys, l with
        | [], _ => Ok []
        | _ :: _, [] => UB
        | k :: keys, x :: l => let* x := tojson_part verbose x in let* l := each l keys in Ok ((cstr k, x) :: l)
        end) contents keys in
      finish m verbose [("class", JString "RecordArray"); ("contents", JObject l)]
  | FListOffset m w c =>
      let* c := tojson_part verbose c in
      let cls := match w with i32 => "ListOffsetArray32" | u32 => "ListOffsetArrayU32" | i64 => "ListOffsetArray64" | _ => "UnrecognizedListOffsetArray" end in
      finish m verbose [("class", JString cls); ("offsets", JString (form2str w)); ("content", c)]
  | FList m w w' c =>
      let* c := tojson_part verbose c in
      let cls := match w with i32 => "ListArray32" | u32 => "ListArrayU32" | i64 => "ListArray64" | _ => "UnrecognizedListArray" end in
      finish m verbose [("class", JString cls); ("starts", JString (form2str w)); ("stops", JString (form2str w')); ("content", c)]
  | FRegular m c size =>
      let* c := tojson_part verbose c in
      finish m verbose [("class", JString "RegularArray"); ("content", c); ("size", JInt size)]
  | FIndexedOption m w c =>
      let* c := tojson_part verbose c in
      let cls := match w with i32 => "IndexedOptionArray32" | i64 => "IndexedOptionArray64" | _ => "UnrecognizedIndexedOptionArray" end in
      finish m verbose [("class", JString cls); ("index", JString (form2str w)); ("content", c)]
  | FIndexed m w c =>
      let* c := tojson_part verbose c in
      let cls := match w with i32 => "IndexedArray32" | u32 => "IndexedArrayU32" | i64 => "IndexedArray64" | _ => "UnrecognizedIndexedArray" end in
      finish m verbose [("class", JString cls); ("index", JString (form2str w)); ("content", c)]
  | FByteMasked m w c vw =>
      let* c := tojson_part verbose c in
      finish m verbose [("class", JString "ByteMaskedArray"); ("mask", JString (form2str w)); ("content", c); ("valid_when", JBool vw)]
  | FBitMasked m w c vw lsb =>
      let* c := tojson_part verbose c in
      finish m verbose [("class", JString "BitMaskedArray"); ("mask", JString (form2str w)); ("content", c); ("valid_when", JBool vw); ("lsb_order", JBool lsb)]
  | FUnmasked m c =>
      let* c := tojson_part verbose c in
      finish m verbose [("class", JString "UnmaskedArray"); ("content", c)]
  | FUnion m w w' contents =>
      let* l := (fix each (l : list form) := match l with [] => Ok [] | x :: l => let* x := tojson_part verbose x in let* l := each l in Ok (x :: l) end) contents in
      let cls := match w' with i32 => "UnionArray8_32" | u32 => "UnionArray8_U32" | i64 => "UnionArray8_64" | _ => "UnrecognizedUnionArray" end in
      finish m verbose [("class", JString cls); ("tags", JString (form2str w)); ("index", JString (form2str w')); ("contents", JArray l)]
  | FEmpty m => finish m verbose [("class", JString "EmptyArray")]
  | FVirtual m inner has_length =>
      let* c := match inner with Some f => tojson_part verbose f | None => Ok JNull end in
      finish m verbose [("class", JString "VirtualArray"); ("form", c); ("has_length", JBool has_length)]
  end.
(** Form::tojson, Content.cpp:700-712, and NumpyForm::tojson, NumpyArray.cpp:108-119 *)
Definition tojson (verbose : bool) (f : form) : res json :=
  match f with
  | FNumpy m inner_shape itemsize format dt => numpy_tojson m inner_shape itemsize format dt verbose true
  | _ => tojson_part verbose f
  end.
End Writing.

(** ** Reading *)
(** what fromjson_part makes of a JSON value, of the elements of an array and of the members of an object.  Everything is computed
    beforehand: the code reads the parts when it needs them. *)
Inductive decoded := mkDecoded (self : res form) (elems : list (res form)) (members : list (string * res form)).
Definition self (d : decoded) := let '(mkDecoded s _ _) := d in s.
Definition elems (d : decoded) := let '(mkDecoded _ e _) := d in e.
Definition members (d : decoded) := let '(mkDecoded _ _ m) := d in m.

(** FindMember: the first one of that name *)
Fixpoint find {A} (k : string) (l : list (string * A)) : option A :=
  match l with [] => None | (k', x) :: l => if k =? k' then Some x else find k l end.

(** parameters[name] = value: std::map's operator[] *)
Fixpoint map_set (k : string) (x : json) (p : list (string * json)) : list (string * json) :=
  match p with
  | [] => [(k, x)]
  | (k', x') :: p' => match String.compare k k' with Lt => (k, x) :: p | Eq => (k, x) :: p' | Gt => (k', x') :: map_set k x p' end
  end.

Fixpoint all_ok {A} (l : list (res A)) : res (list A) :=
  match l with [] => Ok [] | x :: l => let* x := x in let* l := all_ok l in Ok (x :: l) end.
Fixpoint all_members (l : list (string * res form)) : res (list (string * form)) :=
  match l with [] => Ok [] | (k, x) :: l => let* x := x in let* l := all_members l in Ok ((cstr k, x) :: l) end.

Definition no_meta : meta := mkMeta false [] None.
(** a string: Content.cpp:239-252 *)
Definition from_name (s : string) : res form :=
  let dt := name_to_dtype (cstr s) in
  match dt with
  | NOT_PRIMITIVE => Err "JSON cannot be recognized as a Form"
  | _ => Ok (FNumpy no_meta [] (dtype_to_itemsize dt) (dtype_to_format dt) dt)
  end.

Section Object.
Variable o : list (string * (json * decoded)).
Definition get (k : string) : option json := option_map fst (find k o).
Definition part (k : string) : option decoded := option_map snd (find k o).

(** Content.cpp:258-268, 270-284, 286-296 *)
Definition read_meta : res meta :=
  let* h := match get "has_identities" with None => Ok false | Some (JBool b) => Ok b | Some _ => Err "'has_identities' must be boolean" end in
  let* p := match get "parameters" with
            | None => Ok []
            | Some (JObject l) => Ok (fold_left (fun p kv => map_set (cstr (fst kv)) (snd kv) p) l [])
            | Some _ => Err "'parameters' must be a JSON object"
            end in
  let* f := match get "form_key" with
            | None | Some JNull => Ok None
            | Some (JString s) => Ok (Some (cstr s))
            | Some _ => Err "'form_key' must be null or a string"
            end in
  Ok (mkMeta h p f).

(** e.g. Content.cpp:373-389; [w]: the width the class name gives *)
Definition read_width (k : string) (w : option iform) : res iform :=
  let* w := match get k with
            | Some (JString s) =>
                let* tmp := str2form (cstr s) in
                match w with
                | Some w => if iform_beq w tmp then Ok (Some tmp) else Err "conflicting type"
                | None => Ok (Some tmp)
                end
            | _ => Ok w
            end in
  match w with Some w => Ok w | None => Err "missing specification" end.
Definition read_content (k : string) : res form := match part k with Some d => self d | None => Err "missing its content" end.
Definition read_bool (k : string) : res bool := match get k with Some (JBool b) => Ok b | _ => Err "missing" end.

(** the class of an object and the rest: Content.cpp:254-676 *)
Definition from_object : res form :=
  match get "class" with
  | Some (JString cls) =>
      let cls := cstr cls in
      let* m := read_meta in
      (* :304-339 *)
      if cls =? "NumpyArray" then
        let* p := match get "primitive" with
                  | Some (JString s) =>
                      let* tmp := from_name s in
                      match tmp with FNumpy _ _ itemsize format _ => Ok (format, itemsize) | _ => UB end
                  | _ =>
                      match get "format", get "itemsize" with
                      | Some (JString format), Some (JInt itemsize) =>
                          if isint itemsize then Ok (cstr format, itemsize) else Err "NumpyForm must have a 'primitive' field or 'format' and 'itemsize'"
                      | _, _ => Err "NumpyForm must have a 'primitive' field or 'format' and 'itemsize'"
                      end
                  end in
        let '(format, itemsize) := p in
        let* s := match get "inner_shape" with
                  | Some (JArray l) => all_ok (map (fun x => match x with JInt z => if isint z then Ok z else Err "NumpyForm 'inner_shape' must only contain integers"
                                                                     | _ => Err "NumpyForm 'inner_shape' must only contain integers" end) l)
                  | _ => Ok []
                  end in
        Ok (FNumpy m s itemsize format (format_to_dtype format itemsize))
      (* :341-361 *)
      else if cls =? "RecordArray" then
        match get "contents", part "contents" with
        | Some (JArray _), Some d => let* l := all_ok (elems d) in Ok (FRecord m None l)
        | Some (JObject _), Some d => let* l := all_members (members d) in Ok (FRecord m (Some (map fst l)) (map snd l))
        | _, _ => Err "RecordArray 'contents' must be a JSON list or a JSON object"
        end
      (* :363-392: for this class name is64, isU32 and is32 have not been assigned when they are read (:367-370) *)
      else if cls =? "ListOffsetArray" then UB
      else if (cls =? "ListOffsetArray64") || (cls =? "ListOffsetArrayU32") || (cls =? "ListOffsetArray32") then
        let* w := read_width "offsets" (if cls =? "ListOffsetArray64" then Some i64 else if cls =? "ListOffsetArrayU32" then Some u32 else Some i32) in
        let* c := read_content "content" in
        Ok (FListOffset m w c)
      (* :394-441 *)
      else if (cls =? "ListArray") || (cls =? "ListArray64") || (cls =? "ListArrayU32") || (cls =? "ListArray32") then
        let w := if cls =? "ListArray64" then Some i64 else if cls =? "ListArrayU32" then Some u32 else if cls =? "ListArray32" then Some i32 else None in
        let* starts := read_width "starts" w in
        let* stops := read_width "stops" w in
        let* c := read_content "content" in
        Ok (FList m starts stops c)
      (* :443-455 *)
      else if cls =? "RegularArray" then
        let* c := read_content "content" in
        match get "size" with
        | Some (JInt size) => if isint size then Ok (FRegular m c size) else Err "missing its 'size'"
        | _ => Err "missing its 'size'"
        end
      (* :457-483 *)
      else if (cls =? "IndexedOptionArray") || (cls =? "IndexedOptionArray64") || (cls =? "IndexedOptionArray32") then
        let* w := read_width "index" (if cls =? "IndexedOptionArray64" then Some i64 else if cls =? "IndexedOptionArray32" then Some i32 else None) in
        let* c := read_content "content" in
        Ok (FIndexedOption m w c)
      (* :485-513 *)
      else if (cls =? "IndexedArray") || (cls =? "IndexedArray64") || (cls =? "IndexedArrayU32") || (cls =? "IndexedArray32") then
        let* w := read_width "index" (if cls =? "IndexedArray64" then Some i64 else if cls =? "IndexedArrayU32" then Some u32
                                      else if cls =? "IndexedArray32" then Some i32 else None) in
        let* c := read_content "content" in
        Ok (FIndexed m w c)
      (* :515-546 *)
      else if cls =? "ByteMaskedArray" then
        let* w := read_width "mask" None in
        let* c := read_content "content" in
        let* vw := read_bool "valid_when" in
        Ok (FByteMasked m w c vw)
      (* :548-588 *)
      else if cls =? "BitMaskedArray" then
        let* w := read_width "mask" None in
        let* c := read_content "content" in
        let* vw := read_bool "valid_when" in
        let* lsb := read_bool "lsb_order" in
        Ok (FBitMasked m w c vw lsb)
      (* :590-597 *)
      else if cls =? "UnmaskedArray" then
        let* c := read_content "content" in
        Ok (FUnmasked m c)
      (* :599-653 *)
      else if (cls =? "UnionArray") || (cls =? "UnionArray8_64") || (cls =? "UnionArray8_U32") || (cls =? "UnionArray8_32") then
        let* tags := read_width "tags" (if cls =? "UnionArray" then None else Some i8) in
        let* index := read_width "index" (if cls =? "UnionArray8_64" then Some i64 else if cls =? "UnionArray8_U32" then Some u32
                                          else if cls =? "UnionArray8_32" then Some i32 else None) in
        match get "contents", part "contents" with
        | Some (JArray _), Some d => let* l := all_ok (elems d) in Ok (FUnion m tags index l)
        | _, _ => Err "'contents' must be a JSON list"
        end
      (* :655-657 *)
      else if cls =? "EmptyArray" then Ok (FEmpty m)
      (* :659-674 *)
      else if cls =? "VirtualArray" then
        let* inner := match get "form" with
                      | None => Err "missing its 'form'"
                      | Some JNull => Ok None
                      | Some _ => let* f := read_content "form" in Ok (Some f)
                      end in
        let* has_length := read_bool "has_length" in
        Ok (FVirtual m inner has_length)
      else Err "JSON cannot be recognized as a Form"
  | _ => Err "JSON cannot be recognized as a Form"
  end.
End Object.

(** fromjson_part, Content.cpp:236-684 *)
Fixpoint decode (j : json) : decoded :=
  match j with
  | JString s => mkDecoded (from_name s) [] []
  | JArray l => mkDecoded (Err "JSON cannot be recognized as a Form") (map (fun x => self (decode x)) l) []
  | JObject l =>
      let parts := map (fun kx => (fst kx, (snd kx, decode (snd kx)))) l in
      mkDecoded (from_object parts) [] (map (fun kd => (fst kd, self (snd (snd kd)))) parts)
  | _ => mkDecoded (Err "JSON cannot be recognized as a Form") [] []
  end.
(** Form::fromjson, Content.cpp:686-691: a text that cannot be parsed gives null *)
Definition fromjson (j : json) : res form := self (decode j).

(** ** Comparing *)
Section Equal.
(** rapidjson's comparison of values *)
Variable jeq : json -> json -> bool.
Variables check_identities check_parameters check_form_key : bool.

(** util::parameters_equal with check_all = false, util.cpp:601-663: a parameter that is not there counts as null *)
Definition parameter (k : string) (p : list (string * json)) : json := match find k p with Some x => x | None => JNull end.
Definition parameters_equal (p q : list (string * json)) : bool :=
  jeq (parameter "__array__" p) (parameter "__array__" q) && jeq (parameter "__record__" p) (parameter "__record__" q).
(** Content.cpp:746-759 *)
Definition form_key_equals (a b : option string) : bool :=
  match a, b with None, None => true | Some a, Some b => a =? b | _, _ => false end.
(** the first three tests of every equal, e.g. NumpyArray.cpp:271-283 *)
Definition meta_equal (m n : meta) : bool :=
  (negb check_identities || Bool.eqb (has_identities m) (has_identities n))
  && (negb check_parameters || parameters_equal (parameters m) (parameters n))
  && (negb check_form_key || form_key_equals (form_key m) (form_key n)).

(** RecordArray.cpp:278-293: the first [j] with the key; [None]: there is none *)
Fixpoint field_position (k : string) (keys : list string) (j : Z) : option Z :=
  match keys with [] => None | k' :: keys => if k =? k' then Some j else field_position k keys (j + 1)%Z end.

Definition shape_equal (a b : list Z) : bool := if list_eq_dec Z.eq_dec a b then true else false.

(** equal with compatibility_check = false, as Python's == : NumpyArray.cpp:253-290, RecordArray.cpp:244-321, ListOffsetArray.cpp:184-225,
    ListArray.cpp:194-237, RegularArray.cpp:171-212, IndexedArray.cpp:182-223 and 428-469, ByteMaskedArray.cpp:165-206, BitMaskedArray.cpp:173-215,
    UnmaskedArray.cpp:140-180, UnionArray.cpp:273-324, EmptyArray.cpp:122-158, VirtualArray.cpp:227-282.
    Of two records with keys, contents that are missing are undefined behaviour; here they are not equal. *)
Fixpoint form_equal (a b : form) {struct a} : bool :=
  let each := fix each (l l' : list form) : bool :=
    match l, l' with [], [] => true | x :: l, x' :: l' => form_equal x x' && each l l' | _, _ => false end in
  meta_equal (meta_of a) (meta_of b) &&
  match a, b with
  | FNumpy _ s _ format _, FNumpy _ s' _ format' _ => shape_equal s s' && (format =? format')
  | FRecord _ None l, FRecord _ None l' => each l l'
  | FRecord _ (Some keys) l, FRecord _ (Some keys') l' =>
      (zlen keys =? zlen keys')%Z &&
      (fix fields (keys : list string) (l : list form) {struct l} : bool :=
        match keys, l with
        | [], _ => true
        | k :: keys, x :: l =>
            match field_position k keys' 0 with
            | Some j => match nthZ l' j with Some y => form_equal x y | None => false end && fields keys l
            | None => false
            end
        | _ :: _, [] => false
        end) keys l
  | FListOffset _ w c, FListOffset _ w' c' => iform_beq w w' && form_equal c c'
  | FList _ w v c, FList _ w' v' c' => iform_beq w w' && iform_beq v v' && form_equal c c'
  | FRegular _ c size, FRegular _ c' size' => form_equal c c' && (size =? size')%Z
  | FIndexedOption _ w c, FIndexedOption _ w' c' => iform_beq w w' && form_equal c c'
  | FIndexed _ w c, FIndexed _ w' c' => iform_beq w w' && form_equal c c'
  | FByteMasked _ w c v, FByteMasked _ w' c' v' => iform_beq w w' && form_equal c c' && Bool.eqb v v'
  | FBitMasked _ w c v lsb, FBitMasked _ w' c' v' lsb' => iform_beq w w' && form_equal c c' && Bool.eqb v v' && Bool.eqb lsb lsb'
  | FUnmasked _ c, FUnmasked _ c' => form_equal c c'
  | FUnion _ t w l, FUnion _ t' w' l' => iform_beq t t' && iform_beq w w' && each l l'
  | FEmpty _, FEmpty _ => true
  | FVirtual _ None n, FVirtual _ None n' => Bool.eqb n n'
  | FVirtual _ (Some c) n, FVirtual _ (Some c') n' => form_equal c c' && Bool.eqb n n'
  | _, _ => false
  end.
End Equal.
