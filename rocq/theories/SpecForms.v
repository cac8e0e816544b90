(** What it takes for a Form to survive JSON, and when two Forms are the same. *)
From Coq Require Import String Sorted.
From Verif Require Import Base Forms.
Local Open Scope Z_scope.
Local Open Scope list_scope.
Local Open Scope string_scope.

(** no NUL character *)
Definition nul_free (s : string) : Prop := ~ In Ascii.zero (list_ascii_of_string s).

(** a JSON value without reals, with integers of 32 bits, without NUL characters *)
Inductive plain : json -> Prop :=
| plain_null : plain JNull
| plain_bool b : plain (JBool b)
| plain_int z : (- 2 ^ 31 <= z < 2 ^ 31)%Z -> plain (JInt z)
| plain_string s : nul_free s -> plain (JString s)
| plain_array l : Forall plain l -> plain (JArray l)
| plain_object l : Forall (fun kx => nul_free (fst kx) /\ plain (snd kx)) l -> plain (JObject l).

(** the parameters are a map: in the order of its keys *)
Definition proper_meta (m : meta) : Prop :=
  StronglySorted (fun a b => String.compare (fst a) (fst b) = Lt) (parameters m)
  /\ Forall (fun kx => nul_free (fst kx) /\ plain (snd kx)) (parameters m)
  /\ match form_key m with Some k => nul_free k | None => True end.

(** the Forms arrays have: index widths as in their class names, sizes of 32 bits, primitive numbers in the format NumPy gives them *)
Inductive proper : form -> Prop :=
| p_numpy m s dt : proper_meta m -> Forall (fun z => (- 2 ^ 31 <= z < 2 ^ 31)%Z) s -> dt <> NOT_PRIMITIVE ->
    proper (FNumpy m s (dtype_to_itemsize dt) (dtype_to_format dt) dt)
| p_tuple m l : proper_meta m -> Forall proper l -> proper (FRecord m None l)
| p_record m keys l : proper_meta m -> length keys = length l -> Forall nul_free keys -> Forall proper l -> proper (FRecord m (Some keys) l)
| p_listoffset m w c : proper_meta m -> In w [i32; u32; i64] -> proper c -> proper (FListOffset m w c)
| p_list m w c : proper_meta m -> In w [i32; u32; i64] -> proper c -> proper (FList m w w c)
| p_regular m c size : proper_meta m -> proper c -> (- 2 ^ 31 <= size < 2 ^ 31)%Z -> proper (FRegular m c size)
| p_indexedoption m w c : proper_meta m -> In w [i32; i64] -> proper c -> proper (FIndexedOption m w c)
| p_indexed m w c : proper_meta m -> In w [i32; u32; i64] -> proper c -> proper (FIndexed m w c)
| p_bytemasked m w c vw : proper_meta m -> proper c -> proper (FByteMasked m w c vw)
| p_bitmasked m w c vw lsb : proper_meta m -> proper c -> proper (FBitMasked m w c vw lsb)
| p_unmasked m c : proper_meta m -> proper c -> proper (FUnmasked m c)
| p_union m w l : proper_meta m -> In w [i32; u32; i64] -> Forall proper l -> proper (FUnion m i8 w l)
| p_empty m : proper_meta m -> proper (FEmpty m)
| p_virtual_none m n : proper_meta m -> proper (FVirtual m None n)
| p_virtual m c n : proper_meta m -> proper c -> proper (FVirtual m (Some c) n).

(** [j'] is [j] or a part of it *)
Inductive inside : json -> json -> Prop :=
| inside_here j : inside j j
| inside_array j x l : In x l -> inside j x -> inside j (JArray l)
| inside_object j k x l : In (k, x) l -> inside j x -> inside j (JObject l).
(** an object whose class is the ListOffsetArray without a width *)
Definition generic_list (j : json) : Prop :=
  exists l s, j = JObject l /\ find "class" l = Some (JString s) /\ cstr s = "ListOffsetArray".

Section Same.
Variable jeq : json -> json -> bool.
(** the two parameters that count; one that is missing is null *)
Definition value_of (k : string) (m : meta) : json := match find k (parameters m) with Some x => x | None => JNull end.
Definition same_meta (m n : meta) : Prop :=
  has_identities m = has_identities n
  /\ jeq (value_of "__array__" m) (value_of "__array__" n) = true /\ jeq (value_of "__record__" m) (value_of "__record__" n) = true
  /\ form_key m = form_key n.

(** the same Form: the fields of a record in any order, numbers by their format *)
Inductive same : form -> form -> Prop :=
| s_numpy m n s i i' f d d' : same_meta m n -> same (FNumpy m s i f d) (FNumpy n s i' f d')
| s_tuple m n l l' : same_meta m n -> Forall2 same l l' -> same (FRecord m None l) (FRecord n None l')
| s_record m n keys l keys' l' : same_meta m n -> length keys = length keys' ->
    (forall k x, In (k, x) (combine keys l) -> exists y, In (k, y) (combine keys' l') /\ same x y) ->
    same (FRecord m (Some keys) l) (FRecord n (Some keys') l')
| s_listoffset m n w c c' : same_meta m n -> same c c' -> same (FListOffset m w c) (FListOffset n w c')
| s_list m n w v c c' : same_meta m n -> same c c' -> same (FList m w v c) (FList n w v c')
| s_regular m n c c' size : same_meta m n -> same c c' -> same (FRegular m c size) (FRegular n c' size)
| s_indexedoption m n w c c' : same_meta m n -> same c c' -> same (FIndexedOption m w c) (FIndexedOption n w c')
| s_indexed m n w c c' : same_meta m n -> same c c' -> same (FIndexed m w c) (FIndexed n w c')
| s_bytemasked m n w c c' v : same_meta m n -> same c c' -> same (FByteMasked m w c v) (FByteMasked n w c' v)
| s_bitmasked m n w c c' v lsb : same_meta m n -> same c c' -> same (FBitMasked m w c v lsb) (FBitMasked n w c' v lsb)
| s_unmasked m n c c' : same_meta m n -> same c c' -> same (FUnmasked m c) (FUnmasked n c')
| s_union m n t w l l' : same_meta m n -> Forall2 same l l' -> same (FUnion m t w l) (FUnion n t w l')
| s_empty m n : same_meta m n -> same (FEmpty m) (FEmpty n)
| s_virtual_none m n k : same_meta m n -> same (FVirtual m None k) (FVirtual n None k)
| s_virtual m n c c' k : same_meta m n -> same c c' -> same (FVirtual m (Some c) k) (FVirtual n (Some c') k).
End Same.

(** the keys of every record are different, one for each content *)
Inductive distinct : form -> Prop :=
| d_numpy m s i f d : distinct (FNumpy m s i f d)
| d_tuple m l : Forall distinct l -> distinct (FRecord m None l)
| d_record m keys l : NoDup keys -> length keys = length l -> Forall distinct l -> distinct (FRecord m (Some keys) l)
| d_listoffset m w c : distinct c -> distinct (FListOffset m w c)
| d_list m w v c : distinct c -> distinct (FList m w v c)
| d_regular m c size : distinct c -> distinct (FRegular m c size)
| d_indexedoption m w c : distinct c -> distinct (FIndexedOption m w c)
| d_indexed m w c : distinct c -> distinct (FIndexed m w c)
| d_bytemasked m w c v : distinct c -> distinct (FByteMasked m w c v)
| d_bitmasked m w c v lsb : distinct c -> distinct (FBitMasked m w c v lsb)
| d_unmasked m c : distinct c -> distinct (FUnmasked m c)
| d_union m t w l : Forall distinct l -> distinct (FUnion m t w l)
| d_empty m : distinct (FEmpty m)
| d_virtual_none m n : distinct (FVirtual m None n)
| d_virtual m c n : distinct c -> distinct (FVirtual m (Some c) n).
