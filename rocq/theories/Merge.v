(** Concatenation of arrays (mergeable, mergemany, reverse_merge, merge_as_union) and simplify_uniontype. *)
From Coq Require Import DecimalString.
From Verif Require Import Base Content KCore Core KConvert Convert KOption Option KMerge.

Section Foldm.
  Context {S A : Type} (f : S -> A -> res S).
  (** for (auto x : l) *)
  Fixpoint foldm (l : list A) (s : S) : res S :=
    match l with [] => Ok s | x :: t => let* s := f s x in foldm t s end.
End Foldm.

(** RecordArray::keys through util::keys (util.cpp:568-581): the positions, written in decimal, for a tuple *)
Definition record_keys (keys : option (list string)) (numfields : Z) : list string :=
  match keys with
  | Some ks => ks
  | None => map (fun i => NilZero.string_of_uint (Nat.to_uint (Z.to_nat i))) (zseq 0 numfields)
  end.
(** util::fieldindex (util.cpp:506-536): the first field of that name *)
Fixpoint keypos (ks : list string) (k : string) : option Z :=
  match ks with
  | [] => None
  | k' :: ks => if (k' =? k)%string then Some 0 else option_map (fun i => i + 1) (keypos ks k)
  end.
(** std::sort on both lists of keys, then == : the two lists have the same elements, with multiplicity *)
Definition same_keys (a b : list string) : bool :=
  (zlen a =? zlen b) && forallb (fun k => Nat.eqb (count_occ string_dec a k) (count_occ string_dec b k)) (a ++ b).

(** looking through the option-type and indexed nodes of [other] in mergeable *)
Fixpoint unwrap_other (k : content -> bool) (other : content) : bool :=
  match other with
  | Empty | Union _ _ _ => true
  | Indexed _ o | IndexedOption _ o | ByteMasked _ _ o | BitMasked _ _ _ _ o | Unmasked o => unwrap_other k o
  | _ => k other
  end.
Definition is_dbool (dt : dtype) : bool := match dt with DBool => true | _ => false end.

(** mergeable: BitMaskedArray.cpp:840-891, ByteMaskedArray.cpp:929-980, EmptyArray.cpp:474-479, IndexedArray.cpp:1642-1694,
    ListArray.cpp:979-1058, ListOffsetArray.cpp:1038-1118, NumpyArray.cpp:1668-1791, RecordArray.cpp:1132-1212,
    RegularArray.cpp:847-926, UnionArray.cpp:1596-1606, UnmaskedArray.cpp:765-816.
    Parameters are not modelled; field names of one record array are taken to be distinct. *)
Fixpoint mergeable (mergebool : bool) (c other : content) {struct c} : bool :=
  let lists (c' : content) : bool :=
    unwrap_other (fun o => match o with
      | ListA _ _ o' | ListOffset _ o' | Regular _ _ o' => mergeable mergebool c' o'
      | _ => false
      end) other in
  let options (c' : content) : bool :=
    match other with
    | Empty | Union _ _ _ => true
    | Indexed _ o | IndexedOption _ o | ByteMasked _ _ o | BitMasked _ _ _ _ o | Unmasked o => mergeable mergebool c' o
    | _ => mergeable mergebool c' other
    end in
  match c with
  | Empty | Union _ _ _ => true
  | Numpy dt _ =>
      unwrap_other (fun o => match o with
        | Numpy dt' _ => mergebool || Bool.eqb (is_dbool dt) (is_dbool dt')
        | _ => false
        end) other
  | ListA _ _ c' => lists c'
  | ListOffset _ c' => lists c'
  | Regular _ _ c' => lists c'
  | Indexed _ c' => options c'
  | IndexedOption _ c' => options c'
  | ByteMasked _ _ c' => options c'
  | BitMasked _ _ _ _ c' => options c'
  | Unmasked c' => options c'
  | Record keys _ cs =>
      unwrap_other (fun o => match o with
        | Record keys' _ cs' =>
            match keys, keys' with
            | None, None =>
                (zlen cs =? zlen cs') &&
                (fix all (cs cs' : list content) {struct cs} : bool :=
                   match cs, cs' with
                   | x :: cs, y :: cs' => mergeable mergebool x y && all cs cs'
                   | _, _ => true
                   end) cs cs'
            | Some ks, Some ks' =>
                same_keys ks ks' &&
                (fix all (ks : list string) (cs : list content) {struct cs} : bool :=
                   match cs, ks with
                   | x :: cs, k :: ks =>
                       match keypos ks' k with
                       | Some p => match nthZ cs' p with Some y => mergeable mergebool x y | None => false end
                       | None => false
                       end && all ks cs
                   | _, _ => true
                   end) ks cs
            | _, _ => false
            end
        | _ => false
        end) other
  end.

(** merging_strategy: Content.cpp:929-971 (most classes), IndexedArray.cpp:1787-1821, UnionArray.cpp:1740-1763.
    The head of the result always begins with the array itself, which is left out here. *)
Fixpoint split_until (p : content -> bool) (l : list content) : list content * list content :=
  match l with
  | [] => ([], [])
  | x :: t => if p x then ([], l) else let '(h, r) := split_until p t in (x :: h, r)
  end.
Definition merging_strategy (c : content) (others : list content) : list content * list content :=
  match c with
  | Union _ _ _ => (others, [])
  | Indexed _ _ | IndexedOption _ _ => split_until is_union others
  | _ => split_until (fun o => needs_simplify o || is_union o) others
  end.

Definition kMaxInt8 : Z := 127.  (* include/awkward/common.h:65 *)
Definition total_length (cs : list content) : Z := fold_left (fun n c => n + length_ c) cs 0.

(** The dtype of the result and the conversion of each buffer: NumpyArray.cpp:1914-2082 and 2113-2966, for booleans, 64-bit
    integers and one kind of floating-point numbers.  [rc] gives the code of the floating-point number an integer converts to. *)
Definition promote (a b : dtype) : dtype :=
  match a, b with
  | DReal, _ | _, DReal => DReal
  | DInt, _ | _, DInt => DInt
  | DBool, DBool => DBool
  end.

Section Merge.
Variable rc : Z -> Z.
(** whether the index of an indexed node, or the offsets of a list node, are narrower than 64 bits *)
Variable narrow : content -> bool.

Definition cast (from to : dtype) (z : Z) : Z :=
  match from, to with
  | DBool, DReal => rc (b2z (negb (z =? 0)))
  | DBool, _ => b2z (negb (z =? 0))
  | DInt, DReal => rc z
  | _, _ => z
  end.

(** merge_as_union: Content.cpp:1231-1272 *)
Definition merge_as_union (c other : content) : res content :=
  let mylength := length_ c in
  let theirlength := length_ other in
  let* tags := awkward_UnionArray_filltags_const (alloc (mylength + theirlength)) 0 mylength 0 in
  let* index := awkward_UnionArray_fillindex_count (alloc (mylength + theirlength)) 0 mylength in
  let* tags := awkward_UnionArray_filltags_const tags mylength theirlength 1 in
  let* index := awkward_UnionArray_fillindex_count index mylength theirlength in
  mkUnion tags index [c; other].

Section Rec.
(** [rec c others]: c.mergemany(others) on smaller arrays *)
Variable rec : content -> list content -> res content.

(** IndexedArray.cpp:1722-1783 *)
Definition Indexed_reverse_merge (self : content) (opt : bool) (myindex : list Z) (c' : content) (other : content) : res content :=
  let theirlength := length_ other in
  let mylength := zlen myindex in
  let* content := rec other [c'] in
  let* index := awkward_IndexedArray_fill_count (alloc (theirlength + mylength)) 0 theirlength 0 in
  let* index := awkward_IndexedArray_fill index theirlength myindex mylength theirlength in
  if narrow self then Err "unrecognized IndexedArray specialization"
  else Ok (if opt then IndexedOption index content else Indexed index content).

(** reverse_merge: IndexedArray.cpp:1722-1783, ByteMaskedArray.cpp:1005-1009, BitMaskedArray.cpp:918-922, UnmaskedArray.cpp:839-843
    (their int64 IndexedOptionArray is never narrow), UnionArray.cpp:1646-1736, Content.cpp:974-978 *)
Definition reverse_merge (self other : content) : res content :=
  match self with
  | Indexed index c' => Indexed_reverse_merge self false index c' other
  | IndexedOption index c' => Indexed_reverse_merge self true index c' other
  | ByteMasked _ _ _ | BitMasked _ _ _ _ _ | Unmasked _ =>
      let* o := toIndexedOptionArray64 self in
      match o with
      | IndexedOption index c' => 
          let theirlength := length_ other in
          let mylength := zlen index in
          let* content := rec other [c'] in
          let* toindex := awkward_IndexedArray_fill_count (alloc (theirlength + mylength)) 0 theirlength 0 in
          let* toindex := awkward_IndexedArray_fill toindex theirlength index mylength theirlength in
          Ok (IndexedOption toindex content)
      | _ => UB
      end
  | Union tags index cs =>
      let theirlength := length_ other in
      let mylength := zlen tags in
      let* totags := awkward_UnionArray_filltags_const (alloc (theirlength + mylength)) 0 theirlength 0 in
      let* toindex := awkward_UnionArray_fillindex_count (alloc (theirlength + mylength)) 0 theirlength in
      let* totags := awkward_UnionArray_filltags totags theirlength tags mylength 1 in
      let* toindex := awkward_UnionArray_fillindex toindex theirlength index mylength in
      if kMaxInt8 <? zlen (other :: cs) then Err "FIXME: handle UnionArray with more than 127 contents"
      else mkUnion totags toindex (other :: cs)
  | _ => Err "undefined operation: reverse_merge"
  end.

(** the end of every mergemany, for example ListArray.cpp:1284-1294 *)
Definition merge_tail (next : content) (tail : list content) : res content :=
  match tail with
  | [] => Ok next
  | t0 :: rest =>
      let* reversed := reverse_merge t0 next in
      match rest with
      | [] => Ok reversed
      | _ => rec reversed rest
      end
  end.

(** contents[0].mergemany(contents[1:]) *)
Definition merge_contents (cs : list content) : res content :=
  match cs with
  | [] => UB
  | c :: rest => rec c rest
  end.

(** ListArray.cpp:1103-1140 *)
Definition list_contents (head : list content) : res (list content) :=
  foldm (fun acc array => match array with
    | ListA _ _ c | ListOffset _ c | Regular _ _ c => Ok (acc ++ [c])
    | Empty => Ok acc
    | _ => Err "cannot merge ListArray with this class"
    end) head [].
(** the starts, the stops and the content length of one array: ListArray.cpp:1150-1275 *)
Definition list_bounds (array : content) : res (option (list Z * list Z * Z)) :=
  match array with
  | ListA starts stops c => Ok (Some (starts, stops, length_ c))
  | ListOffset offsets c =>
      let* starts := make_starts offsets in
      let* stops := make_stops offsets in
      Ok (Some (starts, stops, length_ c))
  | Regular _ _ _ =>
      let* lo := toListOffsetArray64 true true array in
      match lo with
      | ListOffset offsets c =>
          let* starts := make_starts offsets in
          let* stops := make_stops offsets in
          Ok (Some (starts, stops, length_ c))
      | _ => UB
      end
  | _ => Ok None
  end.
Definition list_fill (st : list Z * list Z * Z * Z) (array : content) : res (list Z * list Z * Z * Z) :=
  let '(nextstarts, nextstops, contentlength_so_far, length_so_far) := st in
  let* b := list_bounds array in
  match b with
  | Some (starts, stops, contentlength) =>
      let* p := awkward_ListArray_fill nextstarts length_so_far nextstops length_so_far starts stops (zlen starts) contentlength_so_far in
      let '(nextstarts, nextstops) := p in
      Ok (nextstarts, nextstops, contentlength_so_far + contentlength, length_so_far + zlen starts)
  | None => Ok st
  end.
(** ListArray.cpp:1087-1295 *)
Definition ListArray_mergemany (self : content) (others : list content) : res content :=
  let '(headless, tail) := merging_strategy self others in
  let head := self :: headless in
  let n := total_length head in
  let* contents := list_contents head in
  let* nextcontent := merge_contents contents in
  let* st := foldm list_fill head (alloc n, alloc n, 0, 0) in
  let '(nextstarts, nextstops, _, _) := st in
  let* next := mkListA nextstarts nextstops nextcontent in
  merge_tail next tail.

(** one array of IndexedArray.cpp:1848-1958; the state is (is_option, contents, contentlength_so_far, length_so_far, nextindex) *)
Definition indexed_fill (st : bool * list content * Z * Z * list Z) (array : content) : res (bool * list content * Z * Z * list Z) :=
  let '(is_option, contents, contentlength_so_far, length_so_far, nextindex) := st in
  let* array := match array with
                | ByteMasked _ _ _ | BitMasked _ _ _ _ _ | Unmasked _ => toIndexedOptionArray64 array
                | _ => Ok array
                end in
  match array with
  | Indexed index c =>
      let* nextindex := awkward_IndexedArray_fill nextindex length_so_far index (zlen index) contentlength_so_far in
      Ok (false, contents ++ [c], contentlength_so_far + length_ c, length_so_far + zlen index, nextindex)
  | IndexedOption index c =>
      let* nextindex := awkward_IndexedArray_fill nextindex length_so_far index (zlen index) contentlength_so_far in
      Ok (true, contents ++ [c], contentlength_so_far + length_ c, length_so_far + zlen index, nextindex)
  | Empty => Ok st
  | _ =>
      let* nextindex := awkward_IndexedArray_fill_count nextindex length_so_far (length_ array) contentlength_so_far in
      Ok (is_option, contents ++ [array], contentlength_so_far + length_ array, length_so_far + length_ array, nextindex)
  end.
(** IndexedArray.cpp:1825-1983 *)
Definition IndexedArray_mergemany (self : content) (others : list content) : res content :=
  let '(headless, tail) := merging_strategy self others in
  let head := self :: headless in
  let* st := foldm indexed_fill head (false, [], 0, 0, alloc (total_length head)) in
  let '(is_option, contents, _, _, nextindex) := st in
  let* nextcontent := merge_contents contents in
  merge_tail (if is_option then IndexedOption nextindex nextcontent else Indexed nextindex nextcontent) tail.

(** field_i.getitem_range_nowrap(0, raw->length()), appended to for_each_field[i] *)
Fixpoint push_fields (for_each_field : list (list content)) (fields : list content) : list (list content) :=
  match for_each_field, fields with
  | l :: ls, f :: fs => (l ++ [f]) :: push_fields ls fs
  | ls, _ => ls
  end.
(** one array of RecordArray.cpp:1280-1352 *)
Definition record_fill (keys : option (list string)) (for_each_field : list (list content)) (array : content) : res (list (list content)) :=
  let n := zlen for_each_field in
  match array with
  | Record keys' len' cs' =>
      match keys with
      | None =>
          if n =? zlen cs' then
            let* fields := mapres (fun f => getitem_range_nowrap f 0 len') cs' in
            Ok (push_fields for_each_field fields)
          else Err "cannot merge tuples with different numbers of fields"
      | Some ks =>
          let ks' := record_keys keys' (zlen cs') in
          if same_keys ks ks' then
            let* fields := mapres (fun k => match keypos ks' k with
                                            | Some p => let* f := rd cs' p in getitem_range_nowrap f 0 len'
                                            | None => Err "key does not exist (not in record)"
                                            end) ks in
            Ok (push_fields for_each_field fields)
          else Err "cannot merge records with different sets of field names"
      end
  | Empty => Ok for_each_field
  | _ => Err "cannot merge RecordArray with this class"
  end.
(** RecordArray.cpp:1262-1391.  The trimmed fields of the array itself are computed and not used (1275-1278). *)
Definition RecordArray_mergemany (self : content) (keys : option (list string)) (len : Z) (cs : list content) (others : list content) : res content :=
  let '(headless, tail) := merging_strategy self others in
  let* _ := mapres (fun f => getitem_range_nowrap f 0 len) cs in
  let* for_each_field := foldm (record_fill keys) headless (map (fun f => [f]) cs) in
  let* nextcontents := mapres merge_contents for_each_field in
  let minlength := fold_left (fun m c => if (m =? -1) || (length_ c <? m) then length_ c else m) nextcontents (-1) in
  let* next := mkRecord keys minlength nextcontents in
  merge_tail next tail.

(** NumpyArray.cpp:1869-2111 (the dtype of the result) and 2113-2966 (one buffer after the other) *)
Definition numpy_dtype (head : list content) : res (option dtype) :=
  foldm (fun acc array => match array with
    | Numpy dt _ => Ok (Some (match acc with None => dt | Some d => promote d dt end))
    | Empty => Ok acc
    | _ => Err "cannot merge NumpyArray with this class"
    end) head None.
Definition numpy_fill (dt : dtype) (st : list Z * Z) (array : content) : res (list Z * Z) :=
  let '(toptr, length_so_far) := st in
  match array with
  | Numpy dt' data =>
      let* toptr := awkward_NumpyArray_fill toptr length_so_far data (zlen data) (cast dt' dt) in
      Ok (toptr, length_so_far + zlen data)
  | _ => Ok st
  end.
(** NumpyArray.cpp:1823-3001, for one-dimensional contiguous arrays *)
Definition NumpyArray_mergemany (self : content) (others : list content) : res content :=
  let '(headless, tail) := merging_strategy self others in
  let head := self :: headless in
  let* dt := numpy_dtype head in
  match dt with
  | Some dt =>
      let* st := foldm (numpy_fill dt) head (alloc (total_length head), 0) in
      merge_tail (Numpy dt (fst st)) tail
  | None => UB
  end.

(** one array of UnionArray.cpp:1791-1881; the state is (nexttags, nextindex, nextcontents, length_so_far) *)
Definition union_fill (st : list Z * list Z * list content * Z) (array : content) : res (list Z * list Z * list content * Z) :=
  let '(nexttags, nextindex, nextcontents, length_so_far) := st in
  match array with
  | Union tags index cs =>
      let* nexttags := awkward_UnionArray_filltags nexttags length_so_far tags (zlen tags) (zlen nextcontents) in
      let* nextindex := awkward_UnionArray_fillindex nextindex length_so_far index (zlen tags) in
      Ok (nexttags, nextindex, nextcontents ++ cs, length_so_far + zlen tags)
  | Empty => Ok st
  | _ =>
      let* nexttags := awkward_UnionArray_filltags_const nexttags length_so_far (length_ array) (zlen nextcontents) in
      let* nextindex := awkward_UnionArray_fillindex_count nextindex length_so_far (length_ array) in
      Ok (nexttags, nextindex, nextcontents ++ [array], length_so_far + length_ array)
  end.
(** UnionArray.cpp:1767-1909 *)
Definition UnionArray_mergemany (self : content) (others : list content) : res content :=
  let '(headless, tail) := merging_strategy self others in
  let head := self :: headless in
  let n := total_length head in
  let* st := foldm union_fill head (alloc n, alloc n, [], 0) in
  let '(nexttags, nextindex, nextcontents, _) := st in
  if kMaxInt8 <? zlen nextcontents then Err "FIXME: handle UnionArray with more than 127 contents" else
  let* next := mkUnion nexttags nextindex nextcontents in
  merge_tail next tail.
End Rec.

(** mergemany: BitMaskedArray.cpp:925-930, ByteMaskedArray.cpp:1012-1017, EmptyArray.cpp:503-516, IndexedArray.cpp:1825-1983,
    ListArray.cpp:1087-1295, ListOffsetArray.cpp:1146-1156, NumpyArray.cpp:1823-3001, RecordArray.cpp:1262-1391,
    RegularArray.cpp:961-966, UnionArray.cpp:1767-1909, UnmaskedArray.cpp:846-851 *)
Fixpoint mergemany (fuel : nat) (c : content) (others : list content) : res content :=
  match fuel with
  | O => UB
  | S fuel =>
      match others with
      | [] => Ok c
      | o0 :: rest =>
          match c with
          | Empty => match rest with [] => Ok o0 | _ => mergemany fuel o0 rest end
          | ByteMasked _ _ _ | BitMasked _ _ _ _ _ | Unmasked _ =>
              let* o := toIndexedOptionArray64 c in
              IndexedArray_mergemany (mergemany fuel) o others
          | Indexed _ _ | IndexedOption _ _ => IndexedArray_mergemany (mergemany fuel) c others
          | Regular _ _ _ =>
              let* lo := toListOffsetArray64 true true c in
              match lo with
              | ListOffset offsets c' =>
                  let* starts := make_starts offsets in
                  let* stops := make_stops offsets in
                  let* l := mkListA starts stops c' in
                  ListArray_mergemany (mergemany fuel) l others
              | _ => UB
              end
          | ListOffset offsets c' =>
              let* starts := make_starts offsets in
              let* stops := make_stops offsets in
              let* l := mkListA starts stops c' in
              ListArray_mergemany (mergemany fuel) l others
          | ListA _ _ _ => ListArray_mergemany (mergemany fuel) c others
          | Numpy _ _ => NumpyArray_mergemany (mergemany fuel) c others
          | Record keys len cs => RecordArray_mergemany (mergemany fuel) c keys len cs others
          | Union _ _ _ => UnionArray_mergemany (mergemany fuel) c others
          end
      end
  end.
(** merge: Content.cpp:981-984 *)
Definition merge (fuel : nat) (c other : content) : res content := mergemany fuel c [other].

Fixpoint find_index (p : content -> bool) (l : list content) : option Z :=
  match l with
  | [] => None
  | x :: t => if p x then Some 0 else option_map (fun i => i + 1) (find_index p t)
  end.

Section Simplify.
(** Content::referentially_equal: true only of two arrays over the same buffers *)
Variable refeq : content -> content -> bool.
Variable fuel : nat.
Variables (domerge mergebool : bool).
Variables (len : Z) (tags_ index_ : list Z).

(** one content of a nested union: UnionArray.cpp:547-593, 599-643, 649-693 *)
Definition simplify_nested (i : Z) (innertags innerindex : list Z) (st : list Z * list Z * list content) (jc : Z * content)
  : res (list Z * list Z * list content) :=
  let '(tags, index, contents) := st in
  let '(j, x) := jc in
  match find_index (fun y => domerge && mergeable mergebool y x) contents with
  | Some k =>
      let* y := rd contents k in
      let* p := awkward_UnionArray_simplify tags index tags_ index_ innertags innerindex k j i len (length_ y) in
      let* m := merge fuel y x in
      let* contents := wr contents k m in
      Ok (fst p, snd p, contents)
  | None =>
      let* p := awkward_UnionArray_simplify tags index tags_ index_ innertags innerindex (zlen contents) j i len 0 in
      Ok (fst p, snd p, contents ++ [x])
  end.
(** one content that is not a union: UnionArray.cpp:696-745 *)
Definition simplify_plain (i : Z) (x : content) (st : list Z * list Z * list content) : res (list Z * list Z * list content) :=
  let '(tags, index, contents) := st in
  match find_index (fun y => refeq y x || (domerge && mergeable mergebool y x)) contents with
  | Some k =>
      let* y := rd contents k in
      if refeq y x then
        let* p := awkward_UnionArray_simplify_one tags index tags_ index_ k i len 0 in
        Ok (fst p, snd p, contents)
      else
        let* p := awkward_UnionArray_simplify_one tags index tags_ index_ k i len (length_ y) in
        let* m := merge fuel y x in
        let* contents := wr contents k m in
        Ok (fst p, snd p, contents)
  | None =>
      let* p := awkward_UnionArray_simplify_one tags index tags_ index_ (zlen contents) i len 0 in
      Ok (fst p, snd p, contents ++ [x])
  end.
Definition simplify_step (st : list Z * list Z * list content) (ic : Z * content) : res (list Z * list Z * list content) :=
  let '(i, x) := ic in
  match x with
  | Union innertags innerindex cs => foldm (simplify_nested i innertags innerindex) (combine (zseq 0 (zlen cs)) cs) st
  | _ => simplify_plain i x st
  end.
End Simplify.

(** UnionArray.cpp:523-748 *)
Definition simplify_uniontype (refeq : content -> content -> bool) (fuel : nat) (domerge mergebool : bool) (tags index : list Z) (cs : list content) : res content :=
  let len := zlen tags in
  if zlen index <? len then Err "len(index) < len(tags)" else
  let* st := foldm (simplify_step refeq fuel domerge mergebool len tags index) (combine (zseq 0 (zlen cs)) cs) (alloc len, alloc len, []) in
  let '(totags, toindex, contents) := st in
  if kMaxInt8 <? zlen contents then Err "FIXME: handle UnionArray with more than 127 contents" else
  match contents with
  | [c] => carry c toindex true
  | _ => mkUnion totags toindex contents
  end.
End Merge.
