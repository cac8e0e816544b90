(** The reducers: Content::reduce and reduce_next of every class. *)
From Verif Require Import Base Content KCore Core KConvert Convert KOption Option KAxis Axis KMerge Merge KReduce.

(** The reducers (include/awkward/Reducer.h).  Min and Max carry an optional initial value, as an integer and as a real number
    (initial_i64_ and initial_f64_). *)
Inductive reducer : Type :=
| Count | CountNonzero | Sum | Prod | Any | All
| Min (initial : option (Z * Z)) | Max (initial : option (Z * Z))
| Argmin | Argmax.

(** Floating point numbers are only codes ([DReal]); their arithmetic is a parameter. *)
Record floats : Type := {
  fadd : Z -> Z -> Z;
  fmul : Z -> Z -> Z;
  flt : Z -> Z -> bool;      (* x < y *)
  fnz : Z -> bool;           (* x != 0 *)
  fzero : Z;
  fone : Z;
  finf : Z;                  (* infinity *)
  fninf : Z;                 (* -infinity *)
}.

(** returns_positions: Reducer.cpp:18-20, 2408-2410, 2678-2680 *)
Definition returns_positions (r : reducer) : bool := match r with Argmin | Argmax => true | _ => false end.
(** preferred_dtype: Reducer.cpp:30, 191, 456, 827, 1200, 1465, 1744, 2078, 2398, 2668 *)
Definition preferred_dtype (r : reducer) : dtype :=
  match r with
  | Count | CountNonzero | Sum | Min _ | Max _ => DReal
  | Prod | Argmin | Argmax => DInt
  | Any | All => DBool
  end.
(** return_dtype: Reducer.cpp:13-15, 35, 196, 461-483, 832-854, 1205, 1470, 2403, 2673 *)
Definition return_dtype (r : reducer) (given : dtype) : dtype :=
  match r with
  | Count | CountNonzero | Argmin | Argmax => DInt
  | Sum | Prod => match given with DReal => DReal | _ => DInt end
  | Any | All => DBool
  | Min _ | Max _ => given
  end.

Definition max_int64 : Z := 9223372036854775807.
Definition min_int64 : Z := -9223372036854775808.

(** the order of the elements: (x != 0) < (y != 0) for booleans *)
Definition lt_of (F : floats) (dt : dtype) : Z -> Z -> bool :=
  match dt with
  | DBool => fun x y => b2i (negb (x =? 0)) <? b2i (negb (y =? 0))
  | DInt => Z.ltb
  | DReal => flt F
  end.
Definition nz_of (F : floats) (dt : dtype) : Z -> bool :=
  match dt with DReal => fnz F | _ => fun x => negb (x =? 0) end.

(** apply_bool, apply_int64 and apply_float64 of the reducers: Reducer.cpp:40-148 (count), 201-396 (count_nonzero), 486-765 (sum),
    857-1136 (prod), 1210-1405 (any), 1475-1670 (all), 1749-1994 (min), 2083-2328 (max), 2413-2608 (argmin), 2683-2878 (argmax) *)
Definition apply_reducer (F : floats) (r : reducer) (dt : dtype) (data parents : list Z) (outlength : Z) : res (list Z) :=
  let to := alloc outlength in
  let n := zlen parents in
  match r, dt with
  | Count, _ => awkward_reduce_count_64 to parents n outlength
  | CountNonzero, _ => awkward_reduce_countnonzero (nz_of F dt) to data parents n outlength
  | Sum, DBool => awkward_reduce_countnonzero (nz_of F dt) to data parents n outlength
  | Sum, DInt => awkward_reduce_sum (fun x y => wrap64 (x + y)) 0 to data parents n outlength
  | Sum, DReal => awkward_reduce_sum (fadd F) (fzero F) to data parents n outlength
  | Prod, DBool => awkward_reduce_prod_int64_bool_64 to data parents n outlength
  | Prod, DInt => awkward_reduce_prod (fun x y => wrap64 (x * y)) 1 to data parents n outlength
  | Prod, DReal => awkward_reduce_prod (fmul F) (fone F) to data parents n outlength
  | Any, _ => awkward_reduce_sum_bool (nz_of F dt) to data parents n outlength
  | All, _ => awkward_reduce_prod_bool (nz_of F dt) to data parents n outlength
  | Min _, DBool => awkward_reduce_prod_bool (nz_of F dt) to data parents n outlength
  | Min i, DInt => awkward_reduce_min (lt_of F dt) to data parents n outlength (match i with Some (z, _) => z | None => max_int64 end)
  | Min i, DReal => awkward_reduce_min (lt_of F dt) to data parents n outlength (match i with Some (_, x) => x | None => finf F end)
  | Max _, DBool => awkward_reduce_sum_bool (nz_of F dt) to data parents n outlength
  | Max i, DInt => awkward_reduce_max (lt_of F dt) to data parents n outlength (match i with Some (z, _) => z | None => min_int64 end)
  | Max i, DReal => awkward_reduce_max (lt_of F dt) to data parents n outlength (match i with Some (_, x) => x | None => fninf F end)
  | Argmin, _ => awkward_reduce_argmin (lt_of F dt) to data parents n outlength
  | Argmax, _ => awkward_reduce_argmax (lt_of F dt) to data parents n outlength
  end.

(** branch_depth: EmptyArray.cpp:395, NumpyArray.cpp:1507 (one-dimensional), ListArray.cpp:863, ListOffsetArray.cpp:861, RegularArray.cpp:751,
    IndexedArray.cpp:1489, ByteMaskedArray.cpp:799, BitMaskedArray.cpp:763, UnmaskedArray.cpp:668, RecordArray.cpp:987, UnionArray.cpp:1373.
    Strings are not modelled. *)
Definition branch_step (acc bd : bool * Z) : bool * Z :=
  let '(anybranch, mindepth) := acc in
  let '(b, d) := bd in
  let mindepth := if mindepth =? -1 then d else mindepth in
  (anybranch || (b || negb (mindepth =? d)), if d <? mindepth then d else mindepth).
Fixpoint branch_depth (c : content) : bool * Z :=
  match c with
  | Empty | Numpy _ _ => (false, 1)
  | ListA _ _ c' | ListOffset _ c' | Regular _ _ c' => let '(b, d) := branch_depth c' in (b, d + 1)
  | Indexed _ c' | IndexedOption _ c' | ByteMasked _ _ c' | BitMasked _ _ _ _ c' | Unmasked c' => branch_depth c'
  | Record _ _ [] => (false, 1)
  | Record _ _ cs | Union _ _ cs => fold_left branch_step (map branch_depth cs) (false, -1)
  end.
(** dimension_optiontype: Content.cpp:914-916 and the Form classes: BitMaskedArray.cpp:134, ByteMaskedArray.cpp:126, EmptyArray.cpp:77,
    IndexedArray.cpp:143 and 389, ListArray.cpp:143, ListOffsetArray.cpp:133, NumpyArray.cpp:207, RecordArray.cpp:172, RegularArray.cpp:120,
    UnionArray.cpp:172, UnmaskedArray.cpp:101 *)
Fixpoint dimension_optiontype (c : content) : bool :=
  match c with
  | IndexedOption _ _ | ByteMasked _ _ _ | BitMasked _ _ _ _ _ | Unmasked _ => true
  | Union _ _ cs => existsb dimension_optiontype cs
  | _ => false
  end.

(** "if it is a RegularArray, turn it into a ListOffsetArray64": e.g. ByteMaskedArray.cpp:1160-1162 *)
Definition unregular (start_at_zero : bool) (c : content) : res content :=
  match c with Regular _ _ _ => toListOffsetArray64 true start_at_zero c | _ => Ok c end.

Section Reduce.
Variable F : floats.
Variable is64 : content -> bool.           (* does a list node have 64-bit offsets? *)
Variable represents_regular : content -> bool.  (* the flag of a ListOffsetArray64 that was made from a RegularArray *)
Variable rc : Z -> Z.
Variable narrow : content -> bool.
Variable refeq : content -> content -> bool.
Variable mfuel : nat.
Variable r : reducer.
Variable mask : bool.

(** NumpyArray::reduce_next for one dimension: NumpyArray.cpp:3176-3358 *)
Definition numpy_reduce (dt : dtype) (data starts shifts parents : list Z) (outlength : Z) (keepdims : bool) : res content :=
  let* ptr := apply_reducer F r dt data parents outlength in
  let* ptr := if returns_positions r then
                if zlen shifts =? 0 then awkward_NumpyArray_reduce_adjust_starts_64 ptr outlength parents starts
                else awkward_NumpyArray_reduce_adjust_starts_shifts_64 ptr outlength parents starts shifts
              else Ok ptr in
  let out := Numpy (return_dtype r dt) ptr in
  let* out := if mask then
                let* outmask := awkward_NumpyArray_reduce_mask_ByteMaskedArray_64 (alloc outlength) parents (zlen parents) outlength in
                mkByteMasked outmask false out
              else Ok out in
  if keepdims then mkRegular 1 (zlen data) out else Ok out.

(** what option-type and indexed arrays do after the elements that are there have been reduced: ByteMaskedArray.cpp:1173-1214, IndexedArray.cpp:2244-2285 *)
Definition put_missing_back (outindex starts : list Z) (out : content) : res content :=
  let* out := unregular true out in
  match out with
  | ListOffset _ c' =>
      let* _ := if 0 <? zlen starts then
                  let* s0 := rd starts 0 in
                  if negb (s0 =? 0) then Err "reduce_next with unbranching depth > negaxis expects a ListOffsetArray64 whose offsets start at zero" else Ok tt
                else Ok tt in
      let* outoffsets := awkward_IndexedArray_reduce_next_fix_offsets_64 (alloc (zlen starts + 1)) starts (zlen starts) (zlen outindex) in
      mkListOffset outoffsets (IndexedOption outindex c')
  | _ => Err "reduce_next with unbranching depth > negaxis is only expected to return RegularArray or ListOffsetArray64"
  end.

(** the common part of ByteMaskedArray.cpp:1098-1215 and IndexedArray.cpp:2171-2288.  [next3] is the kernel that finds nextcarry, nextparents and outindex,
    [mkshifts] the kernel that finds nextshifts; [fromregular] is false for IndexedArray, which does not convert
    a RegularArray content.  The node has the branch_depth of its content [c']. *)
Definition option_reduce (rec : list Z -> list Z -> content -> res content) (c' : content) (negaxis : Z) (starts : list Z)
  (next3 : res (list Z * list Z * list Z)) (make_shifts : bool) (mkshifts : Z -> res (list Z)) (fromregular : bool) : res content :=
  let* t := next3 in
  let '(nextcarry, nextparents, outindex) := t in
  let '(branch, depth) := branch_depth c' in
  let atdepth := negb branch && (negaxis =? depth) in
  let* nextshifts := if make_shifts && returns_positions r && atdepth then mkshifts (zlen nextcarry) else Ok [] in
  let* next := carry c' nextcarry false in
  let* next := if fromregular then unregular true next else Ok next in
  let* out := rec nextshifts nextparents next in
  if atdepth then Ok out else put_missing_back outindex starts out.

Definition bytemasked_reduce (rec : list Z -> list Z -> content -> res content) (mk : list Z) (vw : bool) (c' : content) (negaxis : Z)
  (starts shifts parents : list Z) : res content :=
  option_reduce rec c' negaxis starts
    (let* numnull := awkward_ByteMaskedArray_numnull mk (zlen mk) vw in
     awkward_ByteMaskedArray_reduce_next_64 (alloc (zlen mk - numnull)) (alloc (zlen mk - numnull)) (alloc (zlen mk)) mk parents (zlen mk) vw)
    true
    (fun n => nextshifts_loop (fun i => let* m := rd mk i in Ok (Bool.eqb (negb (m =? 0)) vw))
                              (fun i => if zlen shifts =? 0 then Ok 0 else rd shifts i) (alloc n) (zlen mk))
    true.
Definition indexed_reduce (isoption : bool) (rec : list Z -> list Z -> content -> res content) (index : list Z) (c' : content) (negaxis : Z)
  (starts shifts parents : list Z) : res content :=
  option_reduce rec c' negaxis starts
    (let* numnull := awkward_IndexedArray_numnull index (zlen index) in
     awkward_IndexedArray_reduce_next_64 (alloc (zlen index - numnull)) (alloc (zlen index - numnull)) (alloc (zlen index)) index parents (zlen index))
    isoption
    (fun n => nextshifts_loop (fun i => let* j := rd index i in Ok (0 <=? j))
                              (fun i => if zlen shifts =? 0 then Ok 0 else rd shifts i) (alloc n) (zlen index))
    isoption.

(** the conversions at the end of RegularArray::reduce_next: RegularArray.cpp:1071-1122 *)
Definition inner_toregular (c : content) : res content :=
  match c with ListOffset _ _ | ListA _ _ _ => toRegularArray true c | _ => Ok c end.
Definition regular_convert (negaxis depth : Z) (keepdims : bool) (out : content) : res content :=
  let convert_shallow := negb keepdims && (negaxis =? depth) in
  let convert_deep := keepdims || (negaxis + 2 =? depth) in
  let* out := if convert_deep then
                match out with
                | ListOffset offsets c' => let* c'' := inner_toregular c' in mkListOffset offsets c''
                | ListA starts stops c' => let* c'' := inner_toregular c' in mkListA starts stops c''
                | _ => Ok out
                end
              else Ok out in
  if convert_shallow then inner_toregular out else Ok out.

(** reduce_next: BitMaskedArray.cpp:955-971, ByteMaskedArray.cpp:1098-1215, EmptyArray.cpp:559-579, IndexedArray.cpp:2171-2288,
    ListArray.cpp:1390-1406, ListOffsetArray.cpp:1347-1531 and 1535-1551, NumpyArray.cpp:3176-3358, RecordArray.cpp:1470-1496,
    RegularArray.cpp:1054-1125, UnionArray.cpp:2011-2036, UnmaskedArray.cpp:900-920 *)
Fixpoint reduce_next (fuel : nat) (c : content) (negaxis : Z) (starts shifts parents : list Z) (outlength : Z) (keepdims : bool) : res content :=
  match fuel with
  | O => UB
  | S fuel =>
      (* ListOffsetArrayOf<int64_t>::reduce_next *)
      let listoffset (offsets : list Z) (c' : content) : res content :=
        let c := ListOffset offsets c' in
        let '(branch, depth) := branch_depth c in
        if negb branch && (negaxis =? depth) then
          if negb (zlen offsets - 1 =? zlen parents) then Err "offsets_.length() - 1 != parents.length()" else
          let* globalstart := rd offsets 0 in
          let* globalstop := rd offsets (zlen offsets - 1) in
          let nextlen := globalstop - globalstart in
          let* mo := awkward_ListOffsetArray_reduce_nonlocal_maxcount_offsetscopy_64 (alloc (zlen offsets)) offsets (zlen offsets - 1) in
          let '(maxcount, offsetscopy) := mo in
          let* nx := awkward_ListOffsetArray_reduce_nonlocal_preparenext_64 (alloc nextlen) (alloc nextlen) nextlen (alloc (maxcount * outlength)) (maxcount * outlength)
                       offsetscopy offsets (zlen offsets - 1) parents maxcount in
          let '(nextcarry, nextparents, maxnextparents, distincts) := nx in
          let* nextstarts := awkward_ListOffsetArray_reduce_nonlocal_nextstarts_64 (alloc (maxnextparents + 1)) nextparents nextlen in
          let* gaps := awkward_ListOffsetArray_reduce_nonlocal_findgaps_64 (alloc outlength) parents (zlen parents) in
          let* ss := awkward_ListOffsetArray_reduce_nonlocal_outstartsstops_64 (alloc outlength) (alloc outlength) distincts (maxcount * outlength) gaps outlength in
          let '(outstarts, outstops) := ss in
          let* nextshifts := if returns_positions r then
              awkward_ListOffsetArray_reduce_nonlocal_nextshifts_64 (alloc maxcount) (alloc globalstop) (alloc nextlen) offsets (zlen offsets - 1) starts parents maxcount nextlen nextcarry
            else Ok [] in
          let* nextcontent := carry c' nextcarry false in
          let* outcontent := reduce_next fuel nextcontent (negaxis - 1) nextstarts nextshifts nextparents (maxnextparents + 1) false in
          let* out := mkListA outstarts outstops outcontent in
          if keepdims then
            let* reg := mkRegular 1 (zlen offsets - 1) out in
            toListOffsetArray64 true false reg
          else Ok out
        else
          let* globalstart := rd offsets 0 in
          let* globalstop := rd offsets (zlen offsets - 1) in
          let* nextparents := awkward_ListOffsetArray_reduce_local_nextparents_64 (alloc (globalstop - globalstart)) offsets (zlen offsets - 1) in
          let* trimmed := getitem_range_nowrap c' globalstart globalstop in
          let* nextstarts := make_starts offsets in
          let* outcontent := reduce_next fuel trimmed negaxis nextstarts shifts nextparents (zlen offsets - 1) keepdims in
          let* outoffsets := awkward_ListOffsetArray_reduce_local_outoffsets_64 (alloc (outlength + 1)) parents (zlen parents) outlength in
          let* outcontent := if keepdims && (negb (represents_regular c) || dimension_optiontype c') then unregular false outcontent else Ok outcontent in
          mkListOffset outoffsets outcontent in
      match c with
      | Empty => numpy_reduce (preferred_dtype r) [] starts shifts parents outlength keepdims
      | Numpy dt data => numpy_reduce dt data starts shifts parents outlength keepdims
      | ListA _ _ _ =>
          let* lo := toListOffsetArray64 (is64 c) true c in
          match lo with ListOffset offsets c' => listoffset offsets c' | _ => UB end
      | ListOffset offsets c' =>
          if is64 c then listoffset offsets c'
          else
            let* lo := toListOffsetArray64 false true c in
            match lo with ListOffset offsets c' => listoffset offsets c' | _ => UB end
      | Regular _ _ c0 =>
          let* lo := toListOffsetArray64 true true c in
          let* out := match lo with ListOffset offsets c' => listoffset offsets c' | _ => UB end in
          if dimension_optiontype c0 then Ok out
          else regular_convert negaxis (snd (branch_depth c)) keepdims out
      | Indexed index c' =>
          indexed_reduce false (fun nextshifts nextparents next => reduce_next fuel next negaxis starts nextshifts nextparents outlength keepdims) index c' negaxis starts shifts parents
      | IndexedOption index c' =>
          indexed_reduce true (fun nextshifts nextparents next => reduce_next fuel next negaxis starts nextshifts nextparents outlength keepdims) index c' negaxis starts shifts parents
      | ByteMasked mk vw c' =>
          bytemasked_reduce (fun nextshifts nextparents next => reduce_next fuel next negaxis starts nextshifts nextparents outlength keepdims) mk vw c' negaxis starts shifts parents
      | BitMasked _ _ _ _ _ =>
          let* bm := toByteMaskedArray c in
          match bm with
          | ByteMasked mk vw c' =>
              bytemasked_reduce (fun nextshifts nextparents next => reduce_next fuel next negaxis starts nextshifts nextparents outlength keepdims) mk vw c' negaxis starts shifts parents
          | _ => UB
          end
      | Unmasked c' =>
          let* next := unregular true c' in
          reduce_next fuel next negaxis starts shifts parents outlength keepdims
      | Record keys len cs =>
          let* contents := mapres (fun x =>
            let* trimmed := getitem_range_nowrap x 0 len in
            reduce_next fuel trimmed negaxis starts shifts parents outlength keepdims) cs in
          mkRecord keys outlength contents
      | Union tags index cs =>
          let* simplified := simplify_uniontype rc narrow refeq mfuel true true tags index cs in
          match simplified with
          | Union _ _ _ => Err "cannot reduce an irreducible UnionArray"
          | _ => reduce_next fuel simplified negaxis starts shifts parents outlength keepdims
          end
      end
  end.

(** Content::reduce: Content.cpp:986-1047 *)
Definition reduce (fuel : nat) (c : content) (axis : Z) (keepdims : bool) : res item :=
  let '(branch, depth) := branch_depth c in
  let* negaxis :=
    if branch then
      if - axis <=? 0 then Err "cannot use non-negative axis on a nested list structure of variable depth"
      else if depth <? - axis then Err "cannot use axis on a nested list structure that splits into different depths"
      else Ok (- axis)
    else
      let negaxis := if - axis <=? 0 then - axis + depth else - axis in
      if negb ((0 <? negaxis) && (negaxis <=? depth)) then Err "axis exceeds the depth of the nested list structure"
      else Ok negaxis in
  let* parents := awkward_content_reduce_zeroparents_64 (alloc (length_ c)) (length_ c) in
  let* next := reduce_next fuel c negaxis [0] [] parents 1 keepdims in
  getitem_at_nowrap next 0.
End Reduce.
