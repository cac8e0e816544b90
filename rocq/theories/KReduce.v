(** Kernels behind the reducers. *)
From Verif Require Import Base KCombinations.

(** ** The loops of the reducers.
    toptr[i] = identity for every i, then toptr[parents[i]] = step(toptr[parents[i]], fromptr[i]). *)
Definition fill_identity (toptr : list Z) (outlength identity : Z) : res (list Z) :=
  for_ 0 outlength (fun i toptr => wr toptr i identity) toptr.

Definition b2i (b : bool) : Z := if b then 1 else 0.
(** arithmetic on int64_t: modulo 2^64 (signed overflow is undefined in C++; every compiler in use wraps) *)
Definition wrap64 (z : Z) : Z := (z + 9223372036854775808) mod 18446744073709551616 - 9223372036854775808.

(** awkward_reduce_count_64.cpp:7-19 *)
Definition awkward_reduce_count_64 (toptr parents : list Z) (lenparents outlength : Z) : res (list Z) :=
  let* toptr := fill_identity toptr outlength 0 in
  for_ 0 lenparents (fun i toptr =>
    let* p := rd parents i in
    let* t := rd toptr p in
    wr toptr p (t + 1)) toptr.
(** awkward_reduce_countnonzero.cpp:8-21 and awkward_reduce_sum_int64_bool_64.cpp:7-20; [nz x] is x != 0 *)
Definition awkward_reduce_countnonzero (nz : Z -> bool) (toptr fromptr parents : list Z) (lenparents outlength : Z) : res (list Z) :=
  let* toptr := fill_identity toptr outlength 0 in
  for_ 0 lenparents (fun i toptr =>
    let* p := rd parents i in
    let* x := rd fromptr i in
    let* t := rd toptr p in
    wr toptr p (t + b2i (nz x))) toptr.
(** awkward_reduce_sum.cpp:8-21; [add] is the addition of the output type, [zero] is (OUT)0 *)
Definition awkward_reduce_sum (add : Z -> Z -> Z) (zero : Z) (toptr fromptr parents : list Z) (lenparents outlength : Z) : res (list Z) :=
  let* toptr := fill_identity toptr outlength zero in
  for_ 0 lenparents (fun i toptr =>
    let* p := rd parents i in
    let* x := rd fromptr i in
    let* t := rd toptr p in
    wr toptr p (add t x)) toptr.
(** awkward_reduce_sum_bool.cpp:8-21 *)
Definition awkward_reduce_sum_bool (nz : Z -> bool) (toptr fromptr parents : list Z) (lenparents outlength : Z) : res (list Z) :=
  let* toptr := fill_identity toptr outlength 0 in
  for_ 0 lenparents (fun i toptr =>
    let* p := rd parents i in
    let* x := rd fromptr i in
    let* t := rd toptr p in
    wr toptr p (b2i (negb (t =? 0) || nz x))) toptr.
(** awkward_reduce_prod.cpp:8-21 *)
Definition awkward_reduce_prod (mul : Z -> Z -> Z) (one : Z) (toptr fromptr parents : list Z) (lenparents outlength : Z) : res (list Z) :=
  let* toptr := fill_identity toptr outlength one in
  for_ 0 lenparents (fun i toptr =>
    let* p := rd parents i in
    let* x := rd fromptr i in
    let* t := rd toptr p in
    wr toptr p (mul t x)) toptr.
(** awkward_reduce_prod_int64_bool_64.cpp:7-20 *)
Definition awkward_reduce_prod_int64_bool_64 (toptr fromptr parents : list Z) (lenparents outlength : Z) : res (list Z) :=
  let* toptr := fill_identity toptr outlength 1 in
  for_ 0 lenparents (fun i toptr =>
    let* p := rd parents i in
    let* x := rd fromptr i in
    let* t := rd toptr p in
    wr toptr p (t * b2i (negb (x =? 0)))) toptr.
(** awkward_reduce_prod_bool.cpp:8-21 *)
Definition awkward_reduce_prod_bool (nz : Z -> bool) (toptr fromptr parents : list Z) (lenparents outlength : Z) : res (list Z) :=
  let* toptr := fill_identity toptr outlength 1 in
  for_ 0 lenparents (fun i toptr =>
    let* p := rd parents i in
    let* x := rd fromptr i in
    let* t := rd toptr p in
    wr toptr p (b2i (negb (t =? 0) && nz x))) toptr.
(** awkward_reduce_min.cpp:8-23; [lt x y] is x < y *)
Definition awkward_reduce_min (lt : Z -> Z -> bool) (toptr fromptr parents : list Z) (lenparents outlength identity : Z) : res (list Z) :=
  let* toptr := fill_identity toptr outlength identity in
  for_ 0 lenparents (fun i toptr =>
    let* x := rd fromptr i in
    let* p := rd parents i in
    let* t := rd toptr p in
    wr toptr p (if lt x t then x else t)) toptr.
(** awkward_reduce_max.cpp:8-23 *)
Definition awkward_reduce_max (lt : Z -> Z -> bool) (toptr fromptr parents : list Z) (lenparents outlength identity : Z) : res (list Z) :=
  let* toptr := fill_identity toptr outlength identity in
  for_ 0 lenparents (fun i toptr =>
    let* x := rd fromptr i in
    let* p := rd parents i in
    let* t := rd toptr p in
    wr toptr p (if lt t x then x else t)) toptr.
(** awkward_reduce_argmin.cpp:8-24 and awkward_reduce_argmin_bool_64.cpp:7-23 *)
Definition awkward_reduce_argmin (lt : Z -> Z -> bool) (toptr fromptr parents : list Z) (lenparents outlength : Z) : res (list Z) :=
  let* toptr := fill_identity toptr outlength (-1) in
  for_ 0 lenparents (fun i toptr =>
    let* parent := rd parents i in
    let* t := rd toptr parent in
    if t =? -1 then wr toptr parent i
    else
      let* x := rd fromptr i in
      let* y := rd fromptr t in
      if lt x y then wr toptr parent i else Ok toptr) toptr.
(** awkward_reduce_argmax.cpp:8-24 and awkward_reduce_argmax_bool_64.cpp:7-23 *)
Definition awkward_reduce_argmax (lt : Z -> Z -> bool) (toptr fromptr parents : list Z) (lenparents outlength : Z) : res (list Z) :=
  let* toptr := fill_identity toptr outlength (-1) in
  for_ 0 lenparents (fun i toptr =>
    let* parent := rd parents i in
    let* t := rd toptr parent in
    if t =? -1 then wr toptr parent i
    else
      let* x := rd fromptr i in
      let* y := rd fromptr t in
      if lt y x then wr toptr parent i else Ok toptr) toptr.

(** ** Finding the groups *)
(** awkward_content_reduce_zeroparents_64.cpp:7-14 *)
Definition awkward_content_reduce_zeroparents_64 (toparents : list Z) (length : Z) : res (list Z) :=
  for_ 0 length (fun i toparents => wr toparents i 0) toparents.
(** awkward_NumpyArray_reduce_adjust_starts_64.cpp:7-21 *)
Definition awkward_NumpyArray_reduce_adjust_starts_64 (toptr : list Z) (outlength : Z) (parents starts : list Z) : res (list Z) :=
  for_ 0 outlength (fun k toptr =>
    let* i := rd toptr k in
    if 0 <=? i then
      let* parent := rd parents i in
      let* start := rd starts parent in
      wr toptr k (i + - start)
    else Ok toptr) toptr.
(** awkward_NumpyArray_reduce_adjust_starts_shifts_64.cpp:7-22 *)
Definition awkward_NumpyArray_reduce_adjust_starts_shifts_64 (toptr : list Z) (outlength : Z) (parents starts shifts : list Z) : res (list Z) :=
  for_ 0 outlength (fun k toptr =>
    let* i := rd toptr k in
    if 0 <=? i then
      let* parent := rd parents i in
      let* start := rd starts parent in
      let* shift := rd shifts i in
      wr toptr k (i + (shift - start))
    else Ok toptr) toptr.
(** awkward_NumpyArray_reduce_mask_ByteMaskedArray_64.cpp:7-19 *)
Definition awkward_NumpyArray_reduce_mask_ByteMaskedArray_64 (toptr parents : list Z) (lenparents outlength : Z) : res (list Z) :=
  let* toptr := for_ 0 outlength (fun i toptr => wr toptr i 1) toptr in
  for_ 0 lenparents (fun i toptr =>
    let* p := rd parents i in
    wr toptr p 0) toptr.

(** awkward_ByteMaskedArray_reduce_next_64.cpp:7-28 *)
Definition awkward_ByteMaskedArray_reduce_next_64 (nextcarry nextparents outindex mask parents : list Z) (length : Z) (validwhen : bool)
  : res (list Z * list Z * list Z) :=
  let* st := for_ 0 length (fun i st =>
    let '(k, nextcarry, nextparents, outindex) := st in
    let* m := rd mask i in
    if Bool.eqb (negb (m =? 0)) validwhen then
      let* nextcarry := wr nextcarry k i in
      let* p := rd parents i in
      let* nextparents := wr nextparents k p in
      let* outindex := wr outindex i k in
      Ok (k + 1, nextcarry, nextparents, outindex)
    else
      let* outindex := wr outindex i (-1) in
      Ok (k, nextcarry, nextparents, outindex)) (0, nextcarry, nextparents, outindex) in
  let '(_, nextcarry, nextparents, outindex) := st in Ok (nextcarry, nextparents, outindex).
(** awkward_IndexedArray_reduce_next_64.cpp:8-28 *)
Definition awkward_IndexedArray_reduce_next_64 (nextcarry nextparents outindex index parents : list Z) (length : Z)
  : res (list Z * list Z * list Z) :=
  let* st := for_ 0 length (fun i st =>
    let '(k, nextcarry, nextparents, outindex) := st in
    let* j := rd index i in
    if 0 <=? j then
      let* nextcarry := wr nextcarry k j in
      let* p := rd parents i in
      let* nextparents := wr nextparents k p in
      let* outindex := wr outindex i k in
      Ok (k + 1, nextcarry, nextparents, outindex)
    else
      let* outindex := wr outindex i (-1) in
      Ok (k, nextcarry, nextparents, outindex)) (0, nextcarry, nextparents, outindex) in
  let '(_, nextcarry, nextparents, outindex) := st in Ok (nextcarry, nextparents, outindex).
(** awkward_IndexedArray_reduce_next_fix_offsets_64.cpp:7-17 *)
Definition awkward_IndexedArray_reduce_next_fix_offsets_64 (outoffsets starts : list Z) (startslength outindexlength : Z) : res (list Z) :=
  let* outoffsets := for_ 0 startslength (fun i outoffsets => let* s := rd starts i in wr outoffsets i s) outoffsets in
  wr outoffsets startslength outindexlength.

(** awkward_ByteMaskedArray_reduce_next_nonlocal_nextshifts_64.cpp:7-26 and ..._fromshifts_64.cpp:7-27;
    awkward_IndexedArray_reduce_next_nonlocal_nextshifts_64.cpp:8-24 and ..._fromshifts_64.cpp:8-25.
    [valid i] says whether element i is there; [shift i] is 0 or shifts[i]. *)
Definition nextshifts_loop (valid : Z -> res bool) (shift : Z -> res Z) (nextshifts : list Z) (length : Z) : res (list Z) :=
  let* st := for_ 0 length (fun i st =>
    let '(nullsum, k, nextshifts) := st in
    let* v := valid i in
    if v then
      let* s := shift i in
      let* nextshifts := wr nextshifts k (s + nullsum) in
      Ok (nullsum, k + 1, nextshifts)
    else Ok (nullsum + 1, k, nextshifts)) (0, 0, nextshifts) in
  let '(_, _, nextshifts) := st in Ok nextshifts.

(** ** Lists *)
(** awkward_ListOffsetArray_reduce_local_nextparents_64.cpp:7-20 *)
Definition awkward_ListOffsetArray_reduce_local_nextparents_64 (nextparents offsets : list Z) (length : Z) : res (list Z) :=
  let* initialoffset := rd offsets 0 in
  for_ 0 length (fun i nextparents =>
    let* lo := rd offsets i in
    let* hi := rd offsets (i + 1) in
    for_ (lo - initialoffset) (hi - initialoffset) (fun j nextparents => wr nextparents j i) nextparents) nextparents.
(** awkward_ListOffsetArray_reduce_local_outoffsets_64.cpp:7-26; the two while loops count up by one, so they are written as for loops *)
Definition awkward_ListOffsetArray_reduce_local_outoffsets_64 (outoffsets parents : list Z) (lenparents outlength : Z) : res (list Z) :=
  let* st := for_ 0 lenparents (fun i st =>
    let '(k, last, outoffsets) := st in
    let* p := rd parents i in
    let* ko := for_ last p (fun _ ko =>
      let '(k, outoffsets) := ko in
      let* outoffsets := wr outoffsets k i in
      Ok (k + 1, outoffsets)) (k, outoffsets) in
    let '(k, outoffsets) := ko in
    Ok (k, if last <? p then p else last, outoffsets)) (0, -1, outoffsets) in
  let '(k, _, outoffsets) := st in
  for_ k (outlength + 1) (fun k outoffsets => wr outoffsets k lenparents) outoffsets.

(** awkward_ListOffsetArray_reduce_nonlocal_maxcount_offsetscopy_64.cpp:7-22 *)
Definition awkward_ListOffsetArray_reduce_nonlocal_maxcount_offsetscopy_64 (offsetscopy offsets : list Z) (length : Z) : res (Z * list Z) :=
  let* o := rd offsets 0 in
  let* offsetscopy := wr offsetscopy 0 o in
  for_ 0 length (fun i st =>
    let '(maxcount, offsetscopy) := st in
    let* b := rd offsets (i + 1) in
    let* a := rd offsets i in
    let count := b - a in
    let* offsetscopy := wr offsetscopy (i + 1) b in
    Ok (if maxcount <? count then count else maxcount, offsetscopy)) (0, offsetscopy).
(** awkward_ListOffsetArray_reduce_nonlocal_preparenext_64.cpp:7-50; one round of the outer loop takes one element of every
    list that has one left, so maxcount rounds are enough; needing more would be a loop without end and is UB here *)
Definition awkward_ListOffsetArray_reduce_nonlocal_preparenext_64 (nextcarry nextparents : list Z) (nextlen : Z) (distincts : list Z) (distinctslen : Z)
  (offsetscopy offsets : list Z) (length : Z) (parents : list Z) (maxcount : Z) : res (list Z * list Z * Z * list Z) :=
  let* distincts := for_ 0 distinctslen (fun i distincts => wr distincts i (-1)) distincts in
  let* st := while_ (S (Z.to_nat maxcount)) (fun st => let '(k, _, _, _, _, _) := st in Ok (k <? nextlen))
    (fun st =>
      let '(k, nextcarry, nextparents, maxnextparents, distincts, offsetscopy) := st in
      let* st := for_ 0 length (fun i st =>
        let '(j, k, nextcarry, nextparents, maxnextparents, distincts, offsetscopy) := st in
        let* oc := rd offsetscopy i in
        let* o1 := rd offsets (i + 1) in
        if oc <? o1 then
          let* o0 := rd offsets i in
          let* parent := rd parents i in
          let diff := oc - o0 in
          let np := parent * maxcount + diff in
          let* nextcarry := wr nextcarry k oc in
          let* nextparents := wr nextparents k np in
          let maxnextparents := if maxnextparents <? np then np else maxnextparents in
          let* d := rd distincts np in
          let* jd := if d =? -1 then let* distincts := wr distincts np j in Ok (j + 1, distincts) else Ok (j, distincts) in
          let '(j, distincts) := jd in
          let* offsetscopy := wr offsetscopy i (oc + 1) in
          Ok (j, k + 1, nextcarry, nextparents, maxnextparents, distincts, offsetscopy)
        else Ok (j, k, nextcarry, nextparents, maxnextparents, distincts, offsetscopy))
        (0, k, nextcarry, nextparents, maxnextparents, distincts, offsetscopy) in
      let '(_, k, nextcarry, nextparents, maxnextparents, distincts, offsetscopy) := st in
      Ok (k, nextcarry, nextparents, maxnextparents, distincts, offsetscopy))
    (0, nextcarry, nextparents, 0, distincts, offsetscopy) in
  let '(_, nextcarry, nextparents, maxnextparents, distincts, _) := st in
  Ok (nextcarry, nextparents, maxnextparents, distincts).
(** awkward_ListOffsetArray_reduce_nonlocal_nextstarts_64.cpp:7-19 *)
Definition awkward_ListOffsetArray_reduce_nonlocal_nextstarts_64 (nextstarts nextparents : list Z) (nextlen : Z) : res (list Z) :=
  let* st := for_ 0 nextlen (fun i st =>
    let '(lastnextparent, nextstarts) := st in
    let* p := rd nextparents i in
    let* nextstarts := if negb (p =? lastnextparent) then wr nextstarts p i else Ok nextstarts in
    Ok (p, nextstarts)) (-1, nextstarts) in
  let '(_, nextstarts) := st in Ok nextstarts.
(** awkward_ListOffsetArray_reduce_nonlocal_findgaps_64.cpp:7-22 *)
Definition awkward_ListOffsetArray_reduce_nonlocal_findgaps_64 (gaps parents : list Z) (lenparents : Z) : res (list Z) :=
  let* st := for_ 0 lenparents (fun i st =>
    let '(k, last, gaps) := st in
    let* parent := rd parents i in
    if last <? parent then
      let* gaps := wr gaps k (parent - last) in
      Ok (k + 1, parent, gaps)
    else Ok (k, last, gaps)) (0, -1, gaps) in
  let '(_, _, gaps) := st in Ok gaps.
(** awkward_ListOffsetArray_reduce_nonlocal_outstartsstops_64.cpp:7-36 *)
Definition awkward_ListOffsetArray_reduce_nonlocal_outstartsstops_64 (outstarts outstops distincts : list Z) (lendistincts : Z) (gaps : list Z) (outlength : Z)
  : res (list Z * list Z) :=
  let* st := for_ 0 lendistincts (fun i st =>
    let '(j, k, maxdistinct, outstarts, outstops) := st in
    let* d := rd distincts i in
    let* st :=
      if maxdistinct <? d then
        let* g := rd gaps j in
        let* st := for_ 0 g (fun _ st =>
          let '(k, outstarts, outstops) := st in
          let* outstarts := wr outstarts k i in
          let* outstops := wr outstops k i in
          Ok (k + 1, outstarts, outstops)) (k, outstarts, outstops) in
        let '(k, outstarts, outstops) := st in
        Ok (j + 1, k, d, outstarts, outstops)
      else Ok (j, k, maxdistinct, outstarts, outstops) in
    let '(j, k, maxdistinct, outstarts, outstops) := st in
    if negb (d =? -1) then
      let* outstops := wr outstops (k - 1) (i + 1) in
      Ok (j, k, maxdistinct, outstarts, outstops)
    else Ok (j, k, maxdistinct, outstarts, outstops)) (0, 0, -1, outstarts, outstops) in
  let '(_, k, _, outstarts, outstops) := st in
  for_ k outlength (fun k st =>
    let '(outstarts, outstops) := st in
    let* outstarts := wr outstarts k (lendistincts + 1) in
    let* outstops := wr outstops k (lendistincts + 1) in
    Ok (outstarts, outstops)) (outstarts, outstops).
(** awkward_ListOffsetArray_reduce_nonlocal_nextshifts_64.cpp:7-42 *)
Definition awkward_ListOffsetArray_reduce_nonlocal_nextshifts_64 (nummissing missing nextshifts offsets : list Z) (length : Z) (starts parents : list Z)
  (maxcount nextlen : Z) (nextcarry : list Z) : res (list Z) :=
  let* st := for_ 0 length (fun i st =>
    let '(nummissing, missing) := st in
    let* start := rd offsets i in
    let* stop := rd offsets (i + 1) in
    let count := stop - start in
    let* p := rd parents i in
    let* s := rd starts p in
    let* nummissing := if s =? i then for_ 0 maxcount (fun k nummissing => wr nummissing k 0) nummissing else Ok nummissing in
    let* nummissing := for_ count maxcount (fun k nummissing => let* x := rd nummissing k in wr nummissing k (x + 1)) nummissing in
    let* missing := for_ 0 count (fun j missing => let* x := rd nummissing j in wr missing (start + j) x) missing in
    Ok (nummissing, missing)) (nummissing, missing) in
  let '(_, missing) := st in
  for_ 0 nextlen (fun j nextshifts =>
    let* c := rd nextcarry j in
    let* m := rd missing c in
    wr nextshifts j m) nextshifts.
