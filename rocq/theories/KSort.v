(** Kernels behind ak.sort and ak.argsort. *)
From Verif Require Import Base KCombinations.

(** The comparisons of the element type: <=, < and ==.  They are a parameter because floating point numbers are only codes here. *)
Record order : Type := { ole : Z -> Z -> bool; olt : Z -> Z -> bool; oeq : Z -> Z -> bool }.

(** order_ascending and order_descending: awkward_quick_sort.cpp:7-17, awkward_quick_argsort.cpp:11-21 *)
Definition predicate_of (o : order) (ascending : bool) : Z -> Z -> bool :=
  if ascending then ole o else fun left right => ole o right left.
(** the lambdas of awkward_sort.cpp:29-31, 38-40 and awkward_argsort.cpp:28-30, 40-42 *)
Definition before_of (o : order) (ascending : bool) : Z -> Z -> bool :=
  if ascending then olt o else fun left right => olt o right left.

(** ** Ranges *)
(** awkward_sorting_ranges_length.cpp:7-19 *)
Definition awkward_sorting_ranges_length (parents : list Z) (parentslength : Z) : res Z :=
  for_ 1 parentslength (fun i length =>
    let* a := rd parents (i - 1) in
    let* b := rd parents i in
    Ok (if negb (a =? b) then length + 1 else length)) 2.
(** awkward_sorting_ranges.cpp:7-26 *)
Definition awkward_sorting_ranges (toindex : list Z) (tolength : Z) (parents : list Z) (parentslength : Z) : res (list Z) :=
  let* toindex := wr toindex 0 0 in
  let* st := for_ 1 parentslength (fun i st =>
    let '(j, k, toindex) := st in
    let* a := rd parents (i - 1) in
    let* b := rd parents i in
    if negb (a =? b) then
      let* toindex := wr toindex j k in
      Ok (j + 1, k + 1, toindex)
    else Ok (j, k + 1, toindex)) (1, 1, toindex) in
  let '(_, _, toindex) := st in
  wr toindex (tolength - 1) parentslength.

(** ** The quicksort of the library
    One definition for quick_sort (awkward_quick_sort.cpp:24-86) and quick_argsort (awkward_quick_argsort.cpp:28-92), which are the same
    text up to what is compared.  [a] is the array that is rearranged; arr[k] in the code, a pointer into the middle of a buffer, is
    a[base + k] here.  [key x] is the value an element stands for: the element itself in quick_sort, fromptr[start + x] in quick_argsort.
    [pred] is the predicate and [same] the == of the two loops that skip elements equal to the pivot; quick_argsort compares
    positions there.  beg and end are buffers of maxlevels elements. *)
Section Quick.
Variable key : Z -> res Z.
Variable pred : Z -> Z -> bool.
Variable same : Z -> Z -> bool.
Variable base : Z.

(** while (pred(pivot, arr[high]) && low < high) high--; *)
Definition scan_down (fuel : nat) (a : list Z) (pivot low high : Z) : res Z :=
  while_ fuel (fun high => let* x := rd a (base + high) in let* x := key x in Ok (pred pivot x && (low <? high)))
              (fun high => Ok (high - 1)) high.
(** while (pred(arr[low], pivot) && low < high) low++; *)
Definition scan_up (fuel : nat) (a : list Z) (pivot low high : Z) : res Z :=
  while_ fuel (fun low => let* x := rd a (base + low) in let* x := key x in Ok (pred x pivot && (low <? high)))
              (fun low => Ok (low + 1)) low.
(** while (low < high) { ... }: awkward_quick_sort.cpp:50-63 *)
Definition partition (fuel : nat) (pivot : Z) (a : list Z) (low high : Z) : res (list Z * Z * Z) :=
  while_ fuel (fun st => let '(_, low, high) := st in Ok (low <? high))
    (fun st =>
      let '(a, low, high) := st in
      let* high := scan_down fuel a pivot low high in
      let* al := if low <? high then
                   let* x := rd a (base + high) in
                   let* a := wr a (base + low) x in Ok (a, low + 1)
                 else Ok (a, low) in
      let '(a, low) := al in
      let* low := scan_up fuel a pivot low high in
      if low <? high then
        let* x := rd a (base + low) in
        let* a := wr a (base + high) x in Ok (a, low, high - 1)
      else Ok (a, low, high)) (a, low, high).
(** while (low > beg[i] && arr[low - 1] == pivot) low--; *)
Definition skip_down (fuel : nat) (a : list Z) (p b low : Z) : res Z :=
  while_ fuel (fun low => if b <? low then let* x := rd a (base + (low - 1)) in Ok (same x p) else Ok false) (fun low => Ok (low - 1)) low.
(** while (mid < end[i] && arr[mid] == pivot) mid++; *)
Definition skip_up (fuel : nat) (a : list Z) (p e mid : Z) : res Z :=
  while_ fuel (fun mid => if mid <? e then let* x := rd a (base + mid) in Ok (same x p) else Ok false) (fun mid => Ok (mid + 1)) mid.

(** one round of while (i >= 0) { ... } *)
Definition quick_round (fuel : nat) (maxlevels : Z) (st : Z * list Z * list Z * list Z) : res (Z * list Z * list Z * list Z) :=
  let '(i, a, beg, end_) := st in
  let* low := rd beg i in
  let* high := rd end_ i in
  if 1 <? high - low then
    let mid := low + Z.shiftr (high - low) 1 in
    let* p := rd a (base + mid) in
    let* pivot := key p in
    let* x := rd a (base + low) in
    let* a := wr a (base + mid) x in
    if i =? maxlevels - 1 then Err "failed to sort an array" else
    let* st := partition fuel pivot a low (high - 1) in
    let '(a, low, _) := st in
    let* a := wr a (base + low) p in
    let mid := low + 1 in
    let* b := rd beg i in
    let* e := rd end_ i in
    let* low := skip_down fuel a p b low in
    let* mid := skip_up fuel a p e mid in
    if e - mid <? low - b then
      let* beg := wr beg (i + 1) mid in
      let* end_ := wr end_ (i + 1) e in
      let* end_ := wr end_ i low in
      Ok (i + 1, a, beg, end_)
    else
      let* beg := wr beg (i + 1) b in
      let* end_ := wr end_ (i + 1) low in
      let* beg := wr beg i mid in
      Ok (i + 1, a, beg, end_)
  else Ok (i - 1, a, beg, end_).

(** The loops end by themselves; the fuel only has to be large enough. *)
Definition quick (a : list Z) (elements : Z) (beg end_ : list Z) (maxlevels : Z) : res (list Z * list Z * list Z) :=
  let* beg := wr beg 0 0 in
  let* end_ := wr end_ 0 elements in
  let fuel := Z.to_nat (2 * elements + 3) in
  let* st := while_ fuel (fun st => let '(i, _, _, _) := st in Ok (0 <=? i)) (quick_round fuel maxlevels) (0, a, beg, end_) in
  let '(_, a, beg, end_) := st in Ok (a, beg, end_).
End Quick.

(** awkward_quick_sort.cpp:89-130 *)
Definition awkward_quick_sort (o : order) (ascending : bool) (tmpptr beg end_ fromstarts fromstops : list Z) (length maxlevels : Z) : res (list Z) :=
  let* st := for_ 0 length (fun i st =>
    let '(tmpptr, beg, end_) := st in
    let* start := rd fromstarts i in
    let* stop := rd fromstops i in
    quick (fun x => Ok x) (predicate_of o ascending) (oeq o) start tmpptr (stop - start) beg end_ maxlevels) (tmpptr, beg, end_) in
  let '(tmpptr, _, _) := st in Ok tmpptr.
(** awkward_quick_argsort.cpp:95-141 *)
Definition awkward_quick_argsort (o : order) (ascending : bool) (toptr fromptr beg end_ offsets : list Z) (offsetslength maxlevels : Z) : res (list Z) :=
  let* toptr := for_ 0 (offsetslength - 1) (fun i toptr =>
    let* start := rd offsets i in
    let* stop := rd offsets (i + 1) in
    for_ 0 (stop - start) (fun j toptr => wr toptr (start + j) j) toptr) toptr in
  let* st := for_ 0 (offsetslength - 1) (fun i st =>
    let '(toptr, beg, end_) := st in
    let* start := rd offsets i in
    let* stop := rd offsets (i + 1) in
    quick (fun x => rd fromptr (start + x)) (predicate_of o ascending) Z.eqb start toptr (stop - start) beg end_ maxlevels) (toptr, beg, end_) in
  let '(toptr, _, _) := st in Ok toptr.

(** ** std::stable_sort
    Its contract determines the result for every strict weak order; insertion sort computes it. *)
Fixpoint insert (before : Z -> Z -> bool) (x : Z) (l : list Z) : list Z :=
  match l with [] => [x] | y :: t => if before y x then y :: insert before x t else x :: y :: t end.
Definition stable_sort (before : Z -> Z -> bool) (l : list Z) : list Z := fold_right (insert before) [] l.
(** std::stable_sort(next(begin, a), next(begin, b), ...) on a vector *)
Definition stable_sort_range (before : Z -> Z -> bool) (a b : Z) (l : list Z) : res (list Z) :=
  if (0 <=? a) && (a <=? b) && (b <=? zlen l) then Ok (slice 0 a l ++ stable_sort before (slice a b l) ++ slice b (zlen l) l) else UB.
Definition get (l : list Z) (i : Z) : Z := match nthZ l i with Some x => x | None => 0 end.

(** awkward_sort.cpp:12-66 with stable = true, the only way it is called (NumpyArray.cpp:5502-5514); the comparisons read fromptr[0..length) *)
Definition awkward_sort (o : order) (ascending : bool) (toptr fromptr : list Z) (length : Z) (offsets : list Z) (offsetslength parentslength : Z) : res (list Z) :=
  if zlen fromptr <? length then UB else
  let* index := for_ 0 (offsetslength - 1) (fun i index =>
    let* a := rd offsets i in
    let* b := rd offsets (i + 1) in
    stable_sort_range (fun i1 i2 => before_of o ascending (get fromptr i1) (get fromptr i2)) a b index) (zseq 0 length) in
  for_ 0 parentslength (fun i toptr =>
    let* j := rd index i in
    let* x := rd fromptr j in
    wr toptr i x) toptr.
(** awkward_argsort.cpp:12-79 with stable = true (NumpyArray.cpp:5426-5436) *)
Definition awkward_argsort (o : order) (ascending : bool) (toptr fromptr : list Z) (length : Z) (offsets : list Z) (offsetslength : Z) : res (list Z) :=
  if zlen fromptr <? length then UB else
  let* result := for_ 0 (offsetslength - 1) (fun i result =>
    let* a := rd offsets i in
    let* b := rd offsets (i + 1) in
    let* result := stable_sort_range (fun i1 i2 => before_of o ascending (get fromptr i1) (get fromptr i2)) a b result in
    for_ a b (fun j result => let* x := rd result j in wr result j (x - a)) result) (zseq 0 length) in
  for_ 0 length (fun i toptr =>
    let* x := rd result i in
    wr toptr i x) toptr.

(** ** Putting the result back *)
(** awkward_IndexedArray_local_preparenext_64.cpp:7-27 *)
Definition awkward_IndexedArray_local_preparenext_64 (tocarry starts parents : list Z) (parentslength : Z) (nextparents : list Z) (nextlen : Z) : res (list Z) :=
  let* st := for_ 0 parentslength (fun i st =>
    let '(j, tocarry) := st in
    let* parent := rd parents i in
    let* _ := rd starts parent in
    let* hit := if j <? nextlen then let* p := rd nextparents j in Ok (parent =? p) else Ok false in
    if hit then
      let* tocarry := wr tocarry i j in Ok (j + 1, tocarry)
    else
      let* tocarry := wr tocarry i (-1) in Ok (j, tocarry)) (0, tocarry) in
  let '(_, tocarry) := st in Ok tocarry.
(** awkward_ListOffsetArray_local_preparenext_64.cpp:11-27; std::sort is written as a stable sort, which is the same because
    the elements of fromindex are distinct *)
Definition awkward_ListOffsetArray_local_preparenext_64 (tocarry fromindex : list Z) (length : Z) : res (list Z) :=
  if zlen fromindex <? length then UB else
  let result := stable_sort (fun i1 i2 => get fromindex i1 <? get fromindex i2) (zseq 0 length) in
  for_ 0 length (fun i tocarry => let* x := rd result i in wr tocarry i x) tocarry.
