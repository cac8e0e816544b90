(** Kernels behind concatenation (merge) and the simplification of unions. *)
From Verif Require Import Base.

(** awkward_ListArray_fill.cpp:8-22 *)
Definition awkward_ListArray_fill (tostarts : list Z) (tostartsoffset : Z) (tostops : list Z) (tostopsoffset : Z) (fromstarts fromstops : list Z) (length base : Z)
  : res (list Z * list Z) :=
  for_ 0 length (fun i st =>
    let '(tostarts, tostops) := st in
    let* start := rd fromstarts i in
    let* tostarts := wr tostarts (tostartsoffset + i) (start + base) in
    let* stop := rd fromstops i in
    let* tostops := wr tostops (tostopsoffset + i) (stop + base) in
    Ok (tostarts, tostops)) (tostarts, tostops).

(** awkward_IndexedArray_fill.cpp:8-19 *)
Definition awkward_IndexedArray_fill (toindex : list Z) (toindexoffset : Z) (fromindex : list Z) (length base : Z) : res (list Z) :=
  for_ 0 length (fun i toindex =>
    let* fromval := rd fromindex i in
    wr toindex (toindexoffset + i) (if fromval <? 0 then -1 else fromval + base)) toindex.

(** awkward_IndexedArray_fill_count.cpp:8-17 *)
Definition awkward_IndexedArray_fill_count (toindex : list Z) (toindexoffset length base : Z) : res (list Z) :=
  for_ 0 length (fun i toindex => wr toindex (toindexoffset + i) (i + base)) toindex.

(** awkward_UnionArray_filltags_const.cpp:8-17 *)
Definition awkward_UnionArray_filltags_const (totags : list Z) (totagsoffset length base : Z) : res (list Z) :=
  for_ 0 length (fun i totags => wr totags (totagsoffset + i) base) totags.

(** awkward_UnionArray_filltags.cpp:8-18; the int8 result is an integer here *)
Definition awkward_UnionArray_filltags (totags : list Z) (totagsoffset : Z) (fromtags : list Z) (length base : Z) : res (list Z) :=
  for_ 0 length (fun i totags =>
    let* t := rd fromtags i in
    wr totags (totagsoffset + i) (t + base)) totags.

(** awkward_UnionArray_fillindex.cpp:8-17 *)
Definition awkward_UnionArray_fillindex (toindex : list Z) (toindexoffset : Z) (fromindex : list Z) (length : Z) : res (list Z) :=
  for_ 0 length (fun i toindex =>
    let* x := rd fromindex i in
    wr toindex (toindexoffset + i) x) toindex.

(** awkward_UnionArray_fillindex_count.cpp:8-16 *)
Definition awkward_UnionArray_fillindex_count (toindex : list Z) (toindexoffset length : Z) : res (list Z) :=
  for_ 0 length (fun i toindex => wr toindex (toindexoffset + i) i) toindex.

(** awkward_UnionArray_simplify.cpp:13-35 *)
Definition awkward_UnionArray_simplify (totags toindex outertags outerindex innertags innerindex : list Z) (towhich innerwhich outerwhich length base : Z)
  : res (list Z * list Z) :=
  for_ 0 length (fun i st =>
    let '(totags, toindex) := st in
    let* t := rd outertags i in
    if t =? outerwhich then
      let* j := rd outerindex i in
      let* t' := rd innertags j in
      if t' =? innerwhich then
        let* totags := wr totags i towhich in
        let* x := rd innerindex j in
        let* toindex := wr toindex i (x + base) in
        Ok (totags, toindex)
      else Ok st
    else Ok st) (totags, toindex).

(** awkward_UnionArray_simplify_one.cpp:11-27 *)
Definition awkward_UnionArray_simplify_one (totags toindex fromtags fromindex : list Z) (towhich fromwhich length base : Z) : res (list Z * list Z) :=
  for_ 0 length (fun i st =>
    let '(totags, toindex) := st in
    let* t := rd fromtags i in
    if t =? fromwhich then
      let* totags := wr totags i towhich in
      let* x := rd fromindex i in
      let* toindex := wr toindex i (x + base) in
      Ok (totags, toindex)
    else Ok st) (totags, toindex).

(** awkward_NumpyArray_fill.cpp:9-17 and awkward_NumpyArray_fill_frombool.cpp:9-17, [cast] being the conversion between the C types *)
Definition awkward_NumpyArray_fill (toptr : list Z) (tooffset : Z) (fromptr : list Z) (length : Z) (cast : Z -> Z) : res (list Z) :=
  for_ 0 length (fun i toptr =>
    let* x := rd fromptr i in
    wr toptr (tooffset + i) (cast x)) toptr.
