(** GrowableBuffer: the buffers array builders append to (src/libawkward/builder/GrowableBuffer.cpp).

    Memory is a list of blocks, a pointer is the number of a block.  A cell of a block is [None] until it is
    written; reading such a cell, or touching a cell outside the block, is [UB].  A block is never freed: it is
    held by shared_ptr for as long as a buffer or an array made from it points to it.
    Simplifications: sizes are counted in items, not bytes; allocation of a size that is not negative succeeds;
    64-bit overflow of sizes is not modelled. *)
From Verif Require Import Base.
Local Open Scope list_scope.
Local Open Scope Z_scope.

(** a block of memory and the whole memory *)
Notation block T := (list (option T)).
Notation heap T := (list (list (option T))).

Section Growable.
Context {T : Type}.
(** (T)i, the conversion GrowableBuffer.cpp:54 uses *)
Variable of_int : Z -> T.


(** include/awkward/builder/ArrayBuilderOptions.h; [o_grow r] is (int64_t)ceil(r * resize),
    GrowableBuffer.cpp:126 *)
Record options := mkOptions { o_initial : Z; o_grow : Z -> Z }.

(** include/awkward/builder/GrowableBuffer.h:184-190: ptr_, length_, reserved_ *)
Record gbuf := mkGbuf { g_ptr : Z; g_length : Z; g_reserved : Z }.

(** kernel::malloc, include/awkward/kernel-dispatch.h *)
Definition malloc (n : Z) (h : heap T) : res (heap T * Z) :=
  if n <? 0 then UB else Ok (h ++ [repeat None (Z.to_nat n)], zlen h).

(** ptr[i] = x *)
Definition store (h : heap T) (p i : Z) (x : option T) : res (heap T) :=
  let* b := rd h p in
  let* b' := wr b i x in
  wr h p b'.

(** ptr[i], possibly not yet written *)
Definition peek (h : heap T) (p i : Z) : res (option T) :=
  let* b := rd h p in rd b i.

(** memcpy of n items *)
Definition memcpy (dst src n : Z) (h : heap T) : res (heap T) :=
  for_ 0 n (fun i h => let* x := peek h src i in store h dst i x) h.

(** GrowableBuffer::empty, GrowableBuffer.cpp:20-29 (the comparison is between size_t: a negative minreserve
    asks for a huge block, which [malloc] answers with [UB]) *)
Definition empty_ (o : options) (minreserve : Z) (h : heap T) : res (heap T * gbuf) :=
  let actual := if minreserve <? 0 then minreserve else Z.max (o_initial o) minreserve in
  let* (h, p) := malloc actual h in
  Ok (h, mkGbuf p 0 actual).

(** GrowableBuffer::full, GrowableBuffer.cpp:31-42 *)
Definition full_ (o : options) (value : T) (length : Z) (h : heap T) : res (heap T * gbuf) :=
  let* (h, out) := empty_ o length h in
  let* h := for_ 0 length (fun i h => store h (g_ptr out) i (Some value)) h in
  Ok (h, mkGbuf (g_ptr out) length (g_reserved out)).

(** GrowableBuffer::arange, GrowableBuffer.cpp:44-58 *)
Definition arange_ (o : options) (length : Z) (h : heap T) : res (heap T * gbuf) :=
  let* (h, out) := empty_ o length h in
  let* h := for_ 0 length (fun i h => store h (g_ptr out) i (Some (of_int i))) h in
  Ok (h, mkGbuf (g_ptr out) length (g_reserved out)).

(** GrowableBuffer::GrowableBuffer(options), GrowableBuffer.cpp:70-75 *)
Definition new_ (o : options) (h : heap T) : res (heap T * gbuf) :=
  let* (h, p) := malloc (o_initial o) h in
  Ok (h, mkGbuf p 0 (o_initial o)).

(** GrowableBuffer::set_reserved, GrowableBuffer.cpp:103-112 *)
Definition set_reserved (minreserved : Z) (b : gbuf) (h : heap T) : res (heap T * gbuf) :=
  if g_reserved b <? minreserved then
    let* (h, p) := malloc minreserved h in
    let* h := memcpy p (g_ptr b) (g_length b) h in
    Ok (h, mkGbuf p (g_length b) minreserved)
  else Ok (h, b).

(** GrowableBuffer::set_length, GrowableBuffer.cpp:88-95 *)
Definition set_length (newlength : Z) (b : gbuf) (h : heap T) : res (heap T * gbuf) :=
  let* (h, b) := (if g_reserved b <? newlength then set_reserved newlength b h else Ok (h, b)) in
  Ok (h, mkGbuf (g_ptr b) newlength (g_reserved b)).

(** GrowableBuffer::clear, GrowableBuffer.cpp:114-120 *)
Definition clear_ (o : options) (b : gbuf) (h : heap T) : res (heap T * gbuf) :=
  let* (h, p) := malloc (o_initial o) h in
  Ok (h, mkGbuf p 0 (o_initial o)).

(** GrowableBuffer::append, GrowableBuffer.cpp:122-130 *)
Definition append_ (o : options) (datum : T) (b : gbuf) (h : heap T) : res (heap T * gbuf) :=
  let* (h, b) := (if g_length b =? g_reserved b then set_reserved (o_grow o (g_reserved b)) b h else Ok (h, b)) in
  let* h := store h (g_ptr b) (g_length b) (Some datum) in
  Ok (h, mkGbuf (g_ptr b) (g_length b + 1) (g_reserved b)).

(** GrowableBuffer::getitem_at_nowrap, GrowableBuffer.cpp:132-136; also how an array made from the buffer's
    pointer reads its item [i] *)
Definition getitem (h : heap T) (p i : Z) : res T :=
  let* x := peek h p i in
  match x with Some v => Ok v | None => UB end.

(** Float64Builder::fromint64 and its copies, Float64Builder.cpp:20-35, Complex128Builder.cpp:18-48: a new buffer
    with the converted items of another one *)
Definition convert_ (o : options) (f : T -> T) (b : gbuf) (h : heap T) : res (heap T * gbuf) :=
  let* (h, out) := empty_ o (g_reserved b) h in
  let* h := for_ 0 (g_length b) (fun i h => let* x := getitem h (g_ptr b) i in
                                            store h (g_ptr out) i (Some (f x))) h in
  set_length (g_length b) out h.

(** A snapshot is an array on the buffer's own memory, with the length of that moment
    (e.g. Int64Builder::snapshot, Int64Builder.cpp:30-41: NumpyArray(buffer_.ptr(), buffer_.length())) *)
Record view := mkView { v_ptr : Z; v_length : Z }.
Definition snapshot_ (b : gbuf) : view := mkView (g_ptr b) (g_length b).

(** ** Programs that use any number of buffers *)
Inductive op :=
| ONew                       (** a new buffer *)
| OEmpty (minreserve : Z)
| OFull (value : T) (length : Z)
| OArange (length : Z)
| OConvert (f : T -> T) (i : Z)   (** a new buffer from the items of buffer number i *)
| OAppend (i : Z) (datum : T)
| OReserve (i : Z) (minreserved : Z)
| OClear (i : Z)
| OSnapshot (i : Z).

Record state := mkState { st_heap : heap T; st_bufs : list gbuf; st_views : list view }.

Definition add_buf (st : state) (r : res (heap T * gbuf)) : res state :=
  let* (h, b) := r in Ok (mkState h (st_bufs st ++ [b]) (st_views st)).
Definition put_buf (st : state) (i : Z) (r : res (heap T * gbuf)) : res state :=
  let* (h, b) := r in
  let* bs := wr (st_bufs st) i b in
  Ok (mkState h bs (st_views st)).

Definition perform (o : options) (st : state) (x : op) : res state :=
  let h := st_heap st in
  match x with
  | ONew => add_buf st (new_ o h)
  | OEmpty n => add_buf st (empty_ o n h)
  | OFull v n => add_buf st (full_ o v n h)
  | OArange n => add_buf st (arange_ o n h)
  | OConvert f i => let* b := rd (st_bufs st) i in add_buf st (convert_ o f b h)
  | OAppend i d => let* b := rd (st_bufs st) i in put_buf st i (append_ o d b h)
  | OReserve i n => let* b := rd (st_bufs st) i in put_buf st i (set_reserved n b h)
  | OClear i => let* b := rd (st_bufs st) i in put_buf st i (clear_ o b h)
  | OSnapshot i => let* b := rd (st_bufs st) i in Ok (mkState h (st_bufs st) (st_views st ++ [snapshot_ b]))
  end.

Fixpoint performs (o : options) (st : state) (xs : list op) : res state :=
  match xs with
  | [] => Ok st
  | x :: xs => let* st := perform o st x in performs o st xs
  end.

Definition nothing : state := mkState [] [] [].

End Growable.
Arguments op T : clear implicits.
Arguments state T : clear implicits.
