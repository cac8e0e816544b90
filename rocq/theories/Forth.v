(** The AwkwardForth virtual machine: src/libawkward/forth/ForthMachine.cpp, include/awkward/forth/ForthMachine.h,
    ForthInputBuffer.cpp, ForthOutputBuffer.cpp.

    Simplifications, all of them here:
    - the stack, call stack and loop stack are lists (top first) with the array sizes checked at every access:
      touching an element outside the allocated array is [XBad Memory]; the dead elements above the depth are not kept;
    - signed overflow, division of the least integer by -1 and shifts by an amount outside [0, width) are
      undefined in C++: [XBad Arith].  A left shift of a negative number wraps, as the compilers do;
    - a loop of the C++ which never ends without touching anything is [XBad Hang];
    - floating-point conversions are parameters of the machine (m_f2i, m_f2o, m_i2f, m_fadd); a float in an output
      is an opaque cell;
    - printing goes to standard output, which is not modelled; sizeof(ssize_t) = 8 and the host is little-endian;
    - count_nanoseconds_ is not modelled. *)
From Verif Require Import Base.

(** util::ForthError, include/awkward/util.h:47-61 *)
Inductive ferror :=
| e_none | e_not_ready | e_is_done | e_user_halt | e_recursion_depth_exceeded | e_stack_underflow
| e_stack_overflow | e_read_beyond | e_seek_beyond | e_skip_beyond | e_rewind_beyond | e_division_by_zero
| e_varint_too_big.

Definition is_none (e : ferror) : bool := match e with e_none => true | _ => false end.

Inductive bad := Memory | Arith | Hang.

(** Output types: ForthMachine.cpp:152-164 *)
Inductive odtype := OBool | OInt (signed : bool) (bits : Z) | OFloat (bits : Z).

(** ForthInputBuffer.cpp:8-14: bytes and a position *)
Record inbuf := mkIn { idata : list Z; ipos : Z }.

(** ForthOutputBuffer: the cells of the allocation (reserved_ of them, None = never written) and length_ *)
Record outbuf := mkOut { otype : odtype; cells : list (option Z); olen : Z }.

(** one entry of the three do_ arrays, ForthMachine.h:452-466 (the sign of do_recursion_depth_ is [d_step]) *)
Record doent := mkDo { d_depth : Z; d_step : bool; d_stop : Z; d_i : Z }.

(** What construction fixes: ForthMachine.cpp:217-255 *)
Record machine := mkMachine {
  m_width : Z;                       (* bits of T: 32 or 64 *)
  m_code : list Z;                   (* bytecodes_ *)
  m_offs : list Z;                   (* bytecodes_offsets_ *)
  m_words : list Z;                  (* dictionary_bytecodes_ *)
  m_nvars : Z;                       (* variable_names_.size() *)
  m_outs : list odtype;              (* output_dtypes_ *)
  m_nstrings : Z;                    (* strings_.size() *)
  m_stackmax : Z;                    (* stack_max_depth_ *)
  m_recmax : Z;                      (* recursion_max_depth_ *)
  m_outinit : Z;                     (* output_initial_size_ *)
  m_grow : Z -> Z;                   (* r |-> ceil(r * output_resize_factor_) *)
  m_f2i : list Z -> option Z;        (* float of these bytes to int32 *)
  m_f2o : odtype -> list Z -> option Z;
  m_i2f : Z -> Z -> Z;
  m_fadd : Z -> Z -> Z -> Z
}.

(** What execution changes: ForthMachine.h:560-603 *)
Record state := mkState {
  stk : list Z;                      (* data stack, top first *)
  vars : list Z;
  ins : list inbuf;
  outs : list outbuf;
  ready : bool;
  frames : list (Z * Z);             (* (which, where), innermost first; recursion_current_depth_ is its length *)
  targets : list Z;                  (* recursion_target_depth_, top first *)
  dos : list doent;                  (* loop stack, innermost first *)
  err : ferror;
  n_instr : Z; n_reads : Z; n_writes : Z
}.

Definition set_stk v s := mkState v (vars s) (ins s) (outs s) (ready s) (frames s) (targets s) (dos s) (err s) (n_instr s) (n_reads s) (n_writes s).
Definition set_vars v s := mkState (stk s) v (ins s) (outs s) (ready s) (frames s) (targets s) (dos s) (err s) (n_instr s) (n_reads s) (n_writes s).
Definition set_ins v s := mkState (stk s) (vars s) v (outs s) (ready s) (frames s) (targets s) (dos s) (err s) (n_instr s) (n_reads s) (n_writes s).
Definition set_outs v s := mkState (stk s) (vars s) (ins s) v (ready s) (frames s) (targets s) (dos s) (err s) (n_instr s) (n_reads s) (n_writes s).
Definition set_frames v s := mkState (stk s) (vars s) (ins s) (outs s) (ready s) v (targets s) (dos s) (err s) (n_instr s) (n_reads s) (n_writes s).
Definition set_targets v s := mkState (stk s) (vars s) (ins s) (outs s) (ready s) (frames s) v (dos s) (err s) (n_instr s) (n_reads s) (n_writes s).
Definition set_dos v s := mkState (stk s) (vars s) (ins s) (outs s) (ready s) (frames s) (targets s) v (err s) (n_instr s) (n_reads s) (n_writes s).
Definition set_err v s := mkState (stk s) (vars s) (ins s) (outs s) (ready s) (frames s) (targets s) (dos s) v (n_instr s) (n_reads s) (n_writes s).
Definition count_instr s := mkState (stk s) (vars s) (ins s) (outs s) (ready s) (frames s) (targets s) (dos s) (err s) (n_instr s + 1) (n_reads s) (n_writes s).
Definition count_read s := mkState (stk s) (vars s) (ins s) (outs s) (ready s) (frames s) (targets s) (dos s) (err s) (n_instr s) (n_reads s + 1) (n_writes s).
Definition count_write s := mkState (stk s) (vars s) (ins s) (outs s) (ready s) (frames s) (targets s) (dos s) (err s) (n_instr s) (n_reads s) (n_writes s + 1).

Definition depth (s : state) : Z := zlen (frames s).

(** Outcome of one instruction of internal_run *)
Inductive xres :=
| XNext (s : state)      (* falls out of the switch *)
| XRet (s : state)       (* return *)
| XExit (s : state)      (* goto after_end_of_segment *)
| XBad (b : bad).

Notation "'need' x <- o ; k" := (match o with Some x => k | None => XBad Memory end)
  (at level 200, x name, o at level 100, k at level 200, right associativity).

Definition fail (e : ferror) (s : state) : xres := XRet (set_err e s).

(** ** Integers *)
Definition wrapS (b v : Z) : Z := (v + 2^(b-1)) mod 2^b - 2^(b-1).
Definition wrapU (b v : Z) : Z := v mod 2^b.
Definition fits (b v : Z) : bool := (- 2^(b-1) <=? v) && (v <? 2^(b-1)).

(** a C++ signed computation of type T *)
Definition arith (m : machine) (v : Z) (k : Z -> xres) : xres :=
  if fits (m_width m) v then k v else XBad Arith.

(** (OUT)value for an integer value *)
Definition cast_out (m : machine) (t : odtype) (v : Z) : Z :=
  match t with
  | OBool => if v =? 0 then 0 else 1
  | OInt true b => wrapS b v
  | OInt false b => wrapU b v
  | OFloat b => m_i2f m b v
  end.

(** ** The stack: ForthMachine.h:103-114, 386-428 *)
Definition stack_cannot_push (m : machine) (s : state) : bool := zlen (stk s) =? m_stackmax m.
Definition stack_cannot_pop (s : state) : bool := zlen (stk s) =? 0.
Definition stack_cannot_pop2 (s : state) : bool := zlen (stk s) <? 2.
Definition stack_cannot_pop3 (s : state) : bool := zlen (stk s) <? 3.

Definition stack_push (m : machine) (v : Z) (s : state) (k : state -> xres) : xres :=
  if zlen (stk s) <? m_stackmax m then k (set_stk (v :: stk s) s) else XBad Memory.

Definition stack_pop (s : state) (k : Z -> state -> xres) : xres :=
  match stk s with x :: r => k x (set_stk r s) | [] => XBad Memory end.

Definition stack_pop2 (s : state) (k : Z -> Z -> state -> xres) : xres :=   (* pair[0], pair[1] *)
  match stk s with y :: x :: r => k x y (set_stk r s) | _ => XBad Memory end.

(** "if (stack_cannot_push()) { error; return; } stack_push(v)" *)
Definition push_or_fail (m : machine) (v : Z) (s : state) (k : state -> xres) : xres :=
  if stack_cannot_push m s then fail e_stack_overflow s else stack_push m v s k.
(** "if (stack_cannot_pop()) { error; return; } ... stack_pop()" *)
Definition pop_or_fail (s : state) (k : Z -> state -> xres) : xres :=
  if stack_cannot_pop s then fail e_stack_underflow s else stack_pop s k.
Definition pop2_or_fail (s : state) (k : Z -> Z -> state -> xres) : xres :=
  if stack_cannot_pop2 s then fail e_stack_underflow s else stack_pop2 s k.

(** ** Instruction pointers: ForthMachine.h:430-450 *)
Definition which_where (s : state) : option (Z * Z) :=
  match frames s with f :: _ => Some f | [] => None end.

Definition bytecode_get (m : machine) (s : state) : option Z :=
  match which_where s with
  | Some (w, p) => match nthZ (m_offs m) w with
                   | Some start => nthZ (m_code m) (start + p)
                   | None => None
                   end
  | None => None
  end.

(** length of the current segment *)
Definition seg_len (m : machine) (s : state) : option Z :=
  match which_where s with
  | Some (w, _) => match nthZ (m_offs m) w, nthZ (m_offs m) (w + 1) with
                   | Some a, Some b => Some (b - a)
                   | _, _ => None
                   end
  | None => None
  end.

(** is_segment_done, ForthMachine.h:334-340 *)
Definition is_segment_done (m : machine) (s : state) : option bool :=
  match which_where s, seg_len m s with
  | Some (_, p), Some n => Some (negb (p <? n))
  | _, _ => None
  end.

(** bytecodes_pointer_where() += d *)
Definition where_add (d : Z) (s : state) : state :=
  match frames s with
  | (w, p) :: r => set_frames ((w, p + d) :: r) s
  | [] => s
  end.

Definition bytecodes_pointer_push (m : machine) (w : Z) (s : state) (k : state -> xres) : xres :=
  if depth s <? m_recmax m then k (set_frames ((w, 0) :: frames s) s) else XBad Memory.
(** "if (recursion_current_depth_ == recursion_max_depth_) { error; return; } bytecodes_pointer_push(which)" *)
Definition push_segment_or_fail (m : machine) (w : Z) (s : state) (k : state -> xres) : xres :=
  if depth s =? m_recmax m then fail e_recursion_depth_exceeded s else bytecodes_pointer_push m w s k.

Definition bytecodes_pointer_pop (s : state) (k : state -> xres) : xres :=
  match frames s with _ :: r => k (set_frames r s) | [] => XBad Memory end.

(** an operand: bytecode_get(); bytecodes_pointer_where()++ *)
Definition operand (m : machine) (s : state) (k : Z -> state -> xres) : xres :=
  need v <- bytecode_get m s; k v (where_add 1 s).

(** do_loop_push / do_steploop_push, ForthMachine.h:452-466 *)
Definition do_push (m : machine) (step : bool) (start stop : Z) (s : state) (k : state -> xres) : xres :=
  if zlen (dos s) <? m_recmax m
  then k (set_dos (mkDo (depth s) step stop start :: dos s) s) else XBad Memory.

(** ** Input buffers: ForthInputBuffer.cpp *)
Definition set_in (i : Z) (b : inbuf) (s : state) : state := set_ins (upd (ins s) (Z.to_nat i) b) s.

(** read, :16-28; the continuation receives the position the pointer designates *)
Definition read_ (i n : Z) (s : state) (k : Z -> state -> xres) : xres :=
  need b <- nthZ (ins s) i;
  let next := ipos b + n in
  if negb (fits 64 next) then XBad Arith else
  if zlen (idata b) <? next then fail e_read_beyond s
  else k (ipos b) (set_in i (mkIn (idata b) next) s).

(** dereferencing the pointer *)
Definition byte_at (i p : Z) (s : state) : option Z :=
  match nthZ (ins s) i with Some b => nthZ (idata b) p | None => None end.

(** bytes p .. p+n-1 *)
Definition bytes_at (i p n : Z) (s : state) : option (list Z) :=
  match nthZ (ins s) i with
  | Some b => if (0 <=? p) && (p + n <=? zlen (idata b)) then Some (slice p (p + n) (idata b)) else None
  | None => None
  end.

(** seek, :30-38 *)
Definition seek_ (i to : Z) (s : state) (k : state -> xres) : xres :=
  need b <- nthZ (ins s) i;
  if (to <? 0) || (zlen (idata b) <? to) then fail e_seek_beyond s
  else k (set_in i (mkIn (idata b) to) s).

(** skip, :40-49 *)
Definition skip_ (i n : Z) (s : state) (k : state -> xres) : xres :=
  need b <- nthZ (ins s) i;
  let next := ipos b + n in
  if negb (fits 64 next) then XBad Arith else
  if (next <? 0) || (zlen (idata b) <? next) then fail e_skip_beyond s
  else k (set_in i (mkIn (idata b) next) s).

(** ** Output buffers: ForthOutputBuffer.cpp *)
Definition reserved (b : outbuf) : Z := zlen (cells b).

Inductive ores := OOk (b : outbuf) | OBeyond | OBad (x : bad).

(** maybe_resize, ForthOutputBuffer.cpp:709-723.  The loop raises the reservation while it is too small; when the
    growth factor does not raise it the loop never ends. *)
Fixpoint grow_loop (fuel : nat) (grow : Z -> Z) (next r : Z) : option Z :=
  if next <=? r then Some r
  else match fuel with O => None | S f => grow_loop f grow next (grow r) end.

Definition maybe_resize (m : machine) (next : Z) (b : outbuf) (k : outbuf -> ores) : ores :=
  if reserved b <? next then
    match grow_loop (Z.to_nat (next - reserved b)) (m_grow m) next (reserved b) with
    | Some r => k (mkOut (otype b) (cells b ++ repeat None (Z.to_nat (r - reserved b))) (olen b))
    | None => OBad Hang
    end
  else k b.

Definition store (i v : Z) (b : outbuf) (k : outbuf -> ores) : ores :=
  if (0 <=? i) && (i <? reserved b)
  then k (mkOut (otype b) (upd (cells b) (Z.to_nat i) (Some v)) (olen b)) else OBad Memory.

Definition set_olen (n : Z) (b : outbuf) : outbuf := mkOut (otype b) (cells b) n.

(** write_one, ForthOutputBuffer.h:316-321: [v] is already of type OUT *)
Definition write_one (m : machine) (v : Z) (b : outbuf) : ores :=
  let b := set_olen (olen b + 1) b in
  maybe_resize m (olen b) b (fun b => store (olen b - 1) v b OOk).

Fixpoint store_all (i : Z) (vs : list Z) (b : outbuf) (k : outbuf -> ores) : ores :=
  match vs with
  | [] => k b
  | v :: t => store i v b (fun b => store_all (i + 1) t b k)
  end.

(** write_copy, ForthOutputBuffer.h:325-332, for n >= 0 values *)
Definition write_copy (m : machine) (vs : list Z) (b : outbuf) : ores :=
  let next := olen b + zlen vs in
  maybe_resize m next b (fun b => store_all (olen b) vs b (fun b => OOk (set_olen next b))).

(** write_copy for n < 0: nothing is copied and the length shrinks.  The versions for equal types
    (:540-683) call memcpy with a huge size instead. *)
Definition write_negative (same_type : bool) (n : Z) (b : outbuf) : ores :=
  if same_type then OBad Memory else OOk (set_olen (olen b + n) b).

Definition load (i : Z) (b : outbuf) (k : Z -> ores) : ores :=
  match nthZ (cells b) i with Some (Some v) => k v | _ => OBad Memory end.

(** dup, :90-106 *)
Definition odup (m : machine) (n : Z) (b : outbuf) : ores :=
  if olen b =? 0 then OBeyond
  else if 0 <? n then
    let next := olen b + n in
    maybe_resize m next b (fun b =>
      load (olen b - 1) b (fun v =>
        store_all (olen b) (repeat v (Z.to_nat n)) b (fun b => OOk (set_olen next b))))
  else OOk b.

(** rewind, :68-77 *)
Definition orewind (n : Z) (b : outbuf) : ores :=
  let next := olen b - n in
  if next <? 0 then OBeyond else OOk (set_olen next b).

(** previous + (OUT)value, stored into an OUT: for 32- and 64-bit signed OUT an overflow is undefined *)
Definition oadd (m : machine) (t : odtype) (p v : Z) : option Z :=
  match t with
  | OBool => Some (if p + v =? 0 then 0 else 1)
  | OInt true b => if (32 <=? b) && negb (fits b (p + v)) then None else Some (wrapS b (p + v))
  | OInt false b => Some (wrapU b (p + v))
  | OFloat b => Some (m_fadd m b p v)
  end.

(** write_add_int32 / write_add_int64, :685-707 *)
Definition owrite_add (m : machine) (value : Z) (b : outbuf) : ores :=
  let fin (previous : Z) :=
    let b := set_olen (olen b + 1) b in
    maybe_resize m (olen b) b (fun b =>
      match oadd m (otype b) previous (cast_out m (otype b) value) with
      | Some v => store (olen b - 1) v b OOk
      | None => OBad Arith
      end) in
  if olen b =? 0 then fin 0 else load (olen b - 1) b fin.

Definition set_out (i : Z) (b : outbuf) (s : state) : state := set_outs (upd (outs s) (Z.to_nat i) b) s.

(** run an operation of an output buffer; OBeyond is the error rewind_beyond *)
Definition with_out (i : Z) (f : outbuf -> ores) (s : state) (k : state -> xres) : xres :=
  need b <- nthZ (outs s) i;
  match f b with
  | OOk b' => k (set_out i b' s)
  | OBeyond => fail e_rewind_beyond s
  | OBad x => XBad x
  end.

(** ** Reading: ForthMachine.cpp:2672-2978 *)
Definition READ_VARINT := 112.
Definition READ_ZIGZAG := 120.
Definition READ_NBIT := 128.

(** Where a decoded value goes: the stack, or an output *)
Definition emit (m : machine) (dst : option Z) (vstack vout : Z) (s : state) (k : state -> xres) : xres :=
  match dst with
  | None => push_or_fail m (wrapS (m_width m) vstack) s k
  | Some o => with_out o (fun b => write_one m (cast_out m (otype b) vout) b) s k
  end.

(** the do-while of :2709-2720 *)
Fixpoint varint_bytes (fuel : nat) (i shift result : Z) (s : state) (k : Z -> state -> xres) : xres :=
  match fuel with
  | O => XBad Hang
  | S f =>
      read_ i 1 s (fun p s =>
        if shift =? 7 * 9 then fail e_varint_too_big s
        else
          need byte <- byte_at i p s;
          let result := Z.lor result (Z.shiftl (Z.land byte 127) shift) in
          if Z.testbit byte 7 then varint_bytes f i (shift + 7) result s k
          else k result s)
  end.

(** the for loop over items, :2706-2732 and :2747-2775 *)
Fixpoint varint_items (m : machine) (n : nat) (zigzag : bool) (i : Z) (dst : option Z) (s : state)
    (k : state -> xres) : xres :=
  match n with
  | O => k s
  | S n' =>
      varint_bytes 10 i 0 0 s (fun result s =>
        if zigzag then
          let value := Z.lxor (Z.shiftr result 1) (- Z.land result 1) in
          emit m dst value (wrapS (m_width m) value) s (fun s => varint_items m n' zigzag i dst s k)
        else
          emit m dst result result s (fun s => varint_items m n' zigzag i dst s k))
  end.

(** bitswap_lookup, :2646-2647, and its use :2809 *)
Definition bitswap_lookup : list Z := [0; 8; 4; 12; 2; 10; 6; 14; 1; 9; 5; 13; 3; 11; 7; 15].
Definition bitswap (tmp : Z) : option Z :=
  match nthZ bitswap_lookup (Z.land tmp 15), nthZ bitswap_lookup (Z.shiftr tmp 4) with
  | Some a, Some b => Some (Z.lor (Z.shiftl a 4) b)
  | _, _ => None
  end.

(** one byte, flipped or not *)
Definition nbit_byte (flip : bool) (i : Z) (s : state) (k : Z -> state -> xres) : xres :=
  read_ i 1 s (fun p s =>
    need byte <- byte_at i p s;
    if flip then need t <- bitswap byte; k t s else k byte s).

(** the while loop, :2813-2847 *)
Fixpoint nbit_loop (fuel : nat) (m : machine) (flip : bool) (w : Z) (i : Z) (dst : option Z)
    (l r items data : Z) (s : state) (k : state -> xres) : xres :=
  if items =? 0 then k s else
  match fuel with
  | O => XBad Hang
  | S f =>
      if 8 <=? r then nbit_loop f m flip w i dst (l - 8) (r - 8) items (Z.shiftr data 8) s k
      else if w <=? l - r then
        let tmp := Z.land (Z.shiftr data r) (Z.ones w) in
        emit m dst tmp (wrapS (m_width m) tmp) s (fun s =>
          nbit_loop f m flip w i dst l (r + w) (items - 1) data s k)
      else
        nbit_byte flip i s (fun tmp s =>
          if 64 <=? l then XBad Arith
          else nbit_loop f m flip w i dst (l + 8) r items (Z.lor data (wrapU 64 (Z.shiftl tmp l))) s k)
  end.

(** a bound on the iterations: every byte read brings 8 bits, every item takes at least one, every shift follows 8 *)
Definition nbit_fuel (i : Z) (s : state) : nat :=
  match nthZ (ins s) i with
  | Some b => Z.to_nat (20 * (zlen (idata b) - ipos b) + 40)
  | None => O
  end.

(** :2778-2848.  mask = (1 << bit_width) - 1 is computed in int: undefined for bit_width >= 31. *)
Definition read_nbit (m : machine) (flip : bool) (w i : Z) (dst : option Z) (items : Z) (s : state)
    (k : state -> xres) : xres :=
  if (w <? 0) || (31 <=? w) then XBad Arith else
  if items =? 0 then k s else
  nbit_byte flip i s (fun tmp s' =>
    nbit_loop (nbit_fuel i s) m flip w i dst 8 0 items tmp s' k).

(** byteswap16/32/64, ForthOutputBuffer.cpp:14-52, on the unsigned value *)
Definition byteswap16 (v : Z) : Z :=
  Z.lor (Z.land (Z.shiftr v 8) 0xff) (Z.land (Z.shiftl v 8) 0xff00).
Definition byteswap32 (v : Z) : Z :=
  Z.lor (Z.lor (Z.lor (Z.land (Z.shiftr v 24) 0xff) (Z.land (Z.shiftr v 8) 0xff00))
               (Z.land (Z.shiftl v 8) 0xff0000)) (Z.land (Z.shiftl v 24) 0xff000000).
Definition byteswap64 (v : Z) : Z :=
  Z.lor (Z.lor (Z.lor (Z.lor (Z.lor (Z.lor (Z.lor
    (Z.land (Z.shiftr v 56) 0xff) (Z.land (Z.shiftr v 40) 0xff00))
    (Z.land (Z.shiftr v 24) 0xff0000)) (Z.land (Z.shiftr v 8) 0xff000000))
    (Z.land (Z.shiftl v 8) 0xff00000000)) (Z.land (Z.shiftl v 24) 0xff0000000000))
    (Z.land (Z.shiftl v 40) 0xff000000000000)) (Z.land (Z.shiftl v 56) 0xff00000000000000).

(** little-endian bytes as an unsigned number *)
Fixpoint le_unsigned (bs : list Z) : Z :=
  match bs with [] => 0 | b :: t => b + 256 * le_unsigned t end.

Definition swap_value (size v : Z) : Z :=
  if size =? 2 then byteswap16 v else if size =? 4 then byteswap32 v else if size =? 8 then byteswap64 v else v.

(** Formats of fixed size: ForthMachine.cpp:21-33.  (signed, bytes) *)
Inductive fmt := FBool | FInt (signed : bool) (size : Z) | FFloat (size : Z).
Definition fmt_of (format : Z) : option fmt :=
  if format =? 8 then Some FBool
  else if format =? 16 then Some (FInt true 1) else if format =? 24 then Some (FInt true 2)
  else if format =? 32 then Some (FInt true 4) else if format =? 40 then Some (FInt true 8)
  else if format =? 48 then Some (FInt true 8) else if format =? 56 then Some (FInt false 1)
  else if format =? 64 then Some (FInt false 2) else if format =? 72 then Some (FInt false 4)
  else if format =? 80 then Some (FInt false 8) else if format =? 88 then Some (FInt false 8)
  else if format =? 96 then Some (FFloat 4) else if format =? 104 then Some (FFloat 8)
  else None.

Definition fmt_size (f : fmt) : Z := match f with FBool => 1 | FInt _ n => n | FFloat n => n end.

(** the integer an item of the input stands for *)
Definition item_int (f : fmt) (byteswap : bool) (bs : list Z) : Z :=
  match f with
  | FBool => if le_unsigned bs =? 0 then 0 else 1
  | FInt signed n =>
      let u := le_unsigned bs in
      let u := if byteswap then swap_value n u else u in
      if signed then wrapS (8 * n) u else u
  | FFloat _ => 0
  end.

(** the value pushed on the stack: :2893-2972.  Items of more than one byte are cast to I (32 bits). *)
Definition item_to_stack (m : machine) (f : fmt) (byteswap : bool) (bs : list Z) : option Z :=
  match f with
  | FFloat _ => m_f2i m (if byteswap then rev bs else bs)
  | FInt _ n => Some (if n =? 1 then item_int f byteswap bs else wrapS 32 (item_int f byteswap bs))
  | FBool => Some (item_int f byteswap bs)
  end.

Definition item_to_out (m : machine) (t : odtype) (f : fmt) (byteswap : bool) (bs : list Z) : option Z :=
  match f with
  | FFloat _ => m_f2o m t (if byteswap then rev bs else bs)
  | _ => Some (cast_out m t (item_int f byteswap bs))
  end.

(** the n items of [size] bytes starting at p *)
Fixpoint items_at (n : nat) (i p size : Z) (s : state) : option (list (list Z)) :=
  match n with
  | O => Some []
  | S n' => match bytes_at i p size s, items_at n' i (p + size) size s with
            | Some b, Some t => Some (b :: t)
            | _, _ => None
            end
  end.

Fixpoint push_items (m : machine) (f : fmt) (byteswap : bool) (items : list (list Z)) (s : state)
    (k : state -> xres) : xres :=
  match items with
  | [] => k s
  | bs :: t =>
      match item_to_stack m f byteswap bs with
      | None => XBad Arith
      | Some v => push_or_fail m v s (fun s => push_items m f byteswap t s k)
      end
  end.

Fixpoint optmap {A B} (f : A -> option B) (l : list A) : option (list B) :=
  match l with
  | [] => Some []
  | x :: t => match f x, optmap f t with Some y, Some ys => Some (y :: ys) | _, _ => None end
  end.

Definition same_type (t : odtype) (f : fmt) : bool :=
  match t, f with
  | OBool, FBool => true
  | OInt a b, FInt c n => Bool.eqb a c && (b =? 8 * n)
  | OFloat b, FFloat n => b =? 8 * n
  | _, _ => false
  end.

(** WRITE_DIRECTLY, :2854-2870 *)
Definition read_direct (m : machine) (f : fmt) (byteswap : bool) (i o n : Z) (s : state)
    (k : state -> xres) : xres :=
  if negb (fits 64 (n * fmt_size f)) then XBad Arith else
  read_ i (n * fmt_size f) s (fun p s =>
    if n <? 0 then
      (* byteswapN(num_items, ...) walks the whole memory *)
      if byteswap && (1 <? fmt_size f) then XBad Memory
      else with_out o (fun b => write_negative (same_type (otype b) f) n b) s k
    else
      need items <- items_at (Z.to_nat n) i p (fmt_size f) s;
      with_out o (fun b =>
        match optmap (item_to_out m (otype b) f byteswap) items with
        | None => OBad Arith
        | Some vs => if n =? 1 then match vs with [v] => write_one m v b | _ => OBad Memory end
                     else write_copy m vs b
        end) s k).

(** WRITE_TO_STACK*, :2893-2956 *)
Definition read_to_stack (m : machine) (f : fmt) (byteswap : bool) (i n : Z) (s : state)
    (k : state -> xres) : xres :=
  if negb (fits 64 (n * fmt_size f)) then XBad Arith else
  read_ i (n * fmt_size f) s (fun p s =>
    need items <- items_at (Z.to_nat n) i p (fmt_size f) s;
    push_items m f byteswap items s k).

(** The negative bytecodes, :2672-2978 *)
Definition exec_read (m : machine) (bytecode : Z) (s : state) : xres :=
  let flags := Z.lnot bytecode in
  let direct := Z.testbit flags 0 in
  let repeated := Z.testbit flags 1 in
  let bigendian := Z.testbit flags 2 in
  let format := Z.land flags 248 in
  let done s := XNext (count_read s) in
  operand m s (fun in_num s =>
  (if repeated then pop_or_fail s else fun k => k 1 s) (fun num_items s =>
  if (format =? READ_VARINT) || (format =? READ_ZIGZAG) then
    if direct
    then operand m s (fun out_num s =>
           varint_items m (Z.to_nat num_items) (format =? READ_ZIGZAG) in_num (Some out_num) s done)
    else varint_items m (Z.to_nat num_items) (format =? READ_ZIGZAG) in_num None s done
  else if format =? READ_NBIT then
    operand m s (fun bit_width s =>
    if direct
    then operand m s (fun out_num s => read_nbit m bigendian bit_width in_num (Some out_num) num_items s done)
    else read_nbit m bigendian bit_width in_num None num_items s done)
  else if direct then
    operand m s (fun out_num s =>
    match fmt_of format with
    | Some f => read_direct m f bigendian in_num out_num num_items s (fun s => done (count_write s))
    | None => done (count_write s)
    end)
  else
    match fmt_of format with
    | Some f => read_to_stack m f bigendian in_num num_items s done
    | None => done s
    end)).

(** ** Bytecodes: ForthMachine.cpp:39-107 *)
Definition CODE_LITERAL := 0. Definition CODE_HALT := 1. Definition CODE_PAUSE := 2. Definition CODE_IF := 3.
Definition CODE_IF_ELSE := 4. Definition CODE_DO := 5. Definition CODE_DO_STEP := 6. Definition CODE_AGAIN := 7.
Definition CODE_UNTIL := 8. Definition CODE_WHILE := 9. Definition CODE_EXIT := 10. Definition CODE_PUT := 11.
Definition CODE_INC := 12. Definition CODE_GET := 13. Definition CODE_LEN_INPUT := 14. Definition CODE_POS := 15.
Definition CODE_END := 16. Definition CODE_SEEK := 17. Definition CODE_SKIP := 18. Definition CODE_WRITE := 19.
Definition CODE_WRITE_ADD := 20. Definition CODE_WRITE_DUP := 21. Definition CODE_LEN_OUTPUT := 22.
Definition CODE_REWIND := 23. Definition CODE_STRING := 24. Definition CODE_PRINT_STRING := 25.
Definition BOUND_DICTIONARY := 66.

Definition bool_of (b : bool) : Z := if b then -1 else 0.

(** One stack operand replaced by one result *)
Definition unary (m : machine) (f : Z -> (Z -> xres) -> xres) (s : state) : xres :=
  if stack_cannot_pop s then fail e_stack_underflow s
  else match stk s with
       | x :: r => f x (fun v => XNext (set_stk (v :: r) s))
       | [] => XBad Memory
       end.
(** pair[0] = f(pair[0], pair[1]) after stack_pop2_before_pushing1 *)
Definition binary (m : machine) (f : Z -> Z -> (Z -> xres) -> xres) (s : state) : xres :=
  if stack_cannot_pop2 s then fail e_stack_underflow s
  else match stk s with
       | y :: x :: r => f x y (fun v => XNext (set_stk (v :: r) s))
       | _ => XBad Memory
       end.

(** :3538-3541; the quotient tmp and the product tmp * pair[1] are of type T *)
Definition div_ (m : machine) (a b : Z) (k : Z -> xres) : xres :=
  arith m (Z.quot a b) (fun tmp =>
  arith m (tmp * b) (fun back =>
    k (if back =? a then tmp else tmp - Z.b2z (xorb (a <? 0) (b <? 0))))).
(** :3555-3557 *)
Definition mod_ (m : machine) (a b : Z) (k : Z -> xres) : xres :=
  arith m (Z.quot a b) (fun _ =>       (* the least integer % -1 is undefined *)
  arith m (b + Z.rem a b) (fun t => k (Z.rem t b))).

(** CODE_DIV and CODE_MOD, :3528-3559: the pop happens before the check for zero, and leaves pair[0] *)
Definition divide (m : machine) (f : Z -> Z -> (Z -> xres) -> xres) (s : state) : xres :=
  if stack_cannot_pop2 s then fail e_stack_underflow s
  else match stk s with
       | y :: x :: r =>
           if y =? 0 then fail e_division_by_zero (set_stk (x :: r) s)
           else f x y (fun v => XNext (set_stk (v :: r) s))
       | _ => XBad Memory
       end.

(** shifts, :3751-3769 *)
Definition lshift_ (m : machine) (a b : Z) (k : Z -> xres) : xres :=
  if (0 <=? b) && (b <? m_width m) then k (wrapS (m_width m) (Z.shiftl a b)) else XBad Arith.
Definition rshift_ (m : machine) (a b : Z) (k : Z -> xres) : xres :=
  if (0 <=? b) && (b <? m_width m) then k (Z.shiftr a b) else XBad Arith.

(** do_i(), do_j(), do_k(): ForthMachine.h:497-513 *)
Definition do_at (n : Z) (s : state) : option Z :=
  match nthZ (dos s) n with Some d => Some (d_i d) | None => None end.

(** The top of the loop stack belongs to the current segment: :2659-2660, :3804-3805 *)
Definition in_do (s : state) : option doent :=
  match dos s with
  | d :: _ => if d_depth d =? depth s then Some d else None
  | [] => None
  end.

(** "End one step of a 'do ... loop' or a 'do ... +loop'", :3020-3033 and :3804-3817 *)
Definition do_advance (m : machine) (s : state) (k : state -> xres) : xres :=
  match dos s with
  | d :: r =>
      if d_depth d =? depth s then
        if d_step d then
          pop_or_fail s (fun n s =>
            if fits 64 (d_i d + n) then k (set_dos (mkDo (d_depth d) (d_step d) (d_stop d) (d_i d + n) :: r) s)
            else XBad Arith)
        else if fits 64 (d_i d + 1) then k (set_dos (mkDo (d_depth d) (d_step d) (d_stop d) (d_i d + 1) :: r) s)
        else XBad Arith
      else k s
  | [] => k s
  end.

(** while (do_current_depth_ != 0 && do_abs_recursion_depth() != recursion_current_depth_) do_current_depth_--; *)
Fixpoint drop_dos (d : Z) (l : list doent) : list doent :=
  match l with
  | e :: r => if d_depth e =? d then l else drop_dos d r
  | [] => []
  end.

(** The nonnegative bytecodes below BOUND_DICTIONARY, :2989-3788 *)
Definition exec_code (m : machine) (single : bool) (code : Z) (s : state) : xres :=
  match code with
  | 0 (* LITERAL *) => operand m s (fun n s => push_or_fail m n s XNext)
  | 1 (* HALT *) =>
      XRet (count_instr (set_err e_user_halt (set_dos [] (set_targets (skipn (Nat.pred (List.length (targets s))) (targets s))
              (set_frames [] (mkState (stk s) (vars s) (ins s) (outs s) false (frames s) (targets s) (dos s) (err s)
                                      (n_instr s) (n_reads s) (n_writes s)))))))
  | 2 (* PAUSE *) =>
      need d <- is_segment_done m s;
      if d then bytecodes_pointer_pop s (fun s => do_advance m s (fun s => XRet (count_instr s)))
      else XRet (count_instr s)
  | 3 (* IF *) => pop_or_fail s (fun x s => XNext (if x =? 0 then where_add 1 s else s))
  | 4 (* IF_ELSE *) =>
      pop_or_fail s (fun x s =>
        if x =? 0 then XNext (where_add 1 s)
        else need c <- bytecode_get m s;
             push_segment_or_fail m (c - BOUND_DICTIONARY) (where_add 2 s) (fun s => XNext (count_instr s)))
  | 5 (* DO *) =>
      pop2_or_fail s (fun x y s =>
        if zlen (dos s) =? m_recmax m then fail e_recursion_depth_exceeded s
        else do_push m false y x s XNext)
  | 6 (* DO_STEP *) =>
      pop2_or_fail s (fun x y s =>
        if zlen (dos s) =? m_recmax m then fail e_recursion_depth_exceeded s
        else do_push m true y x s XNext)
  | 7 (* AGAIN *) => XNext (where_add (-2) s)
  | 8 (* UNTIL *) => pop_or_fail s (fun x s => XNext (if x =? 0 then where_add (-2) s else s))
  | 9 (* WHILE *) =>
      pop_or_fail s (fun x s =>
        if x =? 0 then XNext (where_add 1 s)
        else need c <- bytecode_get m s;
             push_segment_or_fail m (c - BOUND_DICTIONARY) (where_add (-2) s) (fun s => XNext (count_instr s)))
  | 10 (* EXIT *) =>
      operand m s (fun n s =>
        if (0 <=? n) && (n <=? depth s) then
          let s := set_frames (skipn (Z.to_nat n) (frames s)) s in
          let s := count_instr (set_dos (drop_dos (depth s) (dos s)) s) in
          if single then
            need d <- is_segment_done m s;
            if d then bytecodes_pointer_pop s XRet else XRet s
          else XExit s
        else XBad Memory)
  | 11 (* PUT *) => operand m s (fun n s => pop_or_fail s (fun x s =>
      need _old <- nthZ (vars s) n; XNext (set_vars (upd (vars s) (Z.to_nat n) x) s)))
  | 12 (* INC *) => operand m s (fun n s => pop_or_fail s (fun x s =>
      need old <- nthZ (vars s) n; arith m (old + x) (fun v => XNext (set_vars (upd (vars s) (Z.to_nat n) v) s))))
  | 13 (* GET *) => operand m s (fun n s =>
      if stack_cannot_push m s then fail e_stack_overflow s
      else need v <- nthZ (vars s) n; stack_push m v s XNext)
  | 14 (* LEN_INPUT *) => operand m s (fun n s =>
      if stack_cannot_push m s then fail e_stack_overflow s
      else need b <- nthZ (ins s) n; stack_push m (wrapS 32 (zlen (idata b))) s XNext)
  | 15 (* POS *) => operand m s (fun n s =>
      if stack_cannot_push m s then fail e_stack_overflow s
      else need b <- nthZ (ins s) n; stack_push m (wrapS 32 (ipos b)) s XNext)
  | 16 (* END *) => operand m s (fun n s =>
      if stack_cannot_push m s then fail e_stack_overflow s
      else need b <- nthZ (ins s) n; stack_push m (bool_of (ipos b =? zlen (idata b))) s XNext)
  | 17 (* SEEK *) => operand m s (fun n s => pop_or_fail s (fun x s => seek_ n x s XNext))
  | 18 (* SKIP *) => operand m s (fun n s => pop_or_fail s (fun x s => skip_ n x s XNext))
  | 19 (* WRITE *) => operand m s (fun n s => pop_or_fail s (fun x s =>
      with_out n (fun b => write_one m (cast_out m (otype b) x) b) s (fun s => XNext (count_write s))))
  | 20 (* WRITE_ADD *) => operand m s (fun n s => pop_or_fail s (fun x s =>
      with_out n (owrite_add m x) s (fun s => XNext (count_write s))))
  | 21 (* WRITE_DUP *) => operand m s (fun n s => pop_or_fail s (fun x s =>
      with_out n (odup m x) s (fun s => XNext (count_write s))))
  | 22 (* LEN_OUTPUT *) => operand m s (fun n s =>
      if stack_cannot_push m s then fail e_stack_overflow s
      else need b <- nthZ (outs s) n; stack_push m (wrapS 32 (olen b)) s XNext)
  | 23 (* REWIND *) => operand m s (fun n s => pop_or_fail s (fun x s =>
      with_out n (orewind x) s XNext))
  | 24 (* STRING *) => operand m s (fun n s => push_or_fail m n s XNext)
  | 25 (* PRINT_STRING *) => operand m s (fun n s =>
      if (0 <=? n) && (n <? m_nstrings m) then XNext s else XBad Memory)
  | 26 (* PRINT *) => pop_or_fail s (fun _ s => XNext s)
  | 27 (* PRINT_CR *) => XNext s
  | 28 (* PRINT_STACK *) => XNext s
  | 29 (* I *) => if stack_cannot_push m s then fail e_stack_overflow s
                  else need v <- do_at 0 s; stack_push m (wrapS 32 v) s XNext
  | 30 (* J *) => if stack_cannot_push m s then fail e_stack_overflow s
                  else need v <- do_at 1 s; stack_push m (wrapS 32 v) s XNext
  | 31 (* K *) => if stack_cannot_push m s then fail e_stack_overflow s
                  else need v <- do_at 2 s; stack_push m (wrapS 32 v) s XNext
  | 32 (* DUP *) => if stack_cannot_pop s then fail e_stack_underflow s
                    else if stack_cannot_push m s then fail e_stack_overflow s
                    else match stk s with x :: _ => stack_push m x s XNext | _ => XBad Memory end
  | 33 (* DROP *) => pop_or_fail s (fun _ s => XNext s)
  | 34 (* SWAP *) => if stack_cannot_pop2 s then fail e_stack_underflow s
                     else match stk s with y :: x :: r => XNext (set_stk (x :: y :: r) s) | _ => XBad Memory end
  | 35 (* OVER *) => if stack_cannot_pop2 s then fail e_stack_underflow s
                     else if stack_cannot_push m s then fail e_stack_overflow s
                     else match stk s with y :: x :: r => stack_push m x s XNext | _ => XBad Memory end
  | 36 (* ROT *) => if stack_cannot_pop3 s then fail e_stack_underflow s
                    else match stk s with z :: y :: x :: r => XNext (set_stk (x :: z :: y :: r) s) | _ => XBad Memory end
  | 37 (* NIP *) => if stack_cannot_pop2 s then fail e_stack_underflow s
                    else match stk s with y :: x :: r => XNext (set_stk (y :: r) s) | _ => XBad Memory end
  | 38 (* TUCK *) => if stack_cannot_pop2 s then fail e_stack_underflow s
                     else if stack_cannot_push m s then fail e_stack_overflow s
                     else match stk s with
                          | y :: x :: r => stack_push m y (set_stk (x :: y :: r) s) XNext
                          | _ => XBad Memory end
  | 39 (* ADD *) => binary m (fun a b => arith m (a + b)) s
  | 40 (* SUB *) => binary m (fun a b => arith m (a - b)) s
  | 41 (* MUL *) => binary m (fun a b => arith m (a * b)) s
  | 42 (* DIV *) => divide m (div_ m) s
  | 43 (* MOD *) => divide m (mod_ m) s
  | 44 (* DIVMOD *) =>
      if stack_cannot_pop2 s then fail e_stack_underflow s
      else match stk s with
           | two :: one :: r =>
               if two =? 0 then fail e_division_by_zero s
               else div_ m one two (fun q => mod_ m one two (fun p => XNext (set_stk (q :: p :: r) s)))
           | _ => XBad Memory
           end
  | 45 (* NEGATE *) => unary m (fun a => arith m (- a)) s
  | 46 (* ADD1 *) => unary m (fun a => arith m (a + 1)) s
  | 47 (* SUB1 *) => unary m (fun a => arith m (a - 1)) s
  | 48 (* ABS *) => unary m (fun a => arith m (Z.abs a)) s
  | 49 (* MIN *) => binary m (fun a b k => k (Z.min a b)) s
  | 50 (* MAX *) => binary m (fun a b k => k (Z.max a b)) s
  | 51 (* EQ *) => binary m (fun a b k => k (bool_of (a =? b))) s
  | 52 (* NE *) => binary m (fun a b k => k (bool_of (negb (a =? b)))) s
  | 53 (* GT *) => binary m (fun a b k => k (bool_of (b <? a))) s
  | 54 (* GE *) => binary m (fun a b k => k (bool_of (b <=? a))) s
  | 55 (* LT *) => binary m (fun a b k => k (bool_of (a <? b))) s
  | 56 (* LE *) => binary m (fun a b k => k (bool_of (a <=? b))) s
  | 57 (* EQ0 *) => unary m (fun a k => k (bool_of (a =? 0))) s
  | 58 (* INVERT *) => unary m (fun a k => k (Z.lnot a)) s
  | 59 (* AND *) => binary m (fun a b k => k (Z.land a b)) s
  | 60 (* OR *) => binary m (fun a b k => k (Z.lor a b)) s
  | 61 (* XOR *) => binary m (fun a b k => k (Z.lxor a b)) s
  | 62 (* LSHIFT *) => binary m (lshift_ m) s
  | 63 (* RSHIFT *) => binary m (rshift_ m) s
  | 64 (* FALSE *) => push_or_fail m 0 s XNext
  | 65 (* TRUE *) => push_or_fail m (-1) s XNext
  | _ => XNext s
  end.

(** one bytecode: :2672-2789 *)
Definition exec (m : machine) (single : bool) (bytecode : Z) (s : state) : xres :=
  if bytecode <? 0 then exec_read m bytecode s
  else if BOUND_DICTIONARY <=? bytecode then push_segment_or_fail m (bytecode - BOUND_DICTIONARY) s XNext
  else exec_code m single bytecode s.

(** ** internal_run, ForthMachine.cpp:2649-3820, one trip at a time.
    [TGo inner s]: the next thing evaluated is the condition of the inner while ([inner]) or of the outer one. *)
Inductive tres := TGo (inner : bool) (s : state) | TRet (s : state) | TBad (b : bad).

(** :3801-3817 *)
Definition end_of_segment (m : machine) (s : state) : tres :=
  match bytecodes_pointer_pop s (fun s => do_advance m s XNext) with
  | XNext s => TGo false s
  | XRet s => TRet s
  | XExit s => TRet s
  | XBad b => TBad b
  end.

(** :3791-3797 *)
Definition after_instruction (m : machine) (single : bool) (s : state) : tres :=
  let s := count_instr s in
  if single then
    match is_segment_done m s with
    | Some true => match bytecodes_pointer_pop s XNext with XNext s => TRet s | XRet s => TRet s | XExit s => TRet s | XBad b => TBad b end
    | Some false => TRet s
    | None => TBad Memory
    end
  else TGo true s.

(** the body of the inner while, :2657-3797 *)
Definition one_instruction (m : machine) (single : bool) (s : state) : tres :=
  match bytecode_get m s with
  | None => TBad Memory
  | Some bytecode =>
      let go s :=
        match exec m single bytecode s with
        | XNext s => after_instruction m single s
        | XRet s => TRet s
        | XExit s => end_of_segment m s
        | XBad b => TBad b
        end in
      match in_do s with
      | None => go (where_add 1 s)
      | Some d => if d_stop d <=? d_i d then TGo true (where_add 1 (set_dos (tl (dos s)) s)) else go s
      end
  end.

Definition tick (m : machine) (single : bool) (target : Z) (inner : bool) (s : state) : tres :=
  if negb inner && (depth s =? target) then TRet s
  else match is_segment_done m s with
       | None => TBad Memory
       | Some true => end_of_segment m s
       | Some false => one_instruction m single s
       end.

(** [n] trips *)
Fixpoint trips (m : machine) (single : bool) (target : Z) (n : nat) (inner : bool) (s : state) : tres :=
  match n with
  | O => TGo inner s
  | S n' => match tick m single target inner s with
            | TGo inner s => trips m single target n' inner s
            | r => r
            end
  end.

(** ** The API.  Execution may not end: every function takes the number of trips it may make;
    [None] means that it has not returned yet. *)
Inductive ares := ARet (e : ferror) (s : state) | ABad (b : bad).

Definition internal_run (m : machine) (single : bool) (target : Z) (fuel : nat) (s : state) (k : state -> ares) : option ares :=
  match trips m single target fuel false s with
  | TGo _ _ => None
  | TRet s => Some (k s)
  | TBad b => Some (ABad b)
  end.

(** "if (recursion_current_depth_ == recursion_target_depth_.top()) recursion_target_depth_.pop(); return current_error_;" *)
Definition pop_target (s : state) : ares :=
  match targets s with
  | t :: r => let s := if depth s =? t then set_targets r s else s in ARet (err s) s
  | [] => ABad Memory
  end.

(** reset, :1006-1022 *)
Definition reset (s : state) : state :=
  mkState [] (map (fun _ => 0) (vars s)) [] [] false [] [] [] e_none (n_instr s) (n_reads s) (n_writes s).

(** begin, :1024-1110; [inputs] are the buffers already matched with input_names_ (a missing one throws) *)
Definition begin_ (m : machine) (inputs : list inbuf) (s : state) : state :=
  let s := reset s in
  mkState (stk s) (vars s) inputs
    (map (fun t => mkOut t (repeat None (Z.to_nat (m_outinit m))) 0) (m_outs m))
    true [(0, 0)] [0] (dos s) (err s) (n_instr s) (n_reads s) (n_writes s).

Definition is_done (s : state) : bool := match targets s with [] => true | _ => false end.

(** step (single = true), :1119-1149, and resume, :1181-1211 *)
Definition step_or_resume (m : machine) (single : bool) (fuel : nat) (s : state) : option ares :=
  if negb (ready s) then Some (ARet e_not_ready (set_err e_not_ready s)) else
  match targets s with
  | [] => Some (ARet e_is_done (set_err e_is_done s))
  | t :: _ =>
      if negb (is_none (err s)) then Some (ARet (err s) s)
      else internal_run m single t fuel s pop_target
  end.
Definition step_ (m : machine) := step_or_resume m true.
Definition resume_ (m : machine) := step_or_resume m false.

(** run, :1151-1172 *)
Definition run_ (m : machine) (inputs : list inbuf) (fuel : nat) (s : state) : option ares :=
  internal_run m false 0 fuel (begin_ m inputs s) pop_target.

(** call, :1226-1255: [index] is a position in dictionary_names_ *)
Definition call_ (m : machine) (index : Z) (fuel : nat) (s : state) : option ares :=
  if negb (ready s) then Some (ARet e_not_ready (set_err e_not_ready s)) else
  if negb (is_none (err s)) then Some (ARet (err s) s) else
  let t := depth s in
  let s := set_targets (t :: targets s) s in
  match nthZ (m_words m) index with
  | None => Some (ABad Memory)
  | Some w =>
      match bytecodes_pointer_push m (w - BOUND_DICTIONARY) s XNext with
      | XNext s => internal_run m false t fuel s pop_target
      | _ => Some (ABad Memory)
      end
  end.

(** a machine just constructed *)
Definition initial (m : machine) : state :=
  mkState [] (repeat 0 (Z.to_nat (m_nvars m))) [] [] false [] [] [] e_none 0 0 0.
