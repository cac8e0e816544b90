(** LayoutBuilder: src/libawkward/layoutbuilder/*.cpp.  A Form is turned into the source of a ForthMachine32 (Forth.v, ForthParse.v);
    the calls that append data are sent to the running machine, and a snapshot wraps its outputs into the array the Form describes.

    Not modelled: UnionArrayBuilder, categorical IndexedArrayBuilder, complex numbers, connect.  A floating-point number is the 64-bit
    number of its bytes. *)
From Coq Require Import String DecimalString.
From Verif Require Import Base Content Forth ForthParse Forms Combinations.
Local Open Scope string_scope.
Local Open Scope list_scope.
Local Open Scope Z_scope.

Notation "a +++ b" := (String.append a b) (at level 60, right associativity).
Definition nl : string := newline.
Definition qt : string := String quote "".

(** std::to_string of a nonnegative integer *)
Definition to_string (n : nat) : string := NilEmpty.string_of_uint (Nat.to_uint n).

(** LayoutBuilder.cpp:36-53 *)
Definition index_form_to_name (w : iform) : string :=
  match w with i8 => "int8" | u8 => "uint8" | i32 => "int32" | u32 => "uint32" | i64 => "int64" end.
(** LayoutBuilder.cpp:74-116; [None] is the exception *)
Definition dtype_to_state (dt : prim) : option nat :=
  match dt with
  | boolean => Some 4 | int8 => Some 5 | int16 => Some 6 | int32 => Some 7 | int64 => Some 0 | uint8 => Some 8 | uint16 => Some 9
  | uint32 => Some 10 | uint64 => Some 11 | float16 => Some 12 | float32 => Some 13 | float64 => Some 1 | float128 => Some 14
  | complex64 => Some 15 | complex128 => Some 16 | complex256 => Some 17
  | datetime64 | timedelta64 | NOT_PRIMITIVE => None
  end%nat.
(** LayoutBuilder.cpp:118-154 *)
Definition dtype_to_vm_format (dt : prim) : string :=
  match dt with
  | boolean => "?" | int8 => "b" | int16 => "h" | int32 => "i" | int64 => "q" | uint8 => "B" | uint16 => "H" | uint32 => "I"
  | uint64 => "Q" | float16 | float32 => "f" | _ => "d"
  end.

(** The builders (FormBuilder.h and its subclasses) with what the calls change: begun_, field_index_ and list_field_index_ (its last
    element first).  [out] is vm_output_data_. *)
Inductive node : Type :=
| NEmpty
| NNumpy (out : string) (dt : prim)
| NListOffset (out : string) (w : iform) (isstring begun : bool) (c : node)
| NList (out : string) (w : iform) (begun : bool) (c : node)
| NRecord (keys : option (list string)) (cs : list node) (field_index : Z) (list_field_index : list Z)
| NRegular (size : Z) (c : node)
| NOption (out : string) (w : iform) (c : node)
| NIndexed (out : string) (w : iform) (c : node)
| NMasked (c : node).                       (* ByteMaskedArrayBuilder, BitMaskedArrayBuilder, UnmaskedArrayBuilder *)

(** vm_error, vm_output, vm_func, vm_func_name, vm_from_stack *)
Record vmtext := mkText { v_error : string; v_output : string; v_func : string; v_name : string; v_from : string }.

(** LayoutBuilder::next_node_id and error_id *)
Record ids := mkIds { next_node : nat; next_error : nat }.

(** form_key_, the same in every builder, e.g. NumpyArrayBuilder.cpp:16-19 *)
Definition key_of (m : meta) (i : ids) : string * ids :=
  match form_key m with
  | Some k => (k, i)
  | None => ("node-id" +++ to_string (next_node i), mkIds (S (next_node i)) (next_error i))
  end.
(** vm_output_data_; the partition is "0" *)
Definition out_name (key attribute : string) : string := "part0-" +++ key +++ "-" +++ attribute.

Definition array_is (m : meta) (v : string) : bool :=
  existsb (fun kv => match kv with (k, JString s) => (k =? "__array__")%string && (s =? v)%string | _ => false end) (parameters m).

(** NumpyArrayBuilder.cpp:12-51 *)
Definition numpy_text (key : string) (dt : prim) (state errid : nat) : vmtext :=
  let out := out_name key "data" in
  let name := key +++ "-" +++ dtype_to_name dt in
  mkText ("s" +++ qt +++ " NumpyForm builder accepts only " +++ dtype_to_name dt +++ qt +++ nl)
    ("output " +++ out +++ " " +++ dtype_to_name dt +++ nl)
    (": " +++ name +++ nl +++ to_string state +++ " = if" +++ nl +++ "0 data seek" +++ nl
     +++ "data " +++ dtype_to_vm_format dt +++ "-> " +++ out +++ nl +++ "else" +++ nl
     +++ to_string errid +++ " err ! err @ halt" +++ nl +++ "then" +++ nl +++ ";" +++ nl)
    name "".
(** ListOffsetArrayBuilder.cpp:27-70 and ListArrayBuilder.cpp:23-66 *)
Definition list_word (c : vmtext) (name out : string) (errid : nat) : string :=
  v_func c +++ ": " +++ name +++ nl +++ "2 <> if" +++ nl +++ to_string errid +++ " err ! err @ halt" +++ nl +++ "then" +++ nl +++ nl
  +++ "0" +++ nl +++ "begin" +++ nl +++ "pause" +++ nl +++ "dup 3 = if" +++ nl +++ "drop" +++ nl +++ out +++ " +<- stack" +++ nl
  +++ "exit" +++ nl +++ "else" +++ nl +++ v_name c +++ nl +++ "1+" +++ nl +++ "then" +++ nl +++ "again" +++ nl +++ ";" +++ nl.
Definition listoffset_text (key : string) (w : iform) (errid : nat) (c : vmtext) : vmtext :=
  let out := out_name key "offsets" in
  let name := key +++ "-offsets" in
  mkText (v_error c +++ "s" +++ qt +++ " ListOffsetArray Builder " +++ name +++ " needs begin_list" +++ qt +++ nl)
    ("output " +++ out +++ " " +++ index_form_to_name w +++ nl +++ v_output c)
    (list_word c name out errid) name (v_from c +++ "0 " +++ out +++ " <- stack" +++ nl).
Definition list_text (key : string) (w : iform) (errid : nat) (c : vmtext) : vmtext :=
  let out := out_name key "offsets" in
  let name := key +++ "-offsets" in
  mkText (v_error c +++ "s" +++ qt +++ "ListArray Builder needs begin_list" +++ qt +++ nl)
    ("output " +++ out +++ " " +++ index_form_to_name w +++ nl +++ v_output c)
    (list_word c name out errid) name (v_from c +++ "0 " +++ out +++ " <- stack" +++ nl).
(** RecordArrayBuilder.cpp:25-43: each content, then the word; the last " pause" is erased *)
Definition erase_last (n : nat) (s : string) : string := String.substring 0 (String.length s - n) s.
Definition concat_s (l : list string) : string := fold_right String.append "" l.
Definition record_text (key : string) (cs : list vmtext) : vmtext :=
  let name := key +++ "record" in
  mkText (concat_s (map v_error cs)) (concat_s (map v_output cs))
    (erase_last 6 (concat_s (map v_func cs) +++ ": " +++ name +++ concat_s (map (fun c => nl +++ "    " +++ v_name c +++ " pause") cs))
     +++ nl +++ ";" +++ nl +++ nl)
    name (concat_s (map v_from cs)).
(** RegularArrayBuilder.cpp:23-38, ByteMaskedArrayBuilder.cpp:23-35, BitMaskedArrayBuilder.cpp:23-35, UnmaskedArrayBuilder.cpp:23-35:
    vm_data_from_stack_ is not assigned *)
Definition pass_text (key attribute : string) (c : vmtext) : vmtext :=
  let name := key +++ "-" +++ attribute in
  mkText (v_error c) (v_output c) (v_func c +++ ": " +++ name +++ nl +++ v_name c +++ nl +++ ";" +++ nl) name "".
(** IndexedOptionArrayBuilder.cpp:23-60 *)
Definition option_text (key : string) (w : iform) (c : vmtext) : vmtext :=
  let out := out_name key "index" in
  let name := key +++ "-index" in
  mkText (v_error c) ("output " +++ out +++ " " +++ index_form_to_name w +++ nl +++ v_output c)
    (v_func c +++ ": " +++ name +++ nl +++ "dup 18 = if" +++ nl +++ "drop" +++ nl +++ "variable null    -1 null !" +++ nl
     +++ "null @ " +++ out +++ " <- stack" +++ nl +++ "exit" +++ nl +++ "else" +++ nl +++ "variable index    1 index +!" +++ nl
     +++ "index @ 1- " +++ out +++ " <- stack" +++ nl +++ v_name c +++ nl +++ "then" +++ nl +++ ";" +++ nl)
    name (v_from c +++ "0 " +++ out +++ " <- stack" +++ nl).
(** IndexedArrayBuilder.cpp:25-58 *)
Definition indexed_text (key : string) (w : iform) (c : vmtext) : vmtext :=
  let out := out_name key "index" in
  let name := key +++ "-index-" +++ index_form_to_name w in
  mkText (v_error c) ("output " +++ out +++ " " +++ index_form_to_name w +++ nl +++ v_output c +++ "variable index" +++ nl)
    (v_func c +++ ": " +++ name +++ nl +++ "dup 19 = if" +++ nl +++ "drop" +++ nl +++ out +++ " <- stack" +++ nl +++ "else" +++ nl
     +++ "1 index +!" +++ nl +++ "index @ 1- " +++ out +++ " <- stack" +++ nl +++ v_name c +++ nl +++ "then" +++ nl +++ ";" +++ nl)
    name "".
(** EmptyArrayBuilder.cpp:12-18 *)
Definition empty_text : vmtext :=
  let nothing := "( This does nothing. )" +++ nl in
  mkText ("s" +++ qt +++ " EmptyArray Builder error" +++ qt) nothing nothing nothing nothing.

Definition take_error (i : ids) : nat * ids := (next_error i, mkIds (next_node i) (S (next_error i))).

(** LayoutBuilder::formBuilderFromA, LayoutBuilder.cpp:192-246, with the constructors it calls: a builder's own key is taken before its
    content is built and its error id after *)
Fixpoint build (f : form) (i : ids) : res (node * vmtext * ids) :=
  match f with
  | FEmpty m => let '(_, i) := key_of m i in Ok (NEmpty, empty_text, i)
  | FNumpy m _ _ _ dt =>
      let '(key, i) := key_of m i in
      match dtype_to_state dt with
      | None => Err "unrecognized util::dtype"
      | Some st => let '(e, i) := take_error i in Ok (NNumpy (out_name key "data") dt, numpy_text key dt st e, i)
      end
  | FListOffset m w c =>
      let '(key, i) := key_of m i in
      let* r := build c i in
      let '(n, t, i) := r in
      let '(e, i) := take_error i in
      Ok (NListOffset (out_name key "offsets") w (array_is m "string" || array_is m "bytestring") false n, listoffset_text key w e t, i)
  | FList m w _ c =>
      let '(key, i) := key_of m i in
      let* r := build c i in
      let '(n, t, i) := r in
      let '(e, i) := take_error i in
      Ok (NList (out_name key "offsets") w false n, list_text key w e t, i)
  | FRecord m keys cs =>
      let '(key, i) := key_of m i in
      let* r := (fix go (cs : list form) (i : ids) : res (list node * list vmtext * ids) :=
                   match cs with
                   | [] => Ok ([], [], i)
                   | c :: cs => let* r := build c i in
                                let '(n, t, i) := r in
                                let* r := go cs i in
                                let '(ns, ts, i) := r in Ok (n :: ns, t :: ts, i)
                   end) cs i in
      let '(ns, ts, i) := r in
      Ok (NRecord keys ns 0 [], record_text key ts, i)
  | FRegular m c size =>
      let '(key, i) := key_of m i in
      let* r := build c i in
      let '(n, t, i) := r in Ok (NRegular size n, pass_text key "regular" t, i)
  | FIndexedOption m w c =>
      let '(key, i) := key_of m i in
      let* r := build c i in
      let '(n, t, i) := r in
      if array_is m "categorical" then Err "categorical form is not supported yet"
      else Ok (NOption (out_name key "index") w n, option_text key w t, i)
  | FIndexed m w c =>
      let '(key, i) := key_of m i in
      let* r := build c i in
      let '(n, t, i) := r in Ok (NIndexed (out_name key "index") w n, indexed_text key w t, i)
  | FByteMasked m _ c _ | FBitMasked m _ c _ _ | FUnmasked m c =>
      let '(key, i) := key_of m i in
      let* r := build c i in
      let '(n, t, i) := r in Ok (NMasked n, pass_text key "mask" t, i)
  | FUnion _ _ _ _ => Err "not modelled"
  | FVirtual _ _ _ => Err "LayoutBuilder does not recognise the Form"
  end.

(** vm_source_, LayoutBuilder.cpp:170-184 *)
Definition vm_source (t : vmtext) : string :=
  "variable err" +++ nl +++ "input data" +++ nl +++ v_error t +++ nl +++ v_output t +++ nl +++ v_func t +++ nl +++ v_from t +++ nl
  +++ "0" +++ nl +++ "begin" +++ nl +++ "pause" +++ nl +++ v_name t +++ nl +++ "1+" +++ nl +++ "again" +++ nl.

(** bytes of a number, least significant first (reinterpret_cast on a little-endian machine) *)
Fixpoint le_bytes (n : nat) (v : Z) : list Z :=
  match n with O => [] | S n => v mod 256 :: le_bytes n (v / 256) end.

(** ForthMachine32 with its default arguments, ForthMachine.h:30-34: ceil(1.5 r) = (3r + 1) / 2.  A float64 read into a float64 output is
    copied; the other conversions are not used here. *)
Definition vm_options : options :=
  mkOptions 32 1024 1024 1024 (fun r => (3 * r + 1) / 2) (fun _ => None)
    (fun t bs => match t with OFloat 64 => Some (le_unsigned bs) | _ => None end) (fun _ v => v) (fun _ a b => a + b).

(** A LayoutBuilder: the builders, the machine with its compiled program, and the machine's state *)
Record builder := mkBuilder { b_node : node; b_prog : pst; b_vm : machine; b_state : state }.

(** What a call does: it returns, throws (the objects stay as they were left), or does something undefined *)
Inductive outcome := Done (b : builder) | Threw (msg : string) (b : builder) | Undefined.

Definition set_state (s : state) (b : builder) : builder := mkBuilder (b_node b) (b_prog b) (b_vm b) s.
Definition set_node (n : node) (b : builder) : builder := mkBuilder n (b_prog b) (b_vm b) (b_state b).

(** The constructor, LayoutBuilder.cpp:160-190 with initialise, :267-276; [initial] is ArrayBuilderOptions::initial and the memory of
    the input is unassigned: represented by zeros, as every read follows a set_data.  [first] is next_node_id.
    Every function which runs the machine takes the number of trips it may make; [None]: it has not returned yet. *)
Definition layout_builder (f : form) (initial : Z) (first : nat) (fuel : nat) : res (option (outcome)) :=
  let* r := build f (mkIds first 0) in
  let '(n, t, _) := r in
  let* pm := compile vm_options (vm_source t) in
  let '(p, m) := pm in
  Ok (match run_ m [mkIn (repeat 0 (Z.to_nat initial)) 0] fuel (Forth.initial m) with
      | None => None
      | Some (ARet _ s) => Some (Done (mkBuilder n p m s))
      | Some (ABad _) => Some Undefined
      end).

(** ** The calls *)
Section OnNth.
  Context {A B : Type}.
  Variable f : A -> res (A * B).
  (** contents_[i].get()->...; a position outside contents_ is undefined *)
  Fixpoint on_nth (l : list A) (i : nat) : res (list A * B) :=
    match l, i with
    | [], _ => UB
    | x :: l, O => let* r := f x in Ok (fst r :: l, snd r)
    | x :: l, S i => let* r := on_nth l i in Ok (x :: fst r, snd r)
    end.
End OnNth.

(** RecordArrayBuilder::field_index, RecordArrayBuilder.cpp:103-107: the position returned and the new field_index_ *)
Definition next_field (n fi : Z) : Z * Z := if fi <? n - 1 then (fi, fi + 1) else (0, 0).

(** active: FormBuilder.h:141-144 (false), ListOffsetArrayBuilder.cpp:212-215, ListArrayBuilder.cpp:216-219,
    RecordArrayBuilder.cpp:153-166 *)
Fixpoint active (n : node) : bool :=
  match n with
  | NListOffset _ _ _ begun _ => begun
  | NList _ _ begun _ => begun
  | NRecord _ cs _ (j :: _) => match nthZ (map active cs) j with Some a => a | None => false end
  | NRecord _ cs _ [] => existsb active cs
  | _ => false
  end.

(** boolean, int64 and float64: they all descend in the same way to a NumpyArrayBuilder, which sends the number *)
Fixpoint touch (n : node) : res (node * unit) :=
  match n with
  | NEmpty => Err "EmptyArrayBuilder does not accept numbers"
  | NNumpy _ _ => Ok (n, tt)
  | NListOffset o w s b c => let* r := touch c in Ok (NListOffset o w s b (fst r), tt)
  | NList o w b c => let* r := touch c in Ok (NList o w b (fst r), tt)
  | NRecord k cs fi l =>
      let '(i, fi) := next_field (zlen cs) fi in
      let* r := on_nth touch cs (Z.to_nat i) in Ok (NRecord k (fst r) fi l, tt)
  | NRegular z c => let* r := touch c in Ok (NRegular z (fst r), tt)
  | NOption o w c => let* r := touch c in Ok (NOption o w (fst r), tt)
  | NIndexed o w c => let* r := touch c in Ok (NIndexed o w (fst r), tt)
  | NMasked c => let* r := touch c in Ok (NMasked (fst r), tt)
  end.

(** string and bytestring: true when a builder of strings is reached (it calls add), false when a NumpyArrayBuilder is (it sends the
    characters) *)
Fixpoint string_to (n : node) : res (node * bool) :=
  match n with
  | NEmpty => Err "EmptyArrayBuilder does not accept 'string'"
  | NNumpy _ _ => Ok (n, false)
  | NListOffset o w s b c => if s then Ok (n, true) else let* r := string_to c in Ok (NListOffset o w s b (fst r), snd r)
  | NList o w b c => let* r := string_to c in Ok (NList o w b (fst r), snd r)
  | NRecord k cs fi l =>
      let '(i, fi) := next_field (zlen cs) fi in
      let* r := on_nth string_to cs (Z.to_nat i) in Ok (NRecord k (fst r) fi l, snd r)
  | NRegular z c => let* r := string_to c in Ok (NRegular z (fst r), snd r)
  | NOption o w c => let* r := string_to c in Ok (NOption o w (fst r), snd r)
  | NIndexed o w c => let* r := string_to c in Ok (NIndexed o w (fst r), snd r)
  | NMasked c => let* r := string_to c in Ok (NMasked (fst r), snd r)
  end.

(** begin_list: true when add_begin_list is called.  NumpyArrayBuilder.cpp:152-154, ListOffsetArrayBuilder.cpp:182-191,
    ListArrayBuilder.cpp:186-195, RecordArrayBuilder.cpp:139-143 *)
Fixpoint begin_to (n : node) : res (node * bool) :=
  match n with
  | NEmpty => Err "EmptyArrayBuilder does not accept 'begin_list'"
  | NNumpy _ _ => Ok (n, false)
  | NListOffset o w s b c =>
      if b then let* r := begin_to c in Ok (NListOffset o w s b (fst r), snd r) else Ok (NListOffset o w s true c, true)
  | NList o w b c => if b then let* r := begin_to c in Ok (NList o w b (fst r), snd r) else Ok (NList o w true c, true)
  | NRecord k cs fi l => let* r := on_nth begin_to cs (Z.to_nat fi) in Ok (NRecord k (fst r) fi (fi :: l), snd r)
  | NRegular z c => let* r := begin_to c in Ok (NRegular z (fst r), snd r)
  | NOption o w c => let* r := begin_to c in Ok (NOption o w (fst r), snd r)
  | NIndexed o w c => let* r := begin_to c in Ok (NIndexed o w (fst r), snd r)
  | NMasked c => let* r := begin_to c in Ok (NMasked (fst r), snd r)
  end.

(** end_list: true when add_end_list is called.  NumpyArrayBuilder.cpp:156-158, ListOffsetArrayBuilder.cpp:193-210,
    ListArrayBuilder.cpp:197-214, RecordArrayBuilder.cpp:145-151 (back() of an empty vector is undefined).
    Simplification: when the call throws the builders are left unchanged. *)
Fixpoint end_to (n : node) : res (node * bool) :=
  match n with
  | NEmpty => Err "EmptyArrayBuilder does not accept 'end_list'"
  | NNumpy _ _ => Ok (n, false)
  | NListOffset o w s b c =>
      if negb b then Err "called 'end_list' without 'begin_list' at the same level before it"
      else if negb (active c) then Ok (NListOffset o w s false c, true)
      else let* r := end_to c in Ok (NListOffset o w s b (fst r), snd r)
  | NList o w b c =>
      if negb b then Err "called 'end_list' without 'begin_list' at the same level before it"
      else if negb (active c) then Ok (NList o w false c, true)
      else let* r := end_to c in Ok (NList o w b (fst r), snd r)
  | NRecord k cs _ [] => UB
  | NRecord k cs _ (j :: l) =>
      let* r := on_nth end_to cs (Z.to_nat j) in Ok (NRecord k (fst r) (snd (next_field (zlen cs) j)) l, snd r)
  | NRegular z c => let* r := end_to c in Ok (NRegular z (fst r), snd r)
  | NOption o w c => let* r := end_to c in Ok (NOption o w (fst r), snd r)
  | NIndexed o w c => let* r := end_to c in Ok (NIndexed o w (fst r), snd r)
  | NMasked c => let* r := end_to c in Ok (NMasked (fst r), snd r)
  end.

(** set_data, LayoutBuilder.cpp:278-282: the first bytes of the input, whatever its size *)
Definition set_data (bytes : list Z) (s : state) : option state :=
  match ins s with
  | [b] => if zlen bytes <=? zlen (idata b)
           then Some (set_ins [mkIn (bytes ++ slice (zlen bytes) (zlen (idata b)) (idata b)) (ipos b)] s) else None
  | _ => None
  end.

(** ForthMachine.h:103-107 does not check that there is room *)
Definition vm_push (v : Z) (m : machine) (s : state) : option state :=
  if zlen (stk s) <? m_stackmax m then Some (set_stk (v :: stk s) s) else None.

(** set_data, stack_push and resume (LayoutBuilder.cpp:284-289, which throws the message of a halt) or, unchecked, vm_->resume().
    string_at, ForthMachine.cpp:1000-1004 *)
Definition send (bytes : list Z) (st : Z) (checked : bool) (fuel : nat) (b : builder) : option outcome :=
  match set_data bytes (b_state b) with
  | None => Some Undefined
  | Some s =>
      match vm_push st (b_vm b) s with
      | None => Some Undefined
      | Some s =>
          match resume_ (b_vm b) fuel s with
          | None => None
          | Some (ABad _) => Some Undefined
          | Some (ARet e s) =>
              match e, checked with
              | e_user_halt, true =>
                  Some (Threw (match nthZ (p_strings (b_prog b)) (hd (-1) (stk s)) with Some m => m | None => "undefined" end) (set_state s b))
              | _, _ => Some (Done (set_state s b))
              end
          end
      end
  end.

(** the next call, if this one returned *)
Definition andthen (o : option outcome) (k : builder -> option outcome) : option outcome :=
  match o with Some (Done b) => k b | _ => o end.

(** a descent through the builders before something is sent *)
Definition descend {A} (r : res (node * A)) (b : builder) (k : A -> builder -> option outcome) : option outcome :=
  match r with
  | Ok (n, a) => k a (set_node n b)
  | Err msg => Some (Threw msg b)
  | UB => Some Undefined
  end.

Inductive call := CNull | CBool (x : bool) | CInt (x : Z) | CReal (code : Z) | CString (chars : list Z) | CBegin | CEnd.

(** begin_list and end_list, LayoutBuilder.cpp:478-500 *)
Definition call_begin (fuel : nat) (b : builder) : option outcome :=
  descend (begin_to (b_node b)) b (fun sent b => if sent then send [] 2 false fuel b else Some (Done b)).
Definition call_end (fuel : nat) (b : builder) : option outcome :=
  descend (end_to (b_node b)) b (fun sent b => if sent then send [] 3 false fuel b else Some (Done b)).
(** LayoutBuilder.cpp:456-463 *)
Fixpoint call_chars (fuel : nat) (chars : list Z) (b : builder) : option outcome :=
  match chars with
  | [] => Some (Done b)
  | c :: chars => andthen (send [c] 8 true fuel b) (call_chars fuel chars)
  end.

(** null :374-378, boolean :380-391, int64 :393-404, float64 :406-417, string :465-476 *)
Definition lcall (fuel : nat) (c : call) (b : builder) : option outcome :=
  match c with
  | CNull => send [] 18 true fuel b
  | CBool x => descend (touch (b_node b)) b (fun _ => send [Z.b2z x] 4 true fuel)
  | CInt x => descend (touch (b_node b)) b (fun _ => send (le_bytes 8 x) 0 true fuel)
  | CReal x => descend (touch (b_node b)) b (fun _ => send (le_bytes 8 x) 1 true fuel)
  | CString chars =>
      descend (string_to (b_node b)) b (fun add b =>
        if add then andthen (andthen (call_begin fuel b) (call_chars fuel chars)) (call_end fuel) else call_chars fuel chars b)
  | CBegin => call_begin fuel b
  | CEnd => call_end fuel b
  end.

(** a history of calls, stopped by the first exception *)
Fixpoint lcalls (fuel : nat) (cs : list call) (b : builder) : option outcome :=
  match cs with
  | [] => Some (Done b)
  | c :: cs => andthen (lcall fuel c b) (lcalls fuel cs)
  end.

(** ** snapshot *)
Fixpoint written_cells (l : list (option Z)) : res (list Z) :=
  match l with
  | [] => Ok []
  | Some v :: l => let* vs := written_cells l in Ok (v :: vs)
  | None :: _ => UB
  end.
Definition output (outs : list (string * outbuf)) (name : string) : res (list Z) :=
  match assoc name outs with
  | None => Err "Snapshot needs data"
  | Some b => written_cells (firstn (Z.to_nat (olen b)) (cells b))
  end.
Definition prim_dtype (dt : prim) : option dtype :=
  match dt with
  | boolean => Some DBool
  | int8 | int16 | int32 | int64 | uint8 | uint16 | uint32 | uint64 => Some DInt
  | float16 | float32 | float64 => Some DReal
  | _ => None
  end.

(** the snapshot member of each builder *)
Fixpoint node_snapshot (outs : list (string * outbuf)) (n : node) : res content :=
  match n with
  | NEmpty => Ok Empty
  | NNumpy o dt => let* d := output outs o in match prim_dtype dt with Some t => Ok (Numpy t d) | None => Err "not modelled" end
  | NListOffset o w _ _ c =>
      match w with
      | i32 | u32 | i64 =>
          let* d := output outs o in
          let* c := node_snapshot outs c in
          Ok (ListOffset d c)
      | _ => Err "Snapshot needs offsets"
      end
  | NList o w _ c =>
      match w with
      | i32 | u32 | i64 =>
          let* d := output outs o in
          let* c := node_snapshot outs c in
          if zlen d <? 1 then UB else Ok (ListA (slice 0 (zlen d - 1) d) (slice 1 (zlen d) d) c)
      | _ => Err "Snapshot needs offsets"
      end
  | NRecord keys cs _ _ =>
      let* cs := (fix go (cs : list node) : res (list content) :=
                    match cs with
                    | [] => Ok []
                    | c :: cs => let* c := node_snapshot outs c in let* cs := go cs in Ok (c :: cs)
                    end) cs in
      Ok (Record keys (match cs with [] => 0 | _ => minlength cs end) cs)
  | NRegular size c => let* c := node_snapshot outs c in Ok (Regular size 0 c)
  | NOption o w c =>
      match w with
      | i32 | i64 =>
          let* d := output outs o in
          let* c := node_snapshot outs c in
          if zlen d <? 1 then UB else Ok (IndexedOption (slice 1 (zlen d) d) c)
      | _ => Err "Snapshot needs an index"
      end
  | NIndexed o w c =>
      match w with
      | i32 | u32 | i64 =>
          let* d := output outs o in
          let* c := node_snapshot outs c in
          Ok (Indexed d c)
      | _ => Err "Snapshot needs an index"
      end
  | NMasked c => node_snapshot outs c
  end.

(** LayoutBuilder::snapshot, LayoutBuilder.cpp:339-343: maybe_throw throws for every error, ignore_ being empty *)
Definition snapshot (b : builder) : res content :=
  if is_none (err (b_state b)) then node_snapshot (combine (map fst (p_outs (b_prog b))) (outs (b_state b))) (b_node b)
  else Err "AwkwardForth runtime error".
