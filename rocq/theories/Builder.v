(** ArrayBuilder and the nodes it is made of (src/libawkward/builder/).

    A node is a value of [builder]; a method call returns the node after the call and, when the C++ method returns
    another node than `this`, that node.  The buffers are lists: that they behave as lists is C26.
    Not modelled: complex numbers, datetimes, strings, append (of an existing array), record names (name = nullptr),
    field_fast, record fields' parameters; the state after an exception. *)
From Coq Require Import String.
From Verif Require Import Base Content KCore Core KOption Option Merge.
Local Open Scope string_scope.
Local Open Scope list_scope.
Local Open Scope Z_scope.

Inductive call :=
| CNull
| CBool (b : bool)
| CInt (z : Z)
| CReal (r : Z)            (* a floating point number, by its code (SpecArray.v) *)
| CBeginList
| CEndList
| CBeginTuple (numfields : Z)
| CIndex (i : Z)
| CEndTuple
| CBeginRecord
| CField (key : string)
| CEndRecord.

Inductive builder :=
| BUnknown (nullcount : Z)                                      (* UnknownBuilder.h *)
| BBool (buffer : list bool)                                    (* BoolBuilder.h *)
| BInt (buffer : list Z)                                        (* Int64Builder.h *)
| BReal (buffer : list Z)                                       (* Float64Builder.h *)
| BOption (index : list Z) (content : builder)                  (* OptionBuilder.h *)
| BList (offsets : list Z) (content : builder) (begun : bool)   (* ListBuilder.h *)
| BTuple (contents : list builder) (len : Z) (begun : bool) (nextindex : Z)    (* TupleBuilder.h *)
| BRecord (contents : list builder) (keys : list string) (len : Z) (begun : bool) (nextindex nexttotry : Z)  (* RecordBuilder.h *)
| BUnion (tags index : list Z) (contents : list builder) (current : Z).        (* UnionBuilder.h *)

(** length(): UnknownBuilder.cpp:43-46, BoolBuilder.cpp:31-34, Int64Builder.cpp:38-41, Float64Builder.cpp:51-54,
    OptionBuilder.cpp:50-53, ListBuilder.cpp:43-46, TupleBuilder.cpp:51-54, RecordBuilder.cpp:76-79, UnionBuilder.cpp:56-59 *)
Definition blength (b : builder) : Z :=
  match b with
  | BUnknown n => n
  | BBool l => zlen l
  | BInt l => zlen l
  | BReal l => zlen l
  | BOption index _ => zlen index
  | BList offsets _ _ => zlen offsets - 1
  | BTuple _ len _ _ => len
  | BRecord _ _ len _ _ _ => len
  | BUnion tags _ _ _ => zlen tags
  end.

(** active(): UnknownBuilder.cpp:75-78, BoolBuilder.cpp:57-60, Int64Builder.cpp:65-68, Float64Builder.cpp:77-80,
    OptionBuilder.cpp:70-73, ListBuilder.cpp:64-67, TupleBuilder.cpp:85-88, RecordBuilder.cpp:123-126, UnionBuilder.cpp:85-88 *)
Fixpoint active (b : builder) : bool :=
  match b with
  | BUnknown _ | BBool _ | BInt _ | BReal _ => false
  | BOption _ c => active c
  | BList _ _ begun => begun
  | BTuple _ _ begun _ => begun
  | BRecord _ _ _ begun _ _ => begun
  | BUnion _ _ _ current => negb (current =? -1)
  end.

(** the three groups of calls that the nodes treat alike *)
Definition is_leaf (k : call) : bool := match k with CNull | CBool _ | CInt _ | CReal _ => true | _ => false end.
Definition is_begin (k : call) : bool := match k with CBeginList | CBeginTuple _ | CBeginRecord => true | _ => false end.
Definition is_end (k : call) : bool := match k with CEndList | CEndTuple | CEndRecord => true | _ => false end.

(** int8_t i, UnionBuilder.cpp:107 and current_, UnionBuilder.h:143 *)
Definition int8 (z : Z) : Z := (z + 128) mod 256 - 128.

Definition misplaced {A} : res A := Err "called without its beginning at the same level before it".

(** what a call returned: the node itself after the call, and another node if it returned one *)
Definition outcome : Type := builder * option builder.
(** the node returned *)
Definition returned (r : outcome) : builder := match snd r with Some b => b | None => fst r end.

Section Builder.
(** the floating point number an integer converts to *)
Variable rc : Z -> Z.

(** XBuilder::fromempty(options) and then the call: BoolBuilder.cpp:15-19, Int64Builder.cpp:17-21, Float64Builder.cpp:16-20,
    ListBuilder.cpp:19-27 and 173-182, TupleBuilder.cpp:21-28 and 302-314, RecordBuilder.cpp:25-37 and 401-419.
    begin_tuple with a negative number of fields: TupleBuilder::begintuple and UnionBuilder::begintuple call each other
    without end. *)
Definition fresh_for (k : call) : res builder :=
  match k with
  | CBool x => Ok (BBool [x])
  | CInt x => Ok (BInt [x])
  | CReal x => Ok (BReal [x])
  | CBeginList => Ok (BList [0] (BUnknown 0) true)
  | CBeginTuple n => if n <? 0 then UB else Ok (BTuple (repeat (BUnknown 0) (Z.to_nat n)) 0 true (-1))
  | CBeginRecord => Ok (BRecord [] [] 0 true (-1) 0)
  | _ => misplaced
  end.

(** OptionBuilder::fromvalids(options, b) (OptionBuilder.cpp:26-34), then null() *)
Definition option_of (b : builder) : res builder :=
  if blength b <? 0 then UB else Ok (BOption (zseq 0 (blength b) ++ [-1]) b).

(** UnionBuilder::fromsingle(options, b) (UnionBuilder.cpp:27-39), then a call that [b] has no place for: none of the
    contents matches, so a new one is added (UnionBuilder.cpp:115-122, 358-363, ...) *)
Definition union_of (b : builder) (k : call) : res builder :=
  if blength b <? 0 then UB else
  let* c := fresh_for k in
  let tags := repeat 0 (Z.to_nat (blength b)) in
  let index := zseq 0 (blength b) in
  if is_leaf k then Ok (BUnion (tags ++ [1]) (index ++ [0]) [b; c] (-1)) else Ok (BUnion tags index [b; c] 1).

(** null(), boolean(), ..., endrecord() of a node that has no place for the call:
    e.g. Int64Builder.cpp:70-187, ListBuilder.cpp:69-171 when not begun *)
Definition elsewhere (b : builder) (k : call) : res outcome :=
  match k with
  | CNull => let* o := option_of b in Ok (b, Some o)
  | CEndList | CIndex _ | CEndTuple | CField _ | CEndRecord => misplaced
  | _ => let* u := union_of b k in Ok (b, Some u)
  end.

(** which content of a union a call goes to: UnionBuilder.cpp:104-476.  [find_content p cs] is the loop over contents_. *)
Fixpoint find_content (p : builder -> bool) (cs : list builder) : option Z :=
  match cs with
  | [] => None
  | c :: cs => if p c then Some 0 else option_map (fun i => i + 1) (find_content p cs)
  end.
Definition choose (cs : list builder) (k : call) : option Z :=
  match k with
  | CBool _ => find_content (fun c => match c with BBool _ => true | _ => false end) cs
  | CInt _ => find_content (fun c => match c with BInt _ => true | _ => false end) cs
  | CReal _ =>
      match find_content (fun c => match c with BReal _ => true | _ => false end) cs with
      | Some i => Some i
      | None => find_content (fun c => match c with BInt _ => true | _ => false end) cs
      end
  | CBeginList => find_content (fun c => match c with BList _ _ _ => true | _ => false end) cs
  | CBeginTuple n => find_content (fun c => match c with BTuple fs len _ _ => (len =? -1) || (zlen fs =? n) | _ => false end) cs
  | CBeginRecord => find_content (fun c => match c with BRecord _ _ _ _ _ _ => true | _ => false end) cs
  | _ => None
  end.

(** RecordBuilder::field_check, the search: RecordBuilder.cpp:507-521; one turn of the loop per unit of fuel *)
Fixpoint search_key (fuel : nat) (keys : list string) (key : string) (nexttotry i : Z) : res (option Z) :=
  match fuel with
  | O => UB
  | S fuel =>
      let size := zlen keys in
      let '(i, stop) := if size <=? i then (0, 0 =? nexttotry) else (i, false) in
      if stop then Ok None else
      let* k := rd keys i in
      if (k =? key)%string then Ok (Some i)
      else if i + 1 =? nexttotry then Ok None
      else search_key fuel keys key nexttotry (i + 1)
  end.

(** endtuple / endrecord, one content: TupleBuilder.cpp:370-379, RecordBuilder.cpp:553-562 *)
Definition end_one (null : builder -> res outcome) (len : Z) (c : builder) : res builder :=
  let* c := (if blength c =? len then let* r := null c in Ok (returned r) else Ok c) in
  if blength c =? len + 1 then Ok c else Err "filled more than once".

(** the methods of all the nodes *)
Fixpoint step (b : builder) (k : call) {struct b} : res outcome :=
  match b with
  | BUnknown n =>      (* UnknownBuilder.cpp:80-219 *)
      match k with
      | CNull => Ok (BUnknown (n + 1), None)
      | CEndList | CIndex _ | CEndTuple | CField _ | CEndRecord => misplaced
      | _ =>
          let* c := fresh_for k in
          if n =? 0 then Ok (b, Some c)
          else if n <? 0 then UB
          else Ok (b, Some (BOption (repeat (-1) (Z.to_nat n) ++ if is_leaf k then [0] else []) c))
      end
  | BBool l => match k with CBool x => Ok (BBool (l ++ [x]), None) | _ => elsewhere b k end   (* BoolBuilder.cpp:62-180 *)
  | BInt l =>          (* Int64Builder.cpp:70-187 *)
      match k with
      | CInt x => Ok (BInt (l ++ [x]), None)
      | CReal x => Ok (b, Some (BReal (map rc l ++ [x])))
      | _ => elsewhere b k
      end
  | BReal l =>         (* Float64Builder.cpp:82-198 *)
      match k with
      | CInt x => Ok (BReal (l ++ [rc x]), None)
      | CReal x => Ok (BReal (l ++ [x]), None)
      | _ => elsewhere b k
      end
  | BOption index c => (* OptionBuilder.cpp:75-295 *)
      if active c then
        let* r := step c k in
        if is_end k && negb (blength c =? blength (fst r)) then Ok (BOption (index ++ [blength c]) (fst r), None)
        else Ok (BOption index (fst r), None)
      else
        match k with
        | CNull => Ok (BOption (index ++ [-1]) c, None)
        | CBool _ | CInt _ | CReal _ => let* r := step c k in Ok (BOption (index ++ [blength c]) (returned r), None)
        | CBeginList | CBeginTuple _ | CBeginRecord => let* r := step c k in Ok (BOption index (returned r), None)
        | _ => misplaced
        end
  | BList offsets c begun =>     (* ListBuilder.cpp:69-290 *)
      if begun then
        match k with
        | CEndList => if active c then let* r := step c k in Ok (BList offsets (returned r) true, None)
                      else Ok (BList (offsets ++ [blength c]) c false, None)
        | CIndex _ | CEndTuple | CField _ | CEndRecord => let* r := step c k in Ok (BList offsets (fst r) true, None)
        | _ => let* r := step c k in Ok (BList offsets (returned r) true, None)
        end
      else
        match k with
        | CBeginList => Ok (BList offsets c true, None)
        | _ => elsewhere b k
        end
  | BTuple cs len begun next =>  (* TupleBuilder.cpp:90-448 *)
      (* the content in use, and the call on it *)
      let inner := nth_apply (fun c => let* r := step c k in Ok (c, r)) cs next in
      let inner_active := nth_apply (fun c => Ok (active c)) cs next in
      if begun then
        match k with
        | CIndex i =>
            if zlen cs <=? i then Err "index is out of bounds for a tuple with this number of fields"
            else
              let* a := (if next =? -1 then Ok false else inner_active) in
              if a then let* p := inner in Ok (BTuple (upd cs (Z.to_nat next) (fst (snd p))) len true next, None)
              else Ok (BTuple cs len true i, None)
        | CEndTuple =>
            let* a := (if next =? -1 then Ok false else inner_active) in
            if a then let* p := inner in Ok (BTuple (upd cs (Z.to_nat next) (fst (snd p))) len true next, None)
            else let* cs := mapres (end_one (fun c => step c CNull) len) cs in Ok (BTuple cs (len + 1) false next, None)
        | CEndList | CField _ | CEndRecord =>
            if next =? -1 then Err "needs 'index' or 'end_tuple'"
            else let* p := inner in Ok (BTuple (upd cs (Z.to_nat next) (fst (snd p))) len true next, None)
        | _ =>
            if next =? -1 then Err "needs 'index' or 'end_tuple'"
            else
              let* p := inner in
              let c' := if active (fst p) then fst (snd p) else returned (snd p) in
              Ok (BTuple (upd cs (Z.to_nat next) c') len true next, None)
        end
      else
        match k with
        | CBeginTuple n =>
            if n <? 0 then UB else
            let cs := if len =? -1 then cs ++ repeat (BUnknown 0) (Z.to_nat n) else cs in
            let len := if len =? -1 then 0 else len in
            if n =? zlen cs then Ok (BTuple cs len true (-1), None)
            else let* u := union_of (BTuple cs len false next) k in Ok (BTuple cs len false next, Some u)
        | _ => elsewhere b k
        end
  | BRecord cs keys len begun next nexttotry =>    (* RecordBuilder.cpp:128-570 *)
      let inner := nth_apply (fun c => let* r := step c k in Ok (c, r)) cs next in
      let inner_active := nth_apply (fun c => Ok (active c)) cs next in
      if begun then
        match k with
        | CField key =>
            let* a := (if next =? -1 then Ok false else inner_active) in
            if a then let* p := inner in Ok (BRecord (upd cs (Z.to_nat next) (fst (snd p))) keys len true next nexttotry, None)
            else
              let* found := search_key (S (S (List.length keys))) keys key nexttotry nexttotry in
              match found with
              | Some i => Ok (BRecord cs keys len true i (i + 1), None)
              | None =>
                  let c := if len =? 0 then BUnknown 0 else BOption (repeat (-1) (Z.to_nat len)) (BUnknown 0) in
                  Ok (BRecord (cs ++ [c]) (keys ++ [key]) len true (zlen keys) 0, None)
              end
        | CEndRecord =>
            let* a := (if next =? -1 then Ok false else inner_active) in
            if a then let* p := inner in Ok (BRecord (upd cs (Z.to_nat next) (fst (snd p))) keys len true next nexttotry, None)
            else let* cs := mapres (end_one (fun c => step c CNull) len) cs in Ok (BRecord cs keys (len + 1) false next nexttotry, None)
        | CEndList | CIndex _ | CEndTuple =>
            if next =? -1 then Err "needs 'field' or 'end_record'"
            else let* p := inner in Ok (BRecord (upd cs (Z.to_nat next) (fst (snd p))) keys len true next nexttotry, None)
        | _ =>
            if next =? -1 then Err "needs 'field' or 'end_record'"
            else
              let* p := inner in
              let c' := if active (fst p) then fst (snd p) else returned (snd p) in
              Ok (BRecord (upd cs (Z.to_nat next) c') keys len true next nexttotry, None)
        end
      else
        match k with
        | CBeginRecord => Ok (BRecord cs keys (if len =? -1 then 0 else len) true (-1) 0, None)
        | _ => elsewhere b k
        end
  | BUnion tags index cs current =>     (* UnionBuilder.cpp:90-508 *)
      if current =? -1 then
        match k with
        | CNull => let* o := option_of b in Ok (b, Some o)
        | CEndList | CIndex _ | CEndTuple | CField _ | CEndRecord => misplaced
        | _ =>
            match choose cs k with
            | Some i =>
                let* p := nth_apply (fun c => match c, k with
                                              | BInt l, CReal x => Ok (zlen l, BReal (map rc l ++ [x]))  (* 178-183, 189-190 *)
                                              | _, _ => let* r := step c k in Ok (blength c, fst r)
                                              end) cs i in
                let cs := upd cs (Z.to_nat i) (snd p) in
                if is_leaf k then Ok (BUnion (tags ++ [int8 i]) (index ++ [fst p]) cs (-1), None)
                else Ok (BUnion tags index cs (int8 i), None)
            | None =>
                let* c := fresh_for k in
                if is_leaf k then Ok (BUnion (tags ++ [int8 (zlen cs)]) (index ++ [0]) (cs ++ [c]) (-1), None)
                else Ok (BUnion tags index (cs ++ [c]) (int8 (zlen cs)), None)
            end
        end
      else
        let* p := nth_apply (fun c => let* r := step c k in Ok (blength c, fst r)) cs current in
        let cs := upd cs (Z.to_nat current) (snd p) in
        if is_end k && negb (fst p =? blength (snd p)) then Ok (BUnion (tags ++ [current]) (index ++ [fst p]) cs (-1), None)
        else Ok (BUnion tags index cs current, None)
  end.

(** ArrayBuilder: each method is maybeupdate(builder_->method()), ArrayBuilder.cpp:76-330 *)
Fixpoint run (b : builder) (ks : list call) : res builder :=
  match ks with
  | [] => Ok b
  | k :: ks => let* r := step b k in run (returned r) ks
  end.

(** ArrayBuilder::ArrayBuilder, ArrayBuilder.cpp:17-18 *)
Definition new_builder : builder := BUnknown 0.

(** clear(): UnknownBuilder.cpp:48-51, BoolBuilder.cpp:36-39, Int64Builder.cpp:43-46, Float64Builder.cpp:56-59,
    OptionBuilder.cpp:55-59, ListBuilder.cpp:48-53, TupleBuilder.cpp:56-64, RecordBuilder.cpp:81-95, UnionBuilder.cpp:61-68 *)
Fixpoint clear (b : builder) : builder :=
  match b with
  | BUnknown _ => BUnknown 0
  | BBool _ => BBool []
  | BInt _ => BInt []
  | BReal _ => BReal []
  | BOption _ c => BOption [] (clear c)
  | BList _ c begun => BList [0] (clear c) begun
  | BTuple cs _ _ _ => BTuple (map clear cs) (-1) false (-1)
  | BRecord cs _ _ _ _ _ => BRecord (map clear cs) [] (-1) false (-1) 0
  | BUnion _ _ cs current => BUnion [] [] (map clear cs) current
  end.

(** histories with clear(), ArrayBuilder.cpp:37-39: the calls of each of [segs], followed by clear() *)
Fixpoint restarts (b : builder) (segs : list (list call)) : res builder :=
  match segs with
  | [] => Ok b
  | ks :: segs => let* b := run b ks in restarts (clear b) segs
  end.

(** snapshot(): UnknownBuilder.cpp:53-73, BoolBuilder.cpp:41-55, Int64Builder.cpp:48-63, Float64Builder.cpp:61-75,
    OptionBuilder.cpp:61-68, ListBuilder.cpp:55-62, TupleBuilder.cpp:66-83, RecordBuilder.cpp:97-121, UnionBuilder.cpp:70-83.
    [refeq] and [fuel] as in Merge.v; no index of a builder is narrower than 64 bits. *)
Variable refeq : content -> content -> bool.
Variable fuel : nat.
Fixpoint snapshot (b : builder) : res content :=
  match b with
  | BUnknown n => if n =? 0 then Ok Empty else if n <? 0 then UB else Ok (IndexedOption (repeat (-1) (Z.to_nat n)) Empty)
  | BBool l => Ok (Numpy DBool (map b2z l))
  | BInt l => Ok (Numpy DInt l)
  | BReal l => Ok (Numpy DReal l)
  | BOption index c => let* c := snapshot c in simplify_optiontype (IndexedOption index c)
  | BList offsets c _ => let* c := snapshot c in mkListOffset offsets c
  | BTuple cs len _ _ =>
      if len =? -1 then Ok Empty else let* cs := mapres snapshot cs in mkRecord None len cs
  | BRecord cs keys len _ _ _ =>
      if len =? -1 then Ok Empty
      else
        let* cs := mapres snapshot cs in
        if zlen keys <? zlen cs then UB       (* keys_[i], RecordBuilder.cpp:112 *)
        else mkRecord (Some (slice 0 (zlen cs) keys)) len cs
  | BUnion tags index cs _ =>
      let* cs := mapres snapshot cs in
      let* u := mkUnion tags index cs in
      simplify_uniontype rc (fun _ => false) refeq fuel true false tags index cs
  end.
End Builder.
