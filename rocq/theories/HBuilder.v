(** ArrayBuilder in memory: the nodes of Builder.v with growable buffers (Growable.v) where Builder.v has lists.

    All buffers are in one memory; a cell is a number (a boolean is 0 or 1, a floating point number is given by its code).
    A snapshot shares the memory of the buffers.  Not modelled, as in Builder.v: complex numbers, datetimes, strings, append of an
    existing array, record names. *)
From Coq Require Import String.
From Verif Require Import Base Content KCore Core KOption Option Merge Growable Builder.
Local Open Scope string_scope.
Local Open Scope list_scope.
Local Open Scope Z_scope.

Notation mem := (list (list (option Z))).
(** computations that change the memory *)
Definition comp (A : Type) : Type := mem -> res (mem * A).
Definition ret {A} (x : A) : comp A := fun h => Ok (h, x).
Definition fails {A} (r : res A) : comp A := fun h => let* x := r in Ok (h, x).
Definition then_ {A B} (m : comp A) (f : A -> comp B) : comp B := fun h => let* hx := m h in f (snd hx) (fst hx).
Notation "'let!' x := m 'in' k" := (then_ m (fun x => k)) (at level 200, x pattern, m at level 100, k at level 200).
Section Combinators.
  Context {A B : Type} (f : A -> comp B).
  Fixpoint nth_comp (l : list A) (k : Z) : comp B :=
    match l with [] => fails UB | x :: t => if k =? 0 then f x else nth_comp t (k - 1) end.
  Fixpoint map_comp (l : list A) : comp (list B) :=
    match l with [] => ret [] | x :: t => let! y := f x in let! ys := map_comp t in ret (y :: ys) end.
End Combinators.

Inductive hbuilder :=
| HUnknown (nullcount : Z)                                      (* UnknownBuilder.h *)
| HBool (buffer : gbuf)                                         (* BoolBuilder.h *)
| HInt (buffer : gbuf)                                          (* Int64Builder.h *)
| HReal (buffer : gbuf)                                         (* Float64Builder.h *)
| HOption (index : gbuf) (content : hbuilder)                   (* OptionBuilder.h *)
| HList (offsets : gbuf) (content : hbuilder) (begun : bool)    (* ListBuilder.h *)
| HTuple (contents : list hbuilder) (len : Z) (begun : bool) (nextindex : Z)    (* TupleBuilder.h *)
| HRecord (contents : list hbuilder) (keys : list string) (len : Z) (begun : bool) (nextindex nexttotry : Z)  (* RecordBuilder.h *)
| HUnion (tags index : gbuf) (contents : list hbuilder) (current : Z).          (* UnionBuilder.h *)

(** length(): UnknownBuilder.cpp:43-46, BoolBuilder.cpp:31-34, Int64Builder.cpp:38-41, Float64Builder.cpp:51-54,
    OptionBuilder.cpp:50-53, ListBuilder.cpp:43-46, TupleBuilder.cpp:51-54, RecordBuilder.cpp:76-79, UnionBuilder.cpp:56-59 *)
Definition hlength (b : hbuilder) : Z :=
  match b with
  | HUnknown n => n
  | HBool g | HInt g | HReal g => g_length g
  | HOption index _ => g_length index
  | HList offsets _ _ => g_length offsets - 1
  | HTuple _ len _ _ => len
  | HRecord _ _ len _ _ _ => len
  | HUnion tags _ _ _ => g_length tags
  end.

(** active(): as in Builder.v *)
Fixpoint hactive (b : hbuilder) : bool :=
  match b with
  | HUnknown _ | HBool _ | HInt _ | HReal _ => false
  | HOption _ c => hactive c
  | HList _ _ begun => begun
  | HTuple _ _ begun _ => begun
  | HRecord _ _ _ begun _ _ => begun
  | HUnion _ _ _ current => negb (current =? -1)
  end.

Definition houtcome : Type := hbuilder * option hbuilder.
Definition hreturned (r : houtcome) : hbuilder := match snd r with Some b => b | None => fst r end.

Section HBuilder.
(** the floating point number an integer converts to *)
Variable rc : Z -> Z.
Variable o : options.

Definition append (g : gbuf) (x : Z) : comp gbuf := append_ o x g.
(** GrowableBuffer::empty(options) *)
Definition empty_buffer : comp gbuf := empty_ o 0.
Definition full_buffer (value length : Z) : comp gbuf := full_ o value length.
Definition arange_buffer (length : Z) : comp gbuf := arange_ (fun z => z) o length.
Definition convert_buffer (g : gbuf) : comp gbuf := convert_ o rc g.

(** XBuilder::fromempty(options) and then the call: BoolBuilder.cpp:15-19, Int64Builder.cpp:17-21, Float64Builder.cpp:16-20,
    ListBuilder.cpp:19-27 and 173-182, TupleBuilder.cpp:21-28 and 302-314, RecordBuilder.cpp:25-37 and 401-419 *)
Definition hfresh_for (k : call) : comp hbuilder :=
  match k with
  | CBool x => let! g := empty_buffer in let! g := append g (b2z x) in ret (HBool g)
  | CInt x => let! g := empty_buffer in let! g := append g x in ret (HInt g)
  | CReal x => let! g := empty_buffer in let! g := append g x in ret (HReal g)
  | CBeginList => let! g := empty_buffer in let! g := append g 0 in ret (HList g (HUnknown 0) true)
  | CBeginTuple n => if n <? 0 then fails UB else ret (HTuple (repeat (HUnknown 0) (Z.to_nat n)) 0 true (-1))
  | CBeginRecord => ret (HRecord [] [] 0 true (-1) 0)
  | _ => fails misplaced
  end.

(** OptionBuilder::fromvalids(options, b) (OptionBuilder.cpp:26-34), then null() *)
Definition hoption_of (b : hbuilder) : comp hbuilder :=
  let! index := arange_buffer (hlength b) in
  let! index := append index (-1) in
  ret (HOption index b).

(** UnionBuilder::fromsingle(options, b) (UnionBuilder.cpp:27-39), then a call that [b] has no place for *)
Definition hunion_of (b : hbuilder) (k : call) : comp hbuilder :=
  let! tags := full_buffer 0 (hlength b) in
  let! index := arange_buffer (hlength b) in
  let! c := hfresh_for k in
  if is_leaf k then
    let! tags := append tags 1 in
    let! index := append index 0 in
    ret (HUnion tags index [b; c] (-1))
  else ret (HUnion tags index [b; c] 1).

(** a node that has no place for the call: e.g. Int64Builder.cpp:70-187, ListBuilder.cpp:69-171 when not begun *)
Definition helsewhere (b : hbuilder) (k : call) : comp houtcome :=
  match k with
  | CNull => let! r := hoption_of b in ret (b, Some r)
  | CEndList | CIndex _ | CEndTuple | CField _ | CEndRecord => fails misplaced
  | _ => let! u := hunion_of b k in ret (b, Some u)
  end.

(** which content of a union a call goes to: UnionBuilder.cpp:104-476 *)
Fixpoint hfind_content (p : hbuilder -> bool) (cs : list hbuilder) : option Z :=
  match cs with
  | [] => None
  | c :: cs => if p c then Some 0 else option_map (fun i => i + 1) (hfind_content p cs)
  end.
Definition hchoose (cs : list hbuilder) (k : call) : option Z :=
  match k with
  | CBool _ => hfind_content (fun c => match c with HBool _ => true | _ => false end) cs
  | CInt _ => hfind_content (fun c => match c with HInt _ => true | _ => false end) cs
  | CReal _ =>
      match hfind_content (fun c => match c with HReal _ => true | _ => false end) cs with
      | Some i => Some i
      | None => hfind_content (fun c => match c with HInt _ => true | _ => false end) cs
      end
  | CBeginList => hfind_content (fun c => match c with HList _ _ _ => true | _ => false end) cs
  | CBeginTuple n => hfind_content (fun c => match c with HTuple fs len _ _ => (len =? -1) || (zlen fs =? n) | _ => false end) cs
  | CBeginRecord => hfind_content (fun c => match c with HRecord _ _ _ _ _ _ => true | _ => false end) cs
  | _ => None
  end.

(** endtuple / endrecord, one content: TupleBuilder.cpp:370-379, RecordBuilder.cpp:553-562 *)
Definition hend_one (null : hbuilder -> comp houtcome) (len : Z) (c : hbuilder) : comp hbuilder :=
  let! c := (if hlength c =? len then let! r := null c in ret (hreturned r) else ret c) in
  if hlength c =? len + 1 then ret c else fails (Err "filled more than once").

(** the methods of all the nodes *)
Fixpoint hstep (b : hbuilder) (k : call) {struct b} : comp houtcome :=
  match b with
  | HUnknown n =>      (* UnknownBuilder.cpp:80-219 *)
      match k with
      | CNull => ret (HUnknown (n + 1), None)
      | CEndList | CIndex _ | CEndTuple | CField _ | CEndRecord => fails misplaced
      | _ =>
          let! c := hfresh_for k in
          if n =? 0 then ret (b, Some c)
          else
            let! index := full_buffer (-1) n in
            let! index := (if is_leaf k then append index 0 else ret index) in
            ret (b, Some (HOption index c))
      end
  | HBool g => match k with CBool x => let! g := append g (b2z x) in ret (HBool g, None) | _ => helsewhere b k end   (* BoolBuilder.cpp:62-180 *)
  | HInt g =>          (* Int64Builder.cpp:70-187 *)
      match k with
      | CInt x => let! g := append g x in ret (HInt g, None)
      | CReal x => let! g := convert_buffer g in let! g := append g x in ret (b, Some (HReal g))
      | _ => helsewhere b k
      end
  | HReal g =>         (* Float64Builder.cpp:82-198 *)
      match k with
      | CInt x => let! g := append g (rc x) in ret (HReal g, None)
      | CReal x => let! g := append g x in ret (HReal g, None)
      | _ => helsewhere b k
      end
  | HOption index c => (* OptionBuilder.cpp:75-295 *)
      if hactive c then
        let! r := hstep c k in
        if is_end k && negb (hlength c =? hlength (fst r)) then
          let! index := append index (hlength c) in ret (HOption index (fst r), None)
        else ret (HOption index (fst r), None)
      else
        match k with
        | CNull => let! index := append index (-1) in ret (HOption index c, None)
        | CBool _ | CInt _ | CReal _ =>
            let! r := hstep c k in
            let! index := append index (hlength c) in
            ret (HOption index (hreturned r), None)
        | CBeginList | CBeginTuple _ | CBeginRecord => let! r := hstep c k in ret (HOption index (hreturned r), None)
        | _ => fails misplaced
        end
  | HList offsets c begun =>     (* ListBuilder.cpp:69-290 *)
      if begun then
        match k with
        | CEndList => if hactive c then let! r := hstep c k in ret (HList offsets (hreturned r) true, None)
                      else let! offsets := append offsets (hlength c) in ret (HList offsets c false, None)
        | CIndex _ | CEndTuple | CField _ | CEndRecord => let! r := hstep c k in ret (HList offsets (fst r) true, None)
        | _ => let! r := hstep c k in ret (HList offsets (hreturned r) true, None)
        end
      else
        match k with
        | CBeginList => ret (HList offsets c true, None)
        | _ => helsewhere b k
        end
  | HTuple cs len begun next =>  (* TupleBuilder.cpp:90-448 *)
      let inner := nth_comp (fun c => let! r := hstep c k in ret (c, r)) cs next in
      let inner_active := nth_comp (fun c => ret (hactive c)) cs next in
      if begun then
        match k with
        | CIndex i =>
            if zlen cs <=? i then fails (Err "index is out of bounds for a tuple with this number of fields")
            else
              let! a := (if next =? -1 then ret false else inner_active) in
              if a then let! p := inner in ret (HTuple (upd cs (Z.to_nat next) (fst (snd p))) len true next, None)
              else ret (HTuple cs len true i, None)
        | CEndTuple =>
            let! a := (if next =? -1 then ret false else inner_active) in
            if a then let! p := inner in ret (HTuple (upd cs (Z.to_nat next) (fst (snd p))) len true next, None)
            else let! cs := map_comp (hend_one (fun c => hstep c CNull) len) cs in ret (HTuple cs (len + 1) false next, None)
        | CEndList | CField _ | CEndRecord =>
            if next =? -1 then fails (Err "needs 'index' or 'end_tuple'")
            else let! p := inner in ret (HTuple (upd cs (Z.to_nat next) (fst (snd p))) len true next, None)
        | _ =>
            if next =? -1 then fails (Err "needs 'index' or 'end_tuple'")
            else
              let! p := inner in
              ret (HTuple (upd cs (Z.to_nat next) (if hactive (fst p) then fst (snd p) else hreturned (snd p))) len true next, None)
        end
      else
        match k with
        | CBeginTuple n =>
            if n <? 0 then fails UB else
            let cs := if len =? -1 then cs ++ repeat (HUnknown 0) (Z.to_nat n) else cs in
            let len := if len =? -1 then 0 else len in
            if n =? zlen cs then ret (HTuple cs len true (-1), None)
            else let! u := hunion_of (HTuple cs len false next) k in ret (HTuple cs len false next, Some u)
        | _ => helsewhere b k
        end
  | HRecord cs keys len begun next nexttotry =>    (* RecordBuilder.cpp:128-570 *)
      let inner := nth_comp (fun c => let! r := hstep c k in ret (c, r)) cs next in
      let inner_active := nth_comp (fun c => ret (hactive c)) cs next in
      if begun then
        match k with
        | CField key =>
            let! a := (if next =? -1 then ret false else inner_active) in
            if a then let! p := inner in ret (HRecord (upd cs (Z.to_nat next) (fst (snd p))) keys len true next nexttotry, None)
            else
              let! found := fails (search_key (S (S (List.length keys))) keys key nexttotry nexttotry) in
              match found with
              | Some i => ret (HRecord cs keys len true i (i + 1), None)
              | None =>
                  let! c := (if len =? 0 then ret (HUnknown 0) else let! index := full_buffer (-1) len in ret (HOption index (HUnknown 0))) in
                  ret (HRecord (cs ++ [c]) (keys ++ [key]) len true (zlen keys) 0, None)
              end
        | CEndRecord =>
            let! a := (if next =? -1 then ret false else inner_active) in
            if a then let! p := inner in ret (HRecord (upd cs (Z.to_nat next) (fst (snd p))) keys len true next nexttotry, None)
            else let! cs := map_comp (hend_one (fun c => hstep c CNull) len) cs in ret (HRecord cs keys (len + 1) false next nexttotry, None)
        | CEndList | CIndex _ | CEndTuple =>
            if next =? -1 then fails (Err "needs 'field' or 'end_record'")
            else let! p := inner in ret (HRecord (upd cs (Z.to_nat next) (fst (snd p))) keys len true next nexttotry, None)
        | _ =>
            if next =? -1 then fails (Err "needs 'field' or 'end_record'")
            else
              let! p := inner in
              ret (HRecord (upd cs (Z.to_nat next) (if hactive (fst p) then fst (snd p) else hreturned (snd p))) keys len true next nexttotry, None)
        end
      else
        match k with
        | CBeginRecord => ret (HRecord cs keys (if len =? -1 then 0 else len) true (-1) 0, None)
        | _ => helsewhere b k
        end
  | HUnion tags index cs current =>     (* UnionBuilder.cpp:90-508 *)
      if current =? -1 then
        match k with
        | CNull => let! r := hoption_of b in ret (b, Some r)
        | CEndList | CIndex _ | CEndTuple | CField _ | CEndRecord => fails misplaced
        | _ =>
            match hchoose cs k with
            | Some i =>
                let! p := nth_comp (fun c => match c, k with
                                             | HInt g, CReal x =>      (* 178-183, 189-190 *)
                                                 let! g' := convert_buffer g in let! g' := append g' x in ret (g_length g, HReal g')
                                             | _, _ => let! r := hstep c k in ret (hlength c, fst r)
                                             end) cs i in
                let cs := upd cs (Z.to_nat i) (snd p) in
                if is_leaf k then
                  let! tags := append tags (int8 i) in
                  let! index := append index (fst p) in
                  ret (HUnion tags index cs (-1), None)
                else ret (HUnion tags index cs (int8 i), None)
            | None =>
                let! c := hfresh_for k in
                if is_leaf k then
                  let! tags := append tags (int8 (zlen cs)) in
                  let! index := append index 0 in
                  ret (HUnion tags index (cs ++ [c]) (-1), None)
                else ret (HUnion tags index (cs ++ [c]) (int8 (zlen cs)), None)
            end
        end
      else
        let! p := nth_comp (fun c => let! r := hstep c k in ret (hlength c, fst r)) cs current in
        let cs := upd cs (Z.to_nat current) (snd p) in
        if is_end k && negb (fst p =? hlength (snd p)) then
          let! tags := append tags current in
          let! index := append index (fst p) in
          ret (HUnion tags index cs (-1), None)
        else ret (HUnion tags index cs current, None)
  end.

(** clear(): UnknownBuilder.cpp:48-51, BoolBuilder.cpp:36-39, Int64Builder.cpp:43-46, Float64Builder.cpp:56-59,
    OptionBuilder.cpp:55-59, ListBuilder.cpp:48-53, TupleBuilder.cpp:56-64, RecordBuilder.cpp:81-95, UnionBuilder.cpp:61-68 *)
Definition clear_buffer (g : gbuf) : comp gbuf := clear_ o g.
Fixpoint hclear (b : hbuilder) : comp hbuilder :=
  match b with
  | HUnknown _ => ret (HUnknown 0)
  | HBool g => let! g := clear_buffer g in ret (HBool g)
  | HInt g => let! g := clear_buffer g in ret (HInt g)
  | HReal g => let! g := clear_buffer g in ret (HReal g)
  | HOption index c =>
      let! index := clear_buffer index in
      let! c := hclear c in
      ret (HOption index c)
  | HList offsets c begun =>
      let! offsets := clear_buffer offsets in
      let! offsets := append offsets 0 in
      let! c := hclear c in
      ret (HList offsets c begun)
  | HTuple cs _ _ _ => let! cs := map_comp hclear cs in ret (HTuple cs (-1) false (-1))
  | HRecord cs _ _ _ _ _ => let! cs := map_comp hclear cs in ret (HRecord cs [] (-1) false (-1) 0)
  | HUnion tags index cs current =>
      let! tags := clear_buffer tags in
      let! index := clear_buffer index in
      let! cs := map_comp hclear cs in
      ret (HUnion tags index cs current)
  end.

(** ** Snapshots *)
(** An array on the builder's own memory: the buffers with their lengths of that moment. *)
Inductive snap :=
| SUnknown (nullcount : Z)
| SBool (buffer : view)
| SInt (buffer : view)
| SReal (buffer : view)
| SOption (index : view) (content : snap)
| SList (offsets : view) (content : snap)
| STuple (contents : list snap) (len : Z)
| SRecord (contents : list snap) (keys : list string) (len : Z)
| SUnion (tags index : view) (contents : list snap).
(** snapshot(): UnknownBuilder.cpp:53-73, BoolBuilder.cpp:41-55, Int64Builder.cpp:48-63, Float64Builder.cpp:61-75,
    OptionBuilder.cpp:61-68, ListBuilder.cpp:55-62, TupleBuilder.cpp:66-83, RecordBuilder.cpp:97-121, UnionBuilder.cpp:70-83:
    what is taken from the builder *)
Fixpoint hsnapshot (b : hbuilder) : snap :=
  match b with
  | HUnknown n => SUnknown n
  | HBool g => SBool (snapshot_ g)
  | HInt g => SInt (snapshot_ g)
  | HReal g => SReal (snapshot_ g)
  | HOption index c => SOption (snapshot_ index) (hsnapshot c)
  | HList offsets c _ => SList (snapshot_ offsets) (hsnapshot c)
  | HTuple cs len _ _ => STuple (map hsnapshot cs) len
  | HRecord cs keys len _ _ _ => SRecord (map hsnapshot cs) keys len
  | HUnion tags index cs _ => SUnion (snapshot_ tags) (snapshot_ index) (map hsnapshot cs)
  end.
(** the items of a buffer, read from the memory of some moment *)
Definition read_view (h : mem) (v : view) : res (list Z) := mapres (getitem h (v_ptr v)) (zseq 0 (v_length v)).
(** The array that a reader sees in the memory of some moment: the same functions as above.  (simplify_optiontype and
    simplify_uniontype are called by snapshot(); some of the buffers of their results are new, others are the builder's.  Here all are read at the
    later moment.) *)
Variable refeq : content -> content -> bool.
Variable fuel : nat.
Fixpoint observe (h : mem) (s : snap) : res content :=
  match s with
  | SUnknown n => if n =? 0 then Ok Empty else if n <? 0 then UB else Ok (IndexedOption (repeat (-1) (Z.to_nat n)) Empty)
  | SBool v => let* l := read_view h v in Ok (Numpy DBool l)
  | SInt v => let* l := read_view h v in Ok (Numpy DInt l)
  | SReal v => let* l := read_view h v in Ok (Numpy DReal l)
  | SOption v c => let* index := read_view h v in let* c := observe h c in simplify_optiontype (IndexedOption index c)
  | SList v c => let* offsets := read_view h v in let* c := observe h c in mkListOffset offsets c
  | STuple cs len => if len =? -1 then Ok Empty else let* cs := mapres (observe h) cs in mkRecord None len cs
  | SRecord cs keys len =>
      if len =? -1 then Ok Empty
      else
        let* cs := mapres (observe h) cs in
        if zlen keys <? zlen cs then UB else mkRecord (Some (slice 0 (zlen cs) keys)) len cs
  | SUnion v w cs =>
      let* tags := read_view h v in
      let* index := read_view h w in
      let* cs := mapres (observe h) cs in
      let* u := mkUnion tags index cs in
      simplify_uniontype rc (fun _ => false) refeq fuel true false tags index cs
  end.

(** ** ArrayBuilder *)
(** what its user does: calls, clear() and snapshot() *)
Inductive event := ECall (k : call) | EClear | ESnapshot.
Record machine := mkMachine { m_mem : mem; m_builder : hbuilder; m_snaps : list snap }.
(** each method is maybeupdate(builder_->method()), ArrayBuilder.cpp:76-330; clear, ArrayBuilder.cpp:37-39; snapshot, ArrayBuilder.cpp:47-49 *)
Definition happens (m : machine) (e : event) : res machine :=
  match e with
  | ECall k => let* r := hstep (m_builder m) k (m_mem m) in Ok (mkMachine (fst r) (hreturned (snd r)) (m_snaps m))
  | EClear => let* r := hclear (m_builder m) (m_mem m) in Ok (mkMachine (fst r) (snd r) (m_snaps m))
  | ESnapshot => Ok (mkMachine (m_mem m) (m_builder m) (m_snaps m ++ [hsnapshot (m_builder m)]))
  end.
Fixpoint history (m : machine) (es : list event) : res machine :=
  match es with
  | [] => Ok m
  | e :: es => let* m := happens m e in history m es
  end.
(** ArrayBuilder::ArrayBuilder, ArrayBuilder.cpp:17-18 *)
Definition new_machine : machine := mkMachine [] (HUnknown 0) [].
End HBuilder.
