(** Writing arrays to JSON (tojson_part of the array classes, src/libawkward/io/json.cpp) and reading them (the Handler).

    The text itself is written and parsed by rapidjson, which is not part of the repository.  A text is represented by the
    calls made to its writer, or by the events its parser delivers: [token].
    Not modelled: complex numbers, strings (parameters are dropped), check_for_iteration (identities), the position in error
    messages, NumpyArray with several dimensions. *)
From Coq Require Import String.
From Verif Require Import Base Content KCore Core KOption Option KReduce Merge Builder SpecArray.
Local Open Scope string_scope.
Local Open Scope list_scope.
Local Open Scope Z_scope.

Inductive token :=
| TNull
| TBool (b : bool)
| TInt (z : Z)
| TReal (r : Z)          (* by its code (SpecArray.v) *)
| TString (s : string)
| TBeginList
| TEndList
| TBeginObject
| TKey (key : string)
| TEndObject
| TBroken.               (* rapidjson's Writer::Double refuses numbers that are not finite: nothing is written after the comma or colon *)

(** nan_string, infinity_string, minus_infinity_string: json.cpp:117-131 *)
Record options := { nan_string : option string; infinity_string : option string; minus_infinity_string : option string }.

Section Json.
(** std::isnan, std::isinf, std::signbit on the codes of real numbers; quiet_NaN(), infinity(), -infinity() *)
Variables (isnan isinf signbit : Z -> bool) (quiet_nan infinity minus_infinity : Z).

(** ** Writing *)
(** ToJsonString::real, json.cpp:139-154 (likewise ToJsonPrettyString 285-299, ToJsonFile, ToJsonPrettyFile) *)
Definition write_real (o : options) (x : Z) : token :=
  match nan_string o, isnan x with
  | Some s, true => TString s
  | _, _ =>
      match infinity_string o, isinf x && negb (signbit x) with
      | Some s, true => TString s
      | _, _ =>
          match minus_infinity_string o, isinf x && signbit x with
          | Some s, true => TString s
          | _, _ => if isnan x || isinf x then TBroken else TReal x
          end
      end
  end.
(** tojson_boolean, tojson_integer (which casts to int64_t), tojson_real of one item: NumpyArray.cpp:4827-4829, 4870-4872, 4913-4915 *)
Definition write_scalar (o : options) (dt : dtype) (x : Z) : token :=
  match dt with
  | DBool => TBool (negb (x =? 0))
  | DInt => TInt (wrap64 x)
  | DReal => write_real o x
  end.
(** beginlist, the items, endlist *)
Definition bracketed (include_beginendlist : bool) (l : list token) : list token :=
  if include_beginendlist then TBeginList :: l ++ [TEndList] else l.

Section Part.
  Variable item_tokens : item -> res (list token).
  (** for (i = 0; i < length(); i++) getitem_at_nowrap(i).get()->tojson_part(builder, true) *)
  Definition rows_tokens (c : content) : res (list token) :=
    let* ls := mapres (fun i => let* it := getitem_at_nowrap c i in item_tokens it) (zseq 0 (length_ c)) in Ok (concat ls).
  (** beginrecord, for each field its key and contents[j].getitem_at_nowrap(at).tojson_part(builder, true), endrecord *)
  Definition record_tokens (keys : option (list string)) (cs : list content) (at_ : Z) : res (list token) :=
    let* ls := mapres (fun j =>
                 match nthZ (record_keys keys (zlen cs)) j, nthZ cs j with
                 | Some key, Some c => let* it := getitem_at_nowrap c at_ in let* ts := item_tokens it in Ok (TKey key :: ts)
                 | _, _ => Err "out of range"
                 end) (zseq 0 (zlen cs)) in
    Ok (TBeginObject :: concat ls ++ [TEndObject]).
  (** tojson_part: BitMaskedArray.cpp:550-563, ByteMaskedArray.cpp:532-545, EmptyArray.cpp:266-273, IndexedArray.cpp:1169-1182,
      ListArray.cpp:566-579, ListOffsetArray.cpp:578-591, NumpyArray.cpp:1021-1088 with 4824-4949, RecordArray.cpp:685-711,
      RegularArray.cpp:529-541, UnionArray.cpp:996-1009, UnmaskedArray.cpp:454-457 *)
  Fixpoint tojson_part (o : options) (c : content) (include : bool) : res (list token) :=
    match c with
    | Empty => Ok (bracketed include [])
    | Numpy dt data => Ok (bracketed include (map (write_scalar o dt) data))
    | Unmasked c => tojson_part o c include
    | Record keys len cs =>
        let* ls := mapres (record_tokens keys cs) (zseq 0 len) in Ok (bracketed include (concat ls))
    | _ => let* l := rows_tokens c in Ok (bracketed include l)
    end.
End Part.
(** tojson_part of what getitem_at_nowrap returns; None.cpp:81-84, Record.cpp:127-144.  [fuel] bounds the nesting. *)
Fixpoint item_tokens (fuel : nat) (o : options) (it : item) : res (list token) :=
  match fuel with
  | O => UB
  | S fuel =>
      match it with
      | IScalar dt x => Ok [write_scalar o dt x]
      | INone => Ok [TNull]
      | IArray c => tojson_part (item_tokens fuel o) o c true
      | IRecord (Record keys _ cs) i => record_tokens (item_tokens fuel o) keys cs i
      | IRecord _ _ => UB
      end
  end.
(** Content::tojson, Content.cpp:820-880 *)
Definition tojson (fuel : nat) (o : options) (c : content) : res (list token) := tojson_part (item_tokens fuel o) o c true.

(** ** Reading *)
(** Handler: json.cpp:661-750.  Strings that are none of the three are not modelled. *)
Definition is_string (a : option string) (s : string) : bool := match a with Some t => (s =? t)%string | None => false end.
Definition handle (o : options) (t : token) : res call :=
  match t with
  | TNull => Ok CNull
  | TBool b => Ok (CBool b)
  | TInt z => Ok (CInt (wrap64 z))
  | TReal r => Ok (CReal r)
  | TString s =>
      if is_string (nan_string o) s then Ok (CReal quiet_nan)
      else if is_string (infinity_string o) s then Ok (CReal infinity)
      else if is_string (minus_infinity_string o) s then Ok (CReal minus_infinity)
      else Err "strings are not modelled"
  | TBeginList => Ok CBeginList
  | TEndList => Ok CEndList
  | TBeginObject => Ok CBeginRecord
  | TKey key => Ok (CField key)
  | TEndObject => Ok CEndRecord
  | TBroken => Err "not JSON"
  end.
Variable rc : Z -> Z.
Fixpoint feed (o : options) (b : builder) (ts : list token) : res builder :=
  match ts with
  | [] => Ok b
  | t :: ts => let* k := handle o t in let* r := step rc b k in feed o (returned r) ts
  end.
(** What follows the complete documents: white space only, or something the parser rejects after delivering [events];
    [at_end] says that it then stands at the end of the text. *)
Inductive rest := White | Rejected (events : list token) (at_end : bool).
(** do_parse, json.cpp:764-802; [docs] are the events of each complete document *)
Definition do_parse (refeq : content -> content -> bool) (fuel : nat) (o : options) (docs : list (list token)) (r : rest) : res item :=
  let* b := feed o new_builder (concat docs) in
  let* b := match r with
            | White => Ok b
            | Rejected events at_end =>
                let* b := feed o b events in
                match events with
                | [] => if at_end then Ok b else Err "JSON File error"
                | _ => if at_end then Err "incomplete JSON object at the end of the stream" else Err "JSON File error"
                end
            end in
  let* obj := snapshot rc refeq fuel b in
  if zlen docs =? 1 then getitem_at_nowrap obj 0 else Ok (IArray obj).
End Json.
