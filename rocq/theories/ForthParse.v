(** The AwkwardForth compiler: src/libawkward/forth/ForthMachine.cpp:1409-1488 (word classes), 1604-1708 (tokenize),
    1710-1737 (compile), 1739-2643 (parse).

    The token range [start, stop) of parse is the list of those tokens.  Line and column numbers only go into error
    messages and are not modelled; nor is input_must_be_writable_. *)
From Verif Require Import Base Forth.
Local Open Scope string_scope.
Local Open Scope list_scope.
Local Open Scope Z_scope.

(** ** tokenize, :1604-1708 *)
Definition is_blank (c : ascii) : bool :=       (* ' ' \r \t \v \f *)
  let n := nat_of_ascii c in
  (Nat.eqb n 32 || Nat.eqb n 13 || Nat.eqb n 9 || Nat.eqb n 11 || Nat.eqb n 12)%bool.
Definition is_newline (c : ascii) : bool := Nat.eqb (nat_of_ascii c) 10.
Definition newline : string := String (ascii_of_nat 10) "".
Definition quote : ascii := ascii_of_nat 34.
Definition backslash : ascii := ascii_of_nat 92.
Definition dot_quote : string := String "." (String quote "").
Definition s_quote : string := String "s" (String quote "").

Fixpoint of_chars (cs : list ascii) : string :=
  match cs with [] => "" | c :: t => String c (of_chars t) end.

(** :1658-1677: blanks before the string *)
Fixpoint skip_blank (cs : list ascii) (prev : ascii) : option (list ascii * ascii) :=
  match cs with
  | [] => None                                    (* "unclosed string" *)
  | c :: t => if (is_blank c || is_newline c)%bool then skip_blank t c else Some (cs, prev)
  end.

(** :1680-1692: the loop stops at a quote, and also after a backslash; returns the text and what follows *)
Fixpoint take_string (cs : list ascii) (prev : ascii) (acc : list ascii) : option (string * list ascii) :=
  match cs with
  | [] => None
  | c :: t =>
      if (Ascii.eqb c quote || Ascii.eqb prev backslash)%bool then Some (of_chars (rev acc), t)
      else take_string t c (c :: acc)
  end.

(** [cur] is the token being read, reversed; full = (cur <> []) *)
Definition flush (cur : list ascii) : list string :=
  match cur with [] => [] | _ => [of_chars (rev cur)] end.

Definition last_is_quote (toks : list string) (prev_last : string) : bool :=
  let l := List.last toks prev_last in (String.eqb l dot_quote || String.eqb l s_quote)%bool.

(** [lastt] is the last token pushed so far *)
Fixpoint tokenize (fuel : nat) (cs : list ascii) (cur : list ascii) (lastt : string) : res (list string) :=
  match cs with
  | [] => Ok (flush cur)
  | c :: t =>
      match fuel with
      | O => UB
      | S f =>
          let '(pushed, cur') :=
            if is_blank c then (flush cur, [])
            else if is_newline c then (flush cur ++ [newline], [])
            else ([], c :: cur) in
          if last_is_quote pushed lastt then
            match skip_blank t c with
            | None => Err "unclosed string after .quote or squote word"
            | Some (t', prev) =>
                match take_string t' prev [] with
                | None => Err "unclosed string after .quote or squote word"
                | Some (text, t'') =>
                    let* rest := tokenize f t'' [] text in Ok (pushed ++ text :: rest)
                end
            end
          else
            let* rest := tokenize f t cur' (List.last pushed lastt) in Ok (pushed ++ rest)
      end
  end.

Definition tokens (source : string) : res (list string) :=
  let cs := list_ascii_of_string source in tokenize (List.length cs) cs [] "".

(** ** Word classes *)
Definition digit (base : Z) (c : ascii) : option Z :=
  let n := Z.of_nat (nat_of_ascii c) in
  let d := if (48 <=? n) && (n <=? 57) then n - 48
           else if (97 <=? n) && (n <=? 122) then n - 87
           else if (65 <=? n) && (n <=? 90) then n - 55 else 99 in
  if d <? base then Some d else None.

Fixpoint digits (base : Z) (cs : list ascii) (acc : Z) : Z :=
  match cs with
  | c :: t => match digit base c with Some d => digits base t (base * acc + d) | None => acc end
  | [] => acc
  end.

(** std::stoul / std::stoi: [Ok None] is std::invalid_argument (no digits), [Err] is std::out_of_range *)
Definition strip_sign (cs : list ascii) : bool * list ascii :=
  match cs with
  | c :: t => if Ascii.eqb c "-" then (true, t) else if Ascii.eqb c "+" then (false, t) else (false, cs)
  | [] => (false, cs)
  end.
Definition strip_0x (base : Z) (cs : list ascii) : list ascii :=
  match cs with
  | a :: b :: c :: t =>
      if (base =? 16) && Ascii.eqb a "0" && (Ascii.eqb b "x" || Ascii.eqb b "X")
         && match digit 16 c with Some _ => true | None => false end
      then c :: t else cs
  | _ => cs
  end%bool.
Definition magnitude (base : Z) (cs : list ascii) : option (bool * Z) :=
  let '(neg, cs) := strip_sign cs in
  let cs := strip_0x base cs in
  match cs with
  | c :: _ => match digit base c with Some _ => Some (neg, digits base cs 0) | None => None end
  | [] => None
  end.
Definition stoul (base : Z) (cs : list ascii) : res (option Z) :=
  match magnitude base cs with
  | None => Ok None
  | Some (neg, v) => if 2^64 <=? v then Err "stoul: out of range"
                     else Ok (Some (wrapU 64 (if neg then - v else v)))
  end.
Definition stoi (cs : list ascii) : res (option Z) :=
  match magnitude 10 cs with
  | None => Ok None
  | Some (neg, v) => let v := if neg then - v else v in
                     if fits 32 v then Ok (Some v) else Err "stoi: out of range"
  end.

(** is_integer, :1409-1431: the value as int64 *)
Definition is_integer (word : string) : res (option Z) :=
  let cs := list_ascii_of_string word in
  let* r := match cs with
            | a :: b :: t => if (Ascii.eqb a "0" && Ascii.eqb b "x")%bool then stoul 16 t else stoul 10 cs
            | _ => stoul 10 cs
            end in
  Ok (match r with Some v => Some (wrapS 64 v) | None => None end).

(** the characters before a suffix *)
Fixpoint strip_suffix (suffix cs : list ascii) : option (list ascii) :=
  if list_eq_dec ascii_dec cs suffix then Some []
  else match cs with
       | c :: t => match strip_suffix suffix t with Some r => Some (c :: r) | None => None end
       | [] => None
       end.
Definition strip_char (c : ascii) (cs : list ascii) : list ascii :=
  match cs with a :: t => if Ascii.eqb a c then t else cs | [] => cs end.

(** is_nbit, :1454-1484 *)
Definition is_nbit (cs : list ascii) : res (option Z) :=
  let cs := strip_char "!" (strip_char "#" cs) in
  match strip_suffix (list_ascii_of_string "bit->") cs with
  | Some (a :: t) =>
      let* r := stoi (a :: t) in
      Ok (match r with Some v => if (0 <? v) && (v <=? 64) then Some v else None | None => None end)
  | _ => Ok None
  end.

(** :109-164 *)
Definition reserved_words : list string :=
  ["("; ")"; String backslash ""; newline; ""; ":"; ";"; "recurse"; "variable"; "input"; "output"; "halt"; "pause";
   "if"; "then"; "else"; "do"; "loop"; "+loop"; "begin"; "again"; "until"; "while"; "repeat"; "exit"; "!"; "+!"; "@";
   "len"; "pos"; "end"; "seek"; "skip"; "<-"; "+<-"; "stack"; "rewind"; dot_quote; s_quote].
Definition input_parser_words : list string :=
  ["?->"; "b->"; "h->"; "i->"; "q->"; "n->"; "B->"; "H->"; "I->"; "Q->"; "N->"; "f->"; "d->"; "varint->"; "zigzag->";
   "!h->"; "!i->"; "!q->"; "!n->"; "!H->"; "!I->"; "!Q->"; "!N->"; "!f->"; "!d->";
   "#?->"; "#b->"; "#h->"; "#i->"; "#q->"; "#n->"; "#B->"; "#H->"; "#I->"; "#Q->"; "#N->"; "#f->"; "#d->";
   "#varint->"; "#zigzag->";
   "#!h->"; "#!i->"; "#!q->"; "#!n->"; "#!H->"; "#!I->"; "#!Q->"; "#!N->"; "#!f->"; "#!d->"].
Definition output_dtype_words : list (string * odtype) :=
  [("bool", OBool); ("int8", OInt true 8); ("int16", OInt true 16); ("int32", OInt true 32); ("int64", OInt true 64);
   ("uint8", OInt false 8); ("uint16", OInt false 16); ("uint32", OInt false 32); ("uint64", OInt false 64);
   ("float32", OFloat 32); ("float64", OFloat 64)].
(** :166-214 *)
Definition generic_builtin_words : list (string * Z) :=
  [(".", 26); ("cr", 27); (".s", 28); ("i", 29); ("j", 30); ("k", 31); ("dup", 32); ("drop", 33); ("swap", 34);
   ("over", 35); ("rot", 36); ("nip", 37); ("tuck", 38); ("+", 39); ("-", 40); ("*", 41); ("/", 42); ("mod", 43);
   ("/mod", 44); ("negate", 45); ("1+", 46); ("1-", 47); ("abs", 48); ("min", 49); ("max", 50); ("=", 51); ("<>", 52);
   (">", 53); (">=", 54); ("<", 55); ("<=", 56); ("0=", 57); ("invert", 58); ("and", 59); ("or", 60); ("xor", 61);
   ("lshift", 62); ("rshift", 63); ("false", 64); ("true", 65)].

Fixpoint assoc {A} (w : string) (l : list (string * A)) : option A :=
  match l with
  | (k, v) :: t => if String.eqb k w then Some v else assoc w t
  | [] => None
  end.
Definition mem (w : string) (l : list string) : bool := existsb (String.eqb w) l.

(** position of a name *)
Fixpoint index_of (w : string) (l : list string) (i : Z) : option Z :=
  match l with
  | k :: t => if String.eqb k w then Some i else index_of w t (i + 1)
  | [] => None
  end.

(** ** What parse builds *)
Record pst := mkPst {
  p_vars : list string;
  p_ins : list string;
  p_outs : list (string * odtype);
  p_dict : list (string * Z);            (* dictionary_names_ and dictionary_bytecodes_ *)
  p_strings : list string;
  p_segs : list (list Z)                 (* dictionary *)
}.

(** is_reserved, :1486-1500 *)
Definition is_reserved (w : string) : res bool :=
  let* n := is_nbit (list_ascii_of_string w) in
  match n with
  | Some _ => Ok true
  | None => Ok (mem w reserved_words || mem w input_parser_words
                || mem w (map fst output_dtype_words) || mem w (map fst generic_builtin_words))%bool
  end.

(** the check made for every new name, e.g. :1814-1823 *)
Definition name_taken (p : pst) (w : string) : res bool :=
  if (mem w (p_ins p) || mem w (map fst (p_outs p)) || mem w (p_vars p) || mem w (map fst (p_dict p)))%bool then Ok true
  else let* r := is_reserved w in
       if r then Ok true
       else let* n := is_integer w in Ok (match n with Some _ => true | None => false end).

Definition add_var w p := mkPst (p_vars p ++ [w]) (p_ins p) (p_outs p) (p_dict p) (p_strings p) (p_segs p).
Definition add_in w p := mkPst (p_vars p) (p_ins p ++ [w]) (p_outs p) (p_dict p) (p_strings p) (p_segs p).
Definition add_out w t p := mkPst (p_vars p) (p_ins p) (p_outs p ++ [(w, t)]) (p_dict p) (p_strings p) (p_segs p).
Definition add_dict w c p := mkPst (p_vars p) (p_ins p) (p_outs p) (p_dict p ++ [(w, c)]) (p_strings p) (p_segs p).
Definition add_string w p := mkPst (p_vars p) (p_ins p) (p_outs p) (p_dict p) (p_strings p ++ [w]) (p_segs p).
Definition set_segs v p := mkPst (p_vars p) (p_ins p) (p_outs p) (p_dict p) (p_strings p) v.

(** ** Scans for the matching end.  They return the position, in the list given, of the closing token. *)
(** ( ... ), :1762-1781 *)
Fixpoint scan_paren (ts : list string) (i : nat) (nesting : nat) : option nat :=
  match ts with
  | [] => None
  | w :: t =>
      let n := if String.eqb w "(" then S nesting else if String.eqb w ")" then Nat.pred nesting else nesting in
      match n with O => Some i | _ => scan_paren t (S i) n end
  end.
(** : name ... ;, :1827-1844 *)
Fixpoint scan_colon (ts : list string) (i : nat) (nesting : nat) : option nat :=
  match ts with
  | [] => None
  | w :: t =>
      let n := if String.eqb w ":" then S nesting else if String.eqb w ";" then Nat.pred nesting else nesting in
      match n with O => Some i | _ => scan_colon t (S i) n end
  end.
(** if ... else ... then, :1988-2010 *)
Fixpoint scan_if (ts : list string) (i : nat) (nesting : nat) (subelse : option nat) : option (nat * option nat) :=
  match ts with
  | [] => None
  | w :: t =>
      if String.eqb w "if" then scan_if t (S i) (S nesting) subelse
      else if String.eqb w "then" then
        match Nat.pred nesting with O => Some (i, subelse) | n => scan_if t (S i) n subelse end
      else if (String.eqb w "else" && Nat.eqb nesting 1)%bool then scan_if t (S i) nesting (Some i)
      else scan_if t (S i) nesting subelse
  end.
(** do ... loop, :2070-2094 *)
Fixpoint scan_do (ts : list string) (i : nat) (nesting : nat) : option (nat * bool) :=
  match ts with
  | [] => None
  | w :: t =>
      if String.eqb w "do" then scan_do t (S i) (S nesting)
      else if String.eqb w "loop" then
        match Nat.pred nesting with O => Some (i, false) | n => scan_do t (S i) n end
      else if String.eqb w "+loop" then
        match Nat.pred nesting with O => Some (i, true) | n => scan_do t (S i) n end
      else scan_do t (S i) nesting
  end.
(** begin ... until / again / while ... repeat, :2124-2169.  [sub] > 0 inside the inner loop over while ... repeat. *)
Fixpoint scan_begin (ts : list string) (i : nat) (nesting : nat) (sub : nat) (again : bool) (subwhile : option nat)
    : option (nat * bool * option nat) :=
  match ts with
  | [] => None
  | w :: t =>
      match sub with
      | S _ =>
          if String.eqb w "while" then scan_begin t (S i) nesting (S sub) again subwhile
          else if String.eqb w "repeat" then
            match Nat.pred sub with
            | O => match nesting with O => Some (i, again, subwhile) | _ => scan_begin t (S i) nesting 0 again subwhile end
            | sub' => scan_begin t (S i) nesting sub' again subwhile
            end
          else scan_begin t (S i) nesting sub again subwhile
      | O =>
          if String.eqb w "begin" then scan_begin t (S i) (S nesting) 0 again subwhile
          else if String.eqb w "until" then
            match Nat.pred nesting with O => Some (i, again, subwhile) | n => scan_begin t (S i) n 0 again subwhile end
          else if String.eqb w "again" then
            let again := if Nat.eqb nesting 1 then true else again in
            match Nat.pred nesting with O => Some (i, again, subwhile) | n => scan_begin t (S i) n 0 again subwhile end
          else if String.eqb w "while" then
            let subwhile := if Nat.eqb nesting 1 then Some i else subwhile in
            scan_begin t (S i) (Nat.pred nesting) 1 again subwhile
          else scan_begin t (S i) nesting 0 again subwhile
      end
  end.

(** to the end of the line, :1786-1791 *)
Fixpoint skip_line (ts : list string) : list string :=
  match ts with
  | [] => []
  | w :: t => if String.eqb w newline then t else skip_line t
  end.

(** ** The parser words of an input, :2304-2461: flags, bit width and the rest (the target comes after) *)
Definition fixed_format (c : ascii) : option Z :=
  match c with
  | "?"%char => Some 8 | "b"%char => Some 16 | "h"%char => Some 24 | "i"%char => Some 32 | "q"%char => Some 40
  | "n"%char => Some 48 | "B"%char => Some 56 | "H"%char => Some 64 | "I"%char => Some 72 | "Q"%char => Some 80
  | "N"%char => Some 88 | "f"%char => Some 96 | "d"%char => Some 104 | _ => None
  end.
Definition starts_with (c : ascii) (cs : list ascii) : bool := match cs with a :: _ => Ascii.eqb a c | [] => false end.

Definition parser_word (w : string) : res (option (Z * Z)) :=       (* (bytecode, nbits) *)
  let cs := list_ascii_of_string w in
  let rep := starts_with "#" cs in
  let cs := strip_char "#" cs in
  let big := starts_with "!" cs in
  let cs := strip_char "!" cs in
  let flags := (if rep then 2 else 0) + (if big then 4 else 0) in
  match cs with
  | [] => Ok None
  | c :: t =>
      if String.eqb (of_chars cs) "varint->" then Ok (Some (flags + READ_VARINT, 0))
      else if String.eqb (of_chars cs) "zigzag->" then Ok (Some (flags + READ_ZIGZAG, 0))
      else
        let* n := is_nbit cs in
        match n with
        | Some n => Ok (Some (flags + READ_NBIT, n))
        | None =>
            match fixed_format c with
            | Some f => Ok (if String.eqb (of_chars t) "->" then Some (flags + f, 0) else None)
            | None => Ok None
            end
        end
  end.

(** "only allowed in a 'do' loop", :2580-2597 *)
Definition loop_index_ok (w : string) (dodepth : Z) : bool :=
  negb ((String.eqb w "i" && (dodepth <? 1)) || (String.eqb w "j" && (dodepth <? 2))
        || (String.eqb w "k" && (dodepth <? 3)))%bool.

(** bytecodes of all definitions with this name (recurse, :1868-1872) *)
Fixpoint all_defs (w : string) (l : list (string * Z)) : list Z :=
  match l with
  | (k, v) :: t => if String.eqb k w then v :: all_defs w t else all_defs w t
  | [] => []
  end.

(** ** parse, :1739-2643 *)
Fixpoint parse (fuel : nat) (defn : string) (ts : list string) (code : list Z) (exitdepth dodepth : Z) (p : pst)
    {struct fuel} : res (list Z * pst) :=
  match fuel with
  | O => UB
  | S f =>
  match ts with
  | [] => Ok (code, p)
  | w :: t =>
      (* a new segment: dictionary.push_back({}), parse, dictionary[n] = result; the bytecode that runs it *)
      let segment := fun (body : list string) (dd : Z) (p : pst) (k : Z -> pst -> res (list Z * pst)) =>
        let n := List.length (p_segs p) in
        let* r := parse f defn body [] (exitdepth + 1) dd (set_segs (p_segs p ++ [[]]) p) in
        k (Z.of_nat n + BOUND_DICTIONARY) (set_segs (upd (p_segs (snd r)) n (fst r)) (snd r)) in
      let continue := fun (t : list string) (code : list Z) (p : pst) => parse f defn t code exitdepth dodepth p in
      if String.eqb w "(" then
        match scan_paren t 0 1 with
        | None => Err "'(' is missing its closing ')'"
        | Some i => continue (skipn (S i) t) code p
        end
      else if String.eqb w (String backslash "") then continue (skip_line t) code p
      else if String.eqb w newline then continue t code p
      else if String.eqb w "" then continue t code p
      else if String.eqb w ":" then
        match t with
        | [] => Err "missing name in word definition"
        | name :: t' =>
            if String.eqb name ";" then Err "missing name in word definition" else
            let* taken := name_taken p name in
            if taken then Err "names must all be unique and not reserved words or integers" else
            match scan_colon t' 0 1 with
            | None => Err "definition is missing its closing ';'"
            | Some i =>
                let n := List.length (p_segs p) in
                let bytecode := Z.of_nat n + BOUND_DICTIONARY in
                let p := set_segs (p_segs p ++ [[]]) (add_dict name bytecode p) in
                let* r := parse f name (firstn i t') [] 0 0 p in
                continue (skipn (S i) t') code (set_segs (upd (p_segs (snd r)) n (fst r)) (snd r))
            end
        end
      else if String.eqb w "recurse" then
        if String.eqb defn "" then Err "only allowed in a ': name ... ;' definition"
        else continue t (code ++ all_defs defn (p_dict p)) p
      else if String.eqb w "variable" then
        match t with
        | [] => Err "missing name in variable declaration"
        | name :: t' =>
            let* taken := name_taken p name in
            if taken then Err "names must all be unique and not reserved words or integers"
            else continue t' code (add_var name p)
        end
      else if String.eqb w "input" then
        match t with
        | [] => Err "missing name in input declaration"
        | name :: t' =>
            let* taken := name_taken p name in
            if taken then Err "names must all be unique and not reserved words or integers"
            else continue t' code (add_in name p)
        end
      else if String.eqb w "output" then
        match t with
        | name :: dt :: t' =>
            let* taken := name_taken p name in
            if taken then Err "names must all be unique and not reserved words or integers"
            else match assoc dt output_dtype_words with
                 | None => Err "output dtype not recognized"
                 | Some ty => continue t' code (add_out name ty p)
                 end
        | _ => Err "missing name or dtype in output declaration"
        end
      else if String.eqb w "halt" then continue t (code ++ [CODE_HALT]) p
      else if String.eqb w "pause" then continue t (code ++ [CODE_PAUSE]) p
      else if String.eqb w "if" then
        match scan_if t 0 1 None with
        | None => Err "'if' is missing its closing 'then'"
        | Some (i, None) =>
            segment (firstn i t) dodepth p (fun c p =>
              continue (skipn (S i) t) (code ++ [CODE_IF; c]) p)
        | Some (i, Some j) =>
            segment (firstn j t) dodepth p (fun c1 p =>
            segment (firstn (i - S j) (skipn (S j) t)) dodepth p (fun c2 p =>
              continue (skipn (S i) t) (code ++ [CODE_IF_ELSE; c1; c2]) p))
        end
      else if String.eqb w "do" then
        match scan_do t 0 1 with
        | None => Err "'do' is missing its closing 'loop'"
        | Some (i, is_step) =>
            segment (firstn i t) (dodepth + 1) p (fun c p =>
              continue (skipn (S i) t) (code ++ [if is_step then CODE_DO_STEP else CODE_DO; c]) p)
        end
      else if String.eqb w "begin" then
        match scan_begin t 0 1 0 false None with
        | None => Err "'begin' is missing its closing word"
        | Some (i, true, _) =>
            segment (firstn i t) dodepth p (fun c p =>
              continue (skipn (S i) t) (code ++ [c; CODE_AGAIN]) p)
        | Some (i, false, None) =>
            segment (firstn i t) dodepth p (fun c p =>
              continue (skipn (S i) t) (code ++ [c; CODE_UNTIL]) p)
        | Some (i, false, Some j) =>
            segment (firstn j t) dodepth p (fun c1 p =>
            segment (firstn (i - S j) (skipn (S j) t)) dodepth p (fun c2 p =>
              continue (skipn (S i) t) (code ++ [c1; CODE_WHILE; c2]) p))
        end
      else if String.eqb w "exit" then continue t (code ++ [CODE_EXIT; wrapS 32 exitdepth]) p
      else match index_of w (p_vars p) 0 with
      | Some n =>
          match t with
          | a :: t' => if String.eqb a "!" then continue t' (code ++ [CODE_PUT; n]) p
                       else if String.eqb a "+!" then continue t' (code ++ [CODE_INC; n]) p
                       else if String.eqb a "@" then continue t' (code ++ [CODE_GET; n]) p
                       else Err "missing '!', '+!', or '@' after variable name"
          | [] => Err "missing '!', '+!', or '@' after variable name"
          end
      | None =>
      match index_of w (p_ins p) 0 with
      | Some n =>
          match t with
          | a :: t' =>
              if String.eqb a "len" then continue t' (code ++ [CODE_LEN_INPUT; n]) p
              else if String.eqb a "pos" then continue t' (code ++ [CODE_POS; n]) p
              else if String.eqb a "end" then continue t' (code ++ [CODE_END; n]) p
              else if String.eqb a "seek" then continue t' (code ++ [CODE_SEEK; n]) p
              else if String.eqb a "skip" then continue t' (code ++ [CODE_SKIP; n]) p
              else
                let* r := parser_word a in
                match r with
                | None => Err "missing '*-> stack/output', 'seek', 'skip', 'end', 'pos', or 'len' after input name"
                | Some (bytecode, nbits) =>
                    let width := if 0 <? nbits then [nbits] else [] in
                    match t' with
                    | b :: t'' =>
                        if String.eqb b "stack" then
                          continue t'' (code ++ [Z.lnot bytecode; n] ++ width) p
                        else match index_of b (map fst (p_outs p)) 0 with
                             | Some o => continue t'' (code ++ [Z.lnot (bytecode + 1); n] ++ width ++ [o]) p
                             | None => Err "missing 'stack' or 'output' after '*->'"
                             end
                    | [] => Err "missing 'stack' or 'output' after '*->'"
                    end
                end
          | [] => Err "missing '*-> stack/output', 'seek', 'skip', 'end', 'pos', or 'len' after input name"
          end
      | None =>
      match index_of w (map fst (p_outs p)) 0 with
      | Some n =>
          match t with
          | a :: t' =>
              if String.eqb a "<-" then
                match t' with
                | b :: t'' => if String.eqb b "stack" then continue t'' (code ++ [CODE_WRITE; n]) p
                              else Err "missing 'stack' after '<-'"
                | [] => Err "missing 'stack' after '<-'"
                end
              else if String.eqb a "+<-" then
                match t' with
                | b :: t'' => if String.eqb b "stack" then continue t'' (code ++ [CODE_WRITE_ADD; n]) p
                              else Err "missing 'stack' after '+<-'"
                | [] => Err "missing 'stack' after '+<-'"
                end
              else if String.eqb a "dup" then continue t' (code ++ [CODE_WRITE_DUP; n]) p
              else if String.eqb a "len" then continue t' (code ++ [CODE_LEN_OUTPUT; n]) p
              else if String.eqb a "rewind" then continue t' (code ++ [CODE_REWIND; n]) p
              else Err "missing '<- stack', '+<- stack', 'dup', 'len', or 'rewind' after output name"
          | [] => Err "missing '<- stack', '+<- stack', 'dup', 'len', or 'rewind' after output name"
          end
      | None =>
      if String.eqb w s_quote then
        match t with
        | a :: t' => continue t' (code ++ [CODE_STRING; zlen (p_strings p)]) (add_string a p)
        | [] => Err "unclosed string after s-quote word"
        end
      else if String.eqb w dot_quote then
        match t with
        | a :: t' => continue t' (code ++ [CODE_PRINT_STRING; zlen (p_strings p)]) (add_string a p)
        | [] => Err "unclosed string after .-quote word"
        end
      else
      match assoc w generic_builtin_words with
      | Some b =>
          if loop_index_ok w dodepth then continue t (code ++ [b]) p else Err "only allowed in a 'do' loop"
      | None =>
      match assoc w (p_dict p) with
      | Some b => continue t (code ++ [b]) p
      | None =>
          let* n := is_integer w in
          match n with
          | Some num => continue t (code ++ [CODE_LITERAL; wrapS 32 num]) p
          | None => Err "unrecognized word or wrong context for word"
          end
      end end end end end
  end end.

(** ** compile, :1710-1737 *)
Definition compile_tokens (ts : list string) : res (pst) :=
  let* r := parse (S (List.length ts)) "" ts [] 0 0 (mkPst [] [] [] [] [] [[]]) in
  Ok (set_segs (upd (p_segs (snd r)) 0 (fst r)) (snd r)).

Fixpoint offsets_of (segs : list (list Z)) (start : Z) : list Z :=
  match segs with
  | [] => [start]
  | s :: t => start :: offsets_of t (start + zlen s)
  end.

(** What the constructor is given besides the source: ForthMachine.cpp:217-221, and the conversions of Forth.v *)
Record options := mkOptions {
  o_width : Z; o_stackmax : Z; o_recmax : Z; o_outinit : Z; o_grow : Z -> Z;
  o_f2i : list Z -> option Z; o_f2o : odtype -> list Z -> option Z; o_i2f : Z -> Z -> Z; o_fadd : Z -> Z -> Z -> Z }.

Definition machine_of (o : options) (p : pst) : machine :=
  mkMachine (o_width o) (concat (p_segs p)) (offsets_of (p_segs p) 0) (map snd (p_dict p)) (zlen (p_vars p))
    (map snd (p_outs p)) (zlen (p_strings p)) (o_stackmax o) (o_recmax o) (o_outinit o) (o_grow o)
    (o_f2i o) (o_f2o o) (o_i2f o) (o_fadd o).

Definition compile (o : options) (source : string) : res (pst * machine) :=
  let* ts := tokens source in
  let* p := compile_tokens ts in
  Ok (p, machine_of o p).
