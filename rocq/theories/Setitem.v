(** A new field for every record: RecordArray::setitem_field, the method setitem_field of ak.layout.RecordArray.
    Not modelled: identities, parameters, caches. *)
From Verif Require Import Base Content Combinations.
From Coq Require Import String DecimalString.
From Coq Require Import List.
Import ListNotations.
Local Open Scope string_scope.
Local Open Scope list_scope.
Local Open Scope Z_scope.

(** std::to_string of an integer that is not negative *)
Definition to_string (n : nat) : string := NilEmpty.string_of_uint (Nat.to_uint n).
(** util::init_recordlookup: util.cpp:497-503 *)
Definition init_recordlookup (numfields : nat) : list string := map to_string (seq 0 numfields).

(** the loops of RecordArray.cpp:452-457 and 464-469: [what] before element [where_] *)
Fixpoint insert_loop {A} (where_ i : Z) (what : A) (l : list A) : list A :=
  match l with
  | [] => []
  | x :: t => (if where_ =? i then [what] else []) ++ x :: insert_loop where_ (i + 1) what t
  end.
(** RecordArray.cpp:458-460 and 470-472 *)
Definition insert_at {A} (where_ : Z) (what : A) (l : list A) : list A :=
  insert_loop where_ 0 what l ++ (if zlen l <=? where_ then [what] else []).

(** setitem_field(int64_t): RecordArray.cpp:440-482 *)
Definition setitem_at (where_ : Z) (what : content) (c : content) : res content :=
  match c with
  | Record names len cs =>
      if where_ <? 0 then Err "where must be non-negative"
      else if negb (length_ what =? len) then Err "array cannot be assigned to record array of another length"
      else
        let contents := insert_at where_ what cs in
        let lookup := match names with Some ks => Some (insert_at where_ (to_string (Z.to_nat where_)) ks) | None => None end in
        mkRecord lookup (minlength contents) contents
  | _ => UB (* a method of RecordArray only *)
  end.
(** setitem_field(std::string): RecordArray.cpp:485-515 *)
Definition setitem_key (key : string) (what : content) (c : content) : res content :=
  match c with
  | Record names len cs =>
      if negb (length_ what =? len) then Err "array cannot be assigned to record array of another length"
      else
        let contents := cs ++ [what] in
        let lookup := (match names with Some ks => ks | None => init_recordlookup (length cs) end) ++ [key] in
        mkRecord (Some lookup) (minlength contents) contents
  | _ => UB
  end.
