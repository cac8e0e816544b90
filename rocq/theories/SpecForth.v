(** What the words of AwkwardForth mean, independently of the machine.  Stacks are written with the top first. *)
From Verif Require Import Base.
Local Open Scope string_scope.
Local Open Scope list_scope.
Local Open Scope Z_scope.

(** A number of the stack type: signed, [bits] wide (32 or 64) *)
Definition cell (bits n : Z) : Prop := - 2^(bits-1) <= n < 2^(bits-1).

Definition flag (P : bool) : Z := if P then -1 else 0.

(** the number of the stack type congruent to n *)
Definition to_cell (bits n : Z) : Z := (n + 2^(bits-1)) mod 2^bits - 2^(bits-1).

Definition spec1 (f : Z -> Z) (st : list Z) : option (list Z) :=
  match st with a :: r => Some (f a :: r) | _ => None end.
Definition spec2 (f : Z -> Z -> Z) (st : list Z) : option (list Z) :=
  match st with b :: a :: r => Some (f a b :: r) | _ => None end.
(** a divisor of zero has no result *)
Definition spec_div (f : Z -> Z -> list Z) (st : list Z) : option (list Z) :=
  match st with b :: a :: r => if b =? 0 then None else Some (f a b ++ r) | _ => None end.
(** a shift by a number of bits which is not one of the cell has no result *)
Definition spec_shift (bits : Z) (f : Z -> Z -> Z) (st : list Z) : option (list Z) :=
  match st with b :: a :: r => if (0 <=? b) && (b <? bits) then Some (f a b :: r) else None | _ => None end.

(** Standard Forth.  [None]: the stack is too short (or the operands have no result). *)
Definition word_specs (bits : Z) : list (string * (list Z -> option (list Z))) :=
  [ ("dup",  fun st => match st with a :: r => Some (a :: a :: r) | _ => None end);
    ("drop", fun st => match st with a :: r => Some r | _ => None end);
    ("swap", fun st => match st with b :: a :: r => Some (a :: b :: r) | _ => None end);
    ("over", fun st => match st with b :: a :: r => Some (a :: b :: a :: r) | _ => None end);
    ("rot",  fun st => match st with c :: b :: a :: r => Some (a :: c :: b :: r) | _ => None end);
    ("nip",  fun st => match st with b :: a :: r => Some (b :: r) | _ => None end);
    ("tuck", fun st => match st with b :: a :: r => Some (b :: a :: b :: r) | _ => None end);
    ("+", spec2 (fun a b => a + b));
    ("-", spec2 (fun a b => a - b));
    ("*", spec2 (fun a b => a * b));
    ("/", spec_div (fun a b => [a / b]));                     (* rounded down *)
    ("mod", spec_div (fun a b => [a mod b]));                 (* the sign of the divisor *)
    ("/mod", spec_div (fun a b => [a / b; a mod b]));
    ("negate", spec1 (fun a => - a));
    ("1+", spec1 (fun a => a + 1));
    ("1-", spec1 (fun a => a - 1));
    ("abs", spec1 Z.abs);
    ("min", spec2 Z.min);
    ("max", spec2 Z.max);
    ("=", spec2 (fun a b => flag (a =? b)));
    ("<>", spec2 (fun a b => flag (negb (a =? b))));
    (">", spec2 (fun a b => flag (a >? b)));
    (">=", spec2 (fun a b => flag (a >=? b)));
    ("<", spec2 (fun a b => flag (a <? b)));
    ("<=", spec2 (fun a b => flag (a <=? b)));
    ("0=", spec1 (fun a => flag (a =? 0)));
    ("invert", spec1 (fun a => -1 - a));
    ("and", spec2 Z.land);
    ("or", spec2 Z.lor);
    ("xor", spec2 Z.lxor);
    ("lshift", spec_shift bits (fun a b => to_cell bits (a * 2^b)));
    ("rshift", spec_shift bits (fun a b => to_cell bits (a mod 2^bits / 2^b)));      (* zeros come in *)
    ("false", fun st => Some (0 :: st));
    ("true", fun st => Some (-1 :: st)) ].

(** The operands for which the machine's own computation stays inside the stack type (besides the result): the
    remainder is taken of divisor + (dividend rem divisor), and the least number over -1 is not attempted; rshift of a
    negative number is not the standard's. *)
Definition tame (bits : Z) (w : string) (st : list Z) : Prop :=
  match st with
  | b :: a :: _ =>
      ((w = "mod" \/ w = "/mod") -> cell bits (a / b) /\ cell bits (b + Z.rem a b))
      /\ (w = "rshift" -> 0 <= a)
  | _ => True
  end.

(** A program of such words, run from left to right in a stack of at most [max] cells *)
Inductive words_run (bits max : Z) : list string -> list Z -> list Z -> Prop :=
| run_nil : forall st, words_run bits max [] st st
| run_cons : forall w f ws st st1 st2,
    In (w, f) (word_specs bits) -> f st = Some st1 -> Forall (cell bits) st1 -> zlen st1 <= max -> tame bits w st ->
    words_run bits max ws st1 st2 -> words_run bits max (w :: ws) st st2.

(** How many cells a word takes *)
Definition word_needs : list (string * Z) :=
  [ ("dup", 1); ("drop", 1); ("swap", 2); ("over", 2); ("rot", 3); ("nip", 2); ("tuck", 2); ("+", 2); ("-", 2);
    ("*", 2); ("/", 2); ("mod", 2); ("/mod", 2); ("negate", 1); ("1+", 1); ("1-", 1); ("abs", 1); ("min", 2);
    ("max", 2); ("=", 2); ("<>", 2); (">", 2); (">=", 2); ("<", 2); ("<=", 2); ("0=", 1); ("invert", 1); ("and", 2);
    ("or", 2); ("xor", 2); ("lshift", 2); ("rshift", 2); ("false", 0); ("true", 0) ].

(** ** Numbers in an input *)
Definition is_byte (b : Z) : Prop := 0 <= b < 256.

(** least significant byte first; most significant byte first *)
Fixpoint little (bs : list Z) : Z := match bs with [] => 0 | b :: t => b + 256 * little t end.
Definition big (bs : list Z) : Z := little (rev bs).

(** [varint bs v]: the bytes [bs] are the variable-length encoding of v: seven bits in each byte, the least
    significant first; the top bit is set in all bytes but the last *)
Inductive varint : list Z -> Z -> Prop :=
| varint_last : forall b, 0 <= b < 128 -> varint [b] b
| varint_more : forall b bs v, 0 <= b < 128 -> varint bs v -> varint ((b + 128) :: bs) (b + 128 * v).

(** zigzag: 0, -1, 1, -2, 2, ... are 0, 1, 2, 3, 4, ... *)
Definition zigzag (n : Z) : Z := if 0 <=? n then 2 * n else -2 * n - 1.

(** the j-th field of w bits of a number, counting from the least significant one *)
Definition field (w j n : Z) : Z := n / 2^(w * j) mod 2^w.

(** a byte with its bits in the opposite order *)
Definition mirror (b : Z) : Z :=
  128 * (b mod 2) + 64 * (b / 2 mod 2) + 32 * (b / 4 mod 2) + 16 * (b / 8 mod 2)
  + 8 * (b / 16 mod 2) + 4 * (b / 32 mod 2) + 2 * (b / 64 mod 2) + b / 128 mod 2.

(** the integer stored in some bytes *)
Definition integer (signed bigendian : bool) (bs : list Z) : Z :=
  let u := if bigendian then big bs else little bs in
  if signed then to_cell (8 * zlen bs) u else u.

(** the letters of the reading words, the number of bytes of an item and what they mean *)
Definition letters : list (string * Z * (bool -> list Z -> Z)) :=
  [ ("?", 1, fun _ bs => if little bs =? 0 then 0 else 1);
    ("b", 1, integer true); ("h", 2, integer true); ("i", 4, integer true); ("q", 8, integer true); ("n", 8, integer true);
    ("B", 1, integer false); ("H", 2, integer false); ("I", 4, integer false); ("Q", 8, integer false); ("N", 8, integer false) ].

(** # takes the number of items from the stack; ! is big-endian *)
Definition reading_word (rep bigendian : bool) (letter : string) : string :=
  ((if rep then "#" else "") ++ (if bigendian then "!" else "") ++ letter ++ "->")%string.
