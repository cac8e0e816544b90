(** The project's own expectations of its Forth machine, evaluated in the model: every assertion on the bytecodes or on
    the stack after run() in tests/test_0648-add-forth-machine-to-codebase.py whose program takes no input.
    They check the model against the code; nothing is proved with them. *)
From Verif Require Import Base Forth ForthParse.
Local Open Scope string_scope.
Local Open Scope list_scope.
Local Open Scope Z_scope.

Definition test_options (width : Z) : options :=
  mkOptions width 1024 1024 1024 (fun r => (3 * r + 1) / 2) (fun _ => None) (fun _ _ => None) (fun _ v => v) (fun _ a b => a + b).
(** vm.stack: bottom first *)
Definition stack_after (width : Z) (source : string) : option (list Z) :=
  match compile (test_options width) source with
  | Ok (p, m) => match run_ m [] 3000 (initial m) with Some (ARet _ s) => Some (rev (stk s)) | _ => None end
  | _ => None
  end.
(** vm.bytecodes *)
Definition bytecodes_of (width : Z) (source : string) : option (list (list Z)) :=
  match compile (test_options width) source with Ok (p, _) => Some (p_segs p) | _ => None end.

Definition expected_bytecodes : list (Z * string * list (list Z)) := [
(32, "", [[]]);
(32, "( comment )", [[]]);
(32, "\ comment", [[]]);
(32, "\ comment
", [[]]);
(32, "1 2 ( comment ) 3 4", [[0; 1; 0; 2; 0; 3; 0; 4]]);
(32, "1 2 \ comment 
 3 4", [[0; 1; 0; 2; 0; 3; 0; 4]]);
(32, "1 2 3 4", [[0; 1; 0; 2; 0; 3; 0; 4]]);
(32, ": stuff 1 2 3 4 ;", [[]; [0; 1; 0; 2; 0; 3; 0; 4]]);
(32, ": foo 123 : bar 1 2 3 ; 321 ;", [[]; [0; 123; 0; 321]; [0; 1; 0; 2; 0; 3]]);
(32, ": empty ;", [[]; []]);
(32, "variable x", [[]]);
(32, "variable x variable y", [[]]);
(32, "input x", [[]]);
(32, "output x int32", [[]]);
(32, "output x int32 input y variable z", [[]])].

Definition expected_stacks : list (Z * string * list Z) := [
(32, "1 2 3 4", [1; 2; 3; 4]);
(32, "1 2 3 4", [1; 2; 3; 4]);
(32, "1 2 pause 3 4 5", [1; 2]);
(32, ": foo 999 ; 1 2 3 pause 4 5", [1; 2; 3]);
(32, "
: bar 999 ;
: foo bar pause bar ;
1 2 3 pause 4 5", [1; 2; 3]);
(32, "
: bar 999 ;
: foo bar pause bar ;", []);
(32, "1 2 3 halt 4 5", [1; 2; 3]);
(32, "
: bar 999 ;
: foo bar halt bar ;
1 2 3 pause 4 5", [1; 2; 3]);
(32, "
: bar 999 ;
: foo bar halt bar ;
1 2 3 pause 4 5", [1; 2; 3]);
(32, "5 0 do i loop", [0; 1; 2; 3; 4]);
(32, "5 0 do i pause loop", [0]);
(32, ": foo 123 pause ; 5 0 do i foo loop", [0; 123]);
(32, ": foo 123 pause ; 5 0 do i foo loop", [0; 123]);
(32, ": foo if 999 then ; -1 foo", [999]);
(32, ": foo if 999 then ; 0 foo", []);
(32, ": foo if 999 then ; 1 foo", [999]);
(32, ": foo if if 999 then then ; -1 -1 foo", [999]);
(32, ": foo if if 999 then then ; 0 -1 foo", []);
(32, ": foo if if 999 then then ; 1 -1 foo", [999]);
(32, ": foo if if 999 then then ; -1 0 foo", [(-1)]);
(32, ": foo if if 999 then then ; 0 0 foo", [0]);
(32, ": foo if if 999 then then ; 1 0 foo", [1]);
(32, ": foo if if 999 then then ; -1 1 foo", [999]);
(32, ": foo if if 999 then then ; 0 1 foo", []);
(32, ": foo if if 999 then then ; 1 1 foo", [999]);
(32, ": foo if 999 else 123 then ; -1 foo", [999]);
(32, ": foo if 999 else 123 then ; 0 foo", [123]);
(32, ": foo if 999 else 123 then ; 1 foo", [999]);
(32, ": foo if 999 else 123 then ; -1 -1 foo", [(-1); 999]);
(32, ": foo if 999 else 123 then ; 0 -1 foo", [0; 999]);
(32, ": foo if 999 else 123 then ; 1 -1 foo", [1; 999]);
(32, ": foo if 999 else 123 then ; -1 0 foo", [(-1); 123]);
(32, ": foo if 999 else 123 then ; 0 0 foo", [0; 123]);
(32, ": foo if 999 else 123 then ; 1 0 foo", [1; 123]);
(32, ": foo if 999 else 123 then ; -1 1 foo", [(-1); 999]);
(32, ": foo if 999 else 123 then ; 0 1 foo", [0; 999]);
(32, ": foo if 999 else 123 then ; 1 1 foo", [1; 999]);
(32, ": foo if if 999 then else 123 then ; -1 -1 foo", [999]);
(32, ": foo if if 999 then else 123 then ; 0 -1 foo", []);
(32, ": foo if if 999 then else 123 then ; 1 -1 foo", [999]);
(32, ": foo if if 999 then else 123 then ; -1 0 foo", [(-1); 123]);
(32, ": foo if if 999 then else 123 then ; 0 0 foo", [0; 123]);
(32, ": foo if if 999 then else 123 then ; 1 0 foo", [1; 123]);
(32, ": foo if if 999 then else 123 then ; -1 1 foo", [999]);
(32, ": foo if if 999 then else 123 then ; 0 1 foo", []);
(32, ": foo if if 999 then else 123 then ; 1 1 foo", [999]);
(32, ": foo if 999 else if 123 then then ; -1 -1 foo", [(-1); 999]);
(32, ": foo if 999 else if 123 then then ; 0 -1 foo", [0; 999]);
(32, ": foo if 999 else if 123 then then ; 1 -1 foo", [1; 999]);
(32, ": foo if 999 else if 123 then then ; -1 0 foo", [123]);
(32, ": foo if 999 else if 123 then then ; 0 0 foo", []);
(32, ": foo if 999 else if 123 then then ; 1 0 foo", [123]);
(32, ": foo if 999 else if 123 then then ; -1 1 foo", [(-1); 999]);
(32, ": foo if 999 else if 123 then then ; 0 1 foo", [0; 999]);
(32, ": foo if 999 else if 123 then then ; 1 1 foo", [1; 999]);
(32, ": foo if if 999 else 321 then else 123 then ; -1 -1 foo", [999]);
(32, ": foo if if 999 else 321 then else 123 then ; 0 -1 foo", [321]);
(32, ": foo if if 999 else 321 then else 123 then ; 1 -1 foo", [999]);
(32, ": foo if if 999 else 321 then else 123 then ; -1 0 foo", [(-1); 123]);
(32, ": foo if if 999 else 321 then else 123 then ; 0 0 foo", [0; 123]);
(32, ": foo if if 999 else 321 then else 123 then ; 1 0 foo", [1; 123]);
(32, ": foo if if 999 else 321 then else 123 then ; -1 1 foo", [999]);
(32, ": foo if if 999 else 321 then else 123 then ; 0 1 foo", [321]);
(32, ": foo if if 999 else 321 then else 123 then ; 1 1 foo", [999]);
(32, ": foo if 999 else if 123 else 321 then then ; -1 -1 foo", [(-1); 999]);
(32, ": foo if 999 else if 123 else 321 then then ; 0 -1 foo", [0; 999]);
(32, ": foo if 999 else if 123 else 321 then then ; 1 -1 foo", [1; 999]);
(32, ": foo if 999 else if 123 else 321 then then ; -1 0 foo", [123]);
(32, ": foo if 999 else if 123 else 321 then then ; 0 0 foo", [321]);
(32, ": foo if 999 else if 123 else 321 then then ; 1 0 foo", [123]);
(32, ": foo if 999 else if 123 else 321 then then ; -1 1 foo", [(-1); 999]);
(32, ": foo if 999 else if 123 else 321 then then ; 0 1 foo", [0; 999]);
(32, ": foo if 999 else if 123 else 321 then then ; 1 1 foo", [1; 999]);
(32, ": foo do i loop ; 10 5 foo", [5; 6; 7; 8; 9]);
(32, ": foo do i i +loop ; 100 5 foo", [5; 10; 20; 40; 80]);
(32, ": foo 10 5 do 3 0 do 1+ loop loop ; 1 foo", [16]);
(32, ": foo 10 5 do 3 0 do i loop loop ; foo", [0; 1; 2; 0; 1; 2; 0; 1; 2; 0; 1; 2; 0; 1; 2]);
(32, ": foo 10 5 do 3 0 do j loop loop ; foo", [5; 5; 5; 6; 6; 6; 7; 7; 7; 8; 8; 8; 9; 9; 9]);
(32, ": foo 10 5 do 3 0 do i j * loop loop ; foo", [0; 5; 10; 0; 6; 12; 0; 7; 14; 0; 8; 16; 0; 9; 18]);
(32, ": foo 10 5 do 8 6 do 3 0 do i j * k * loop loop loop ; foo", [0; 30; 60; 0; 35; 70; 0; 36; 72; 0; 42; 84; 0; 42; 84; 0; 49; 98; 0; 48; 96; 0; 56; 112; 0; 54; 108; 0; 63; 126]);
(32, ": foo 3 begin dup 1 - dup 0= until ; foo", [3; 2; 1; 0]);
(32, ": foo 4 begin dup 1 - dup 0= invert while 123 drop repeat ; foo", [4; 3; 2; 1; 0]);
(32, ": foo 3 begin dup 1 - dup 0= if exit then again ; foo", [3; 2; 1; 0]);
(32, "1 2 3 4 dup", [1; 2; 3; 4; 4]);
(32, "1 2 3 4 drop", [1; 2; 3]);
(32, "1 2 3 4 swap", [1; 2; 4; 3]);
(32, "1 2 3 4 over", [1; 2; 3; 4; 3]);
(32, "1 2 3 4 rot", [1; 3; 4; 2]);
(32, "1 2 3 4 nip", [1; 2; 4]);
(32, "1 2 3 4 tuck", [1; 2; 4; 3; 4]);
(32, "3 5 +", [8]);
(32, "-3 5 +", [2]);
(32, "3 -5 +", [(-2)]);
(32, "-3 -5 +", [(-8)]);
(32, "3 5 -", [(-2)]);
(32, "-3 5 -", [(-8)]);
(32, "3 -5 -", [8]);
(32, "-3 -5 -", [2]);
(32, "5 3 -", [2]);
(32, "5 -3 -", [8]);
(32, "-5 3 -", [(-8)]);
(32, "-5 -3 -", [(-2)]);
(32, "3 5 *", [15]);
(32, "-3 5 *", [(-15)]);
(32, "3 -5 *", [(-15)]);
(32, "-3 -5 *", [15]);
(32, "22 7 /", [3]);
(32, "-22 7 /", [(-4)]);
(32, "22 -7 /", [(-4)]);
(32, "-22 -7 /", [3]);
(32, "22 7 mod", [1]);
(32, "-22 7 mod", [6]);
(32, "22 -7 mod", [(-6)]);
(32, "-22 -7 mod", [(-1)]);
(32, "22 7 /mod", [1; 3]);
(32, "-22 7 /mod", [6; (-4)]);
(32, "22 -7 /mod", [(-6); (-4)]);
(32, "-22 -7 /mod", [(-1); 3]);
(32, "-2 abs", [2]);
(32, "-1 abs", [1]);
(32, "0 abs", [0]);
(32, "1 abs", [1]);
(32, "2 abs", [2]);
(32, "5 5 min", [5]);
(32, "3 -5 min", [(-5)]);
(32, "-3 5 min", [(-3)]);
(32, "3 5 min", [3]);
(32, "5 5 max", [5]);
(32, "3 -5 max", [3]);
(32, "-3 5 max", [5]);
(32, "3 5 max", [5]);
(32, "-2 negate", [2]);
(32, "-1 negate", [1]);
(32, "0 negate", [0]);
(32, "1 negate", [(-1)]);
(32, "2 negate", [(-2)]);
(32, "-1 1+", [0]);
(32, "0 1+", [1]);
(32, "1 1+", [2]);
(32, "-1 1-", [(-2)]);
(32, "0 1-", [(-1)]);
(32, "1 1-", [0]);
(32, "-1 0=", [0]);
(32, "0 0=", [(-1)]);
(32, "1 0=", [0]);
(32, "5 5 =", [(-1)]);
(32, "3 -5 =", [0]);
(32, "-3 5 =", [0]);
(32, "3 5 =", [0]);
(32, "5 5 <>", [0]);
(32, "3 -5 <>", [(-1)]);
(32, "-3 5 <>", [(-1)]);
(32, "3 5 <>", [(-1)]);
(32, "5 5 >", [0]);
(32, "3 -5 >", [(-1)]);
(32, "-3 5 >", [0]);
(32, "3 5 >", [0]);
(32, "5 5 >=", [(-1)]);
(32, "3 -5 >=", [(-1)]);
(32, "-3 5 >=", [0]);
(32, "3 5 >=", [0]);
(32, "5 5 <", [0]);
(32, "3 -5 <", [0]);
(32, "-3 5 <", [(-1)]);
(32, "3 5 <", [(-1)]);
(32, "5 5 <=", [(-1)]);
(32, "3 -5 <=", [0]);
(32, "-3 5 <=", [(-1)]);
(32, "3 5 <=", [(-1)]);
(32, "-1 -1 and", [(-1)]);
(32, "0 -1 and", [0]);
(32, "1 -1 and", [1]);
(32, "-1 0 and", [0]);
(32, "0 0 and", [0]);
(32, "1 0 and", [0]);
(32, "-1 1 and", [1]);
(32, "0 1 and", [0]);
(32, "1 1 and", [1]);
(32, "-1 -1 or", [(-1)]);
(32, "0 -1 or", [(-1)]);
(32, "1 -1 or", [(-1)]);
(32, "-1 0 or", [(-1)]);
(32, "0 0 or", [0]);
(32, "1 0 or", [1]);
(32, "-1 1 or", [(-1)]);
(32, "0 1 or", [1]);
(32, "1 1 or", [1]);
(32, "-1 -1 xor", [0]);
(32, "0 -1 xor", [(-1)]);
(32, "1 -1 xor", [(-2)]);
(32, "-1 0 xor", [(-1)]);
(32, "0 0 xor", [0]);
(32, "1 0 xor", [1]);
(32, "-1 1 xor", [(-2)]);
(32, "0 1 xor", [1]);
(32, "1 1 xor", [0]);
(32, "-1 invert", [0]);
(32, "0 invert", [(-1)]);
(32, "1 invert", [(-2)]);
(32, "true", [(-1)]);
(32, "false", [0]);
(32, ": foo 3 + 2 * ; 4 foo foo", [34]);
(32, ": foo 3 + 2 * ; : bar 4 foo foo ; bar", [34]);
(32, ": factorial dup 2 < if drop 1 exit then dup 1- recurse * ; 5 factorial", [120]);
(32, "variable x 10 x ! 5 x +! x @ x @ x @", [15; 15; 15]);
(32, "variable x 10 x ! 5 x +! : foo x @ x @ x @ ; foo foo", [15; 15; 15; 15; 15; 15]);
(32, "0 1 lshift", [0]);
(32, "0 2 lshift", [0]);
(32, "0 3 lshift", [0]);
(32, "1 1 lshift", [2]);
(32, "1 2 lshift", [4]);
(32, "1 3 lshift", [8]);
(32, "5 1 lshift", [10]);
(32, "5 2 lshift", [20]);
(32, "5 3 lshift", [40]);
(32, "-5 1 lshift", [(-10)]);
(32, "-5 2 lshift", [(-20)]);
(32, "-5 3 lshift", [(-40)]);
(32, "0 1 rshift", [0]);
(32, "0 2 rshift", [0]);
(32, "0 3 rshift", [0]);
(32, "1 1 rshift", [0]);
(32, "1 2 rshift", [0]);
(32, "1 3 rshift", [0]);
(32, "5 1 rshift", [2]);
(32, "5 2 rshift", [1]);
(32, "5 3 rshift", [0]);
(32, "-5 1 rshift", [(-3)]);
(32, "-5 2 rshift", [(-2)]);
(32, "-5 3 rshift", [(-1)]);
(32, "
output y float32
4 3 2 1
y <- stack
y <- stack
y <- stack
y <- stack
", []);
(32, "
output stuff int32
1 2 3 4
stuff <- stack
10 stuff dup
", [1; 2; 3])].

Example bytecodes_agree :
  map (fun t => bytecodes_of (fst (fst t)) (snd (fst t))) expected_bytecodes = map (fun t => Some (snd t)) expected_bytecodes.
Proof. vm_compute. reflexivity. Qed.

Example stacks_agree :
  map (fun t => stack_after (fst (fst t)) (snd (fst t))) expected_stacks = map (fun t => Some (snd t)) expected_stacks.
Proof. vm_compute. reflexivity. Qed.
