(** Concrete arrays used to show that theorem hypotheses are met. *)
From Verif Require Import Base Content SpecArray SpecValid Core.
Local Open Scope string_scope.

(** [[{x: 1, y: [10]}, {x: 2, y: None}], [], [{x: 3, y: [20, 30]}, {x: 4, y: None}, {x: 5, y: []}]] *)
Definition ex_records : content :=
  ListOffset [0; 2; 2; 5]
    (Record (Some ["x"; "y"]) 5
       [Numpy DInt [1; 2; 3; 4; 5; 6];
        IndexedOption [0; -1; 1; -1; 2] (ListA [2; 0; 7] [3; 2; 7] (Numpy DInt [20; 30; 10]))]).
(** union of numbers and masked lists, in a regular array of size 2 *)
Definition ex_union : content :=
  Regular 2 0
    (Union [0; 1; 1; 0] [1; 0; 2; 0]
       [Numpy DReal [7; 8];
        BitMasked [5] true true 3 (ListOffset [0; 1; 1; 3] (Numpy DBool [1; 0; 1]))]).
Definition ex_records_values : list value :=
  [VList [VRec [("x", VInt 1); ("y", VList [VInt 10])]; VRec [("x", VInt 2); ("y", VNone)]];
   VList [];
   VList [VRec [("x", VInt 3); ("y", VList [VInt 20; VInt 30])]; VRec [("x", VInt 4); ("y", VNone)]; VRec [("x", VInt 5); ("y", VList [])]]].
Definition ex_union_values : list value :=
  [VList [VReal 8; VList [VBool true]]; VList [VList [VBool false; VBool true]; VReal 7]].
Example ex_records_den : den ex_records = Some ex_records_values.
Proof. vm_compute; reflexivity. Qed.
Example ex_union_den : den ex_union = Some ex_union_values.
Proof. vm_compute; reflexivity. Qed.
