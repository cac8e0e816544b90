(** What a history of calls, clear() and snapshot() means on lists: the arrays are those of the moments of the snapshots. *)
From Verif Require Import Base Content Builder HBuilder.
Local Open Scope list_scope.
Local Open Scope Z_scope.

Section SpecHistory.
Variables (rc : Z -> Z) (refeq : content -> content -> bool) (fuel : nat).
Definition on_lists (b : builder) (e : event) : res builder :=
  match e with ECall k => let* r := step rc b k in Ok (returned r) | EClear => Ok (clear b) | ESnapshot => Ok b end.
Definition taken (b : builder) (e : event) : list (res content) := match e with ESnapshot => [snapshot rc refeq fuel b] | _ => [] end.
(** the builder in the end, and the array of each snapshot at its moment *)
Fixpoint story (b : builder) (es : list event) : res (builder * list (res content)) :=
  match es with
  | [] => Ok (b, [])
  | e :: es => let* b' := on_lists b e in let* r := story b' es in Ok (fst r, taken b e ++ snd r)
  end.
End SpecHistory.
