(** What a partitioned array holds: the values of its partitions, one after another. *)
From Verif Require Import Base Content SpecArray Partition.

(** where each of the lists ends in their concatenation, starting from [a] *)
Fixpoint ends {A} (a : Z) (l : list (list A)) : list Z :=
  match l with [] => [] | x :: t => a + zlen x :: ends (a + zlen x) t end.

(** [holds p vs]: p has at least one partition, every partition has values, the stops are the ends of the partitions, and the
    concatenation of the partitions is vs.  Partitions may be empty and may differ in type. *)
Definition parts_hold (p : parray) (vss : list (list value)) : Prop :=
  omap den (partitions p) = Some vss /\ vss <> [] /\ pstops p = ends 0 vss.
Definition holds (p : parray) (vs : list value) : Prop := exists vss, parts_hold p vss /\ concat vss = vs.
