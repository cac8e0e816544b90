(** Specification of counting: [lift count axis] (SpecAxis.v).  [zero_based k c]: every ListOffsetArray above the lists that
    are counted has offsets that start at 0. *)
From Verif Require Import Base Content SpecArray SpecForm SpecAxis.

Fixpoint zero_based (k : Z) (c : content) {struct c} : Prop :=
  match c with
  | Empty | Numpy _ _ => True
  | ListOffset offsets c' => if k =? 1 then True else nthZ offsets 0 = Some 0 /\ zero_based (k - 1) c'
  | ListA _ _ c' | Regular _ _ c' => if k =? 1 then True else zero_based (k - 1) c'
  | Indexed _ c' | IndexedOption _ c' | ByteMasked _ _ c' | BitMasked _ _ _ _ c' | Unmasked c' => zero_based k c'
  | Record _ _ cs | Union _ _ cs => fold_right and True (map (zero_based k) cs)
  end.
