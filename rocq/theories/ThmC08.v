(** C08: simplify_optiontype keeps the values. *)
From Verif Require Import Base Content SpecArray SpecSlice SpecOption Core Option POption.

Theorem C08_simplify_optiontype : forall c vs, option_or_indexed c -> den c = Some vs ->
  exists c', simplify_optiontype c = Ok c' /\ den c' = Some vs.
Proof.
  intros c vs Ho Hd. destruct (simplify_den c vs Hd) as (c' & E & Hc' & _); eauto.
  destruct Ho as [Ho|(index & c' & ->)]; [|reflexivity]. destruct c; try contradiction; reflexivity.
Qed.
Print Assumptions C08_simplify_optiontype.
Definition ex_nested : content := Indexed [3; 0; 1; 3] (ByteMasked [1; 0; 1; 1] true (Numpy DInt [5; 6; 7; 8])).
Example C08_simplify_optiontype_ex : den ex_nested = Some [VInt 8; VInt 5; VNone; VInt 8] /\
  simplify_optiontype ex_nested = Ok (IndexedOption [3; 0; -1; 3] (Numpy DInt [5; 6; 7; 8])).
Proof. split; vm_compute; reflexivity. Qed.

(** Two nested option or indexed nodes become one: the result is again such a node, and its content is not,
    when the content two levels down was not. *)
Theorem C08_simplify_removes_level : forall c vs, option_or_indexed c -> den c = Some vs -> ~ option_or_indexed (below (below c)) ->
  exists c', simplify_optiontype c = Ok c' /\ den c' = Some vs /\ option_or_indexed c' /\ ~ option_or_indexed (below c').
Proof.
  assert (G : forall c, needs_simplify c = true <-> option_or_indexed c).
  { intros c. split.
    - destruct c; try discriminate; intros _; [right; eauto|left; exact I..].
    - intros [Ho|(index & c' & ->)]; [|reflexivity]. destruct c; try contradiction; reflexivity. }
  intros c vs Ho Hd Hb. destruct (simplify_den c vs Hd) as (c' & E & Hc' & Hs & Hn); [now apply G|]. exists c'. repeat split; [exact E|exact Hc'|now apply G|].
  intros Hx. apply G in Hx. rewrite Hs in Hx; [discriminate|]. destruct (needs_simplify (below (below c))) eqn:En; [|reflexivity]. exfalso. now apply Hb, G.
Qed.
Print Assumptions C08_simplify_removes_level.
Example C08_simplify_removes_level_ex : ~ option_or_indexed (below (below ex_nested)).
Proof. intros [H|(i & c & H)]; [exact H|discriminate]. Qed.

(** It merges one level only: three nested nodes stay nested. *)
Theorem C08_three_levels_refuted : exists c vs c', option_or_indexed c /\ den c = Some vs /\ simplify_optiontype c = Ok c' /\ option_or_indexed (below c').
Proof.
  exists (Indexed [0] (Indexed [0] (Indexed [0] (Numpy DInt [5])))), [VInt 5]. eexists. split; [right; eauto|].
  split; [vm_compute; reflexivity|]. split; [vm_compute; reflexivity|]. right. eexists _, _. reflexivity.
Qed.
Print Assumptions C08_three_levels_refuted.
