(** Proofs about the kernels of the reducers. *)
From Verif Require Import Base BaseLemmas OmapLemmas LoopLemmas Content KCore Core KConvert Convert KReduce Reduce SpecArray SpecForm SpecReduce PCore PCarry PList PConvert PPadK PForm PAxis.

(** ** choosing from a list *)
Fixpoint pick {A} (fl : list bool) (l : list A) : list A :=
  match fl, l with b :: fl, x :: l => if b then x :: pick fl l else pick fl l | _, _ => [] end.
Definition members {A} (parents : list Z) (xs : list A) (g : Z) : list A := pick (map (fun p => p =? g) parents) xs.

Lemma pick_map {A B} (f : A -> B) fl l : pick fl (map f l) = map f (pick fl l).
Proof. revert l; induction fl as [|b fl IH]; intros [|x l]; simpl; try reflexivity. destruct b; simpl; rewrite IH; reflexivity. Qed.
Lemma pick_nil {A} fl : pick fl (@nil A) = [].
Proof. destruct fl; reflexivity. Qed.
Lemma pick_app {A} fl fl' (l l' : list A) : zlen fl = zlen l -> pick (fl ++ fl') (l ++ l') = pick fl l ++ pick fl' l'.
Proof.
  revert l; induction fl as [|b fl IH]; intros [|x l] H; rewrite ?zlen_cons in H; try (pose proof (zlen_nonneg fl)); try (pose proof (zlen_nonneg l)); try (change (zlen (@nil A)) with 0 in H); try (change (zlen (@nil bool)) with 0 in H); try lia; [reflexivity|].
  simpl. rewrite IH by lia. destruct b; reflexivity.
Qed.
Lemma pick_combine {A B} fl (a : list A) (b : list B) : zlen a = zlen b -> pick fl (combine a b) = combine (pick fl a) (pick fl b).
Proof.
  revert a b; induction fl as [|f fl IH]; intros [|x a] [|y b] H; simpl; try reflexivity; rewrite ?zlen_cons in H; try (change (zlen (@nil A)) with 0 in H); try (change (zlen (@nil B)) with 0 in H);
    try (pose proof (zlen_nonneg a)); try (pose proof (zlen_nonneg b)); try lia.
  rewrite IH by lia. destruct f; reflexivity.
Qed.
Lemma pick_filter {A} fl (p : A -> bool) (l : list A) : filter p (pick fl l) = pick (pick (map p l) fl) (filter p l).
Proof.
  revert fl; induction l as [|x l IH]; intros fl; [rewrite pick_nil; destruct (pick _ fl); reflexivity|]. destruct fl as [|b fl]; simpl; [reflexivity|].
  destruct b; simpl; destruct (p x) eqn:E; simpl; rewrite ?IH; reflexivity.
Qed.
Lemma filter_pick {A} (p : A -> bool) (l : list A) : filter p l = pick (map p l) l.
Proof. induction l as [|x l IH]; simpl; [reflexivity|]. rewrite IH. destruct (p x); reflexivity. Qed.
Lemma pick_pick {A} fl gl (l : list A) : zlen fl = zlen gl -> pick (pick fl gl) (pick fl l) = pick (map (fun ab => fst ab && snd ab) (combine fl gl)) l.
Proof.
  revert gl l; induction fl as [|f fl IH]; intros [|g gl] [|x l] H; simpl; try reflexivity; rewrite ?zlen_cons in H; try (change (zlen (@nil bool)) with 0 in H);
    try (pose proof (zlen_nonneg fl)); try (pose proof (zlen_nonneg gl)); try lia.
  - destruct f; simpl; rewrite ?pick_nil; try reflexivity; destruct (pick fl gl); reflexivity.
  - destruct f; simpl; rewrite ?IH by lia; destruct g; reflexivity.
Qed.
Lemma pick_In {A} fl (l : list A) x : In x (pick fl l) -> In x l.
Proof. revert l; induction fl as [|b fl IH]; intros [|y l]; simpl; try contradiction. destruct b; simpl; [intros [<-|H]|intros H]; auto. Qed.

Lemma members_map {A B} (f : A -> B) parents l g : members parents (map f l) g = map f (members parents l g).
Proof. apply pick_map. Qed.
Lemma members_app {A} p p' (l l' : list A) g : zlen p = zlen l -> members (p ++ p') (l ++ l') g = members p l g ++ members p' l' g.
Proof. intros H. unfold members. rewrite map_app, pick_app; [reflexivity|]. rewrite zlen_map. exact H. Qed.
Lemma members_combine {A B} p (a : list A) (b : list B) g : zlen a = zlen b -> members p (combine a b) g = combine (members p a g) (members p b g).
Proof. apply pick_combine. Qed.
Lemma members_none {A} p (l : list A) g : (forall x, In x p -> x <> g) -> members p l g = [].
Proof.
  unfold members. revert l; induction p as [|x p IH]; intros [|y l] H; simpl; try reflexivity. destruct (Z.eqb_spec x g) as [E|_]; [destruct (H x (or_introl eq_refl) E)|]. apply IH. intros z Hz. apply H. right. exact Hz.
Qed.
Lemma zlen_members {A B} p (a : list A) (b : list B) g : zlen a = zlen b -> zlen (members p a g) = zlen (members p b g).
Proof.
  unfold members. revert a b; induction p as [|x p IH]; intros [|y a] [|z b] H; simpl; try reflexivity; rewrite ?zlen_cons in H; try (change (zlen (@nil A)) with 0 in H); try (change (zlen (@nil B)) with 0 in H);
    try (pose proof (zlen_nonneg a)); try (pose proof (zlen_nonneg b)); try lia.
  destruct (x =? g); rewrite ?zlen_cons; rewrite (IH a b) by lia; reflexivity.
Qed.

(** ** the loops of the reducers *)
Definition inside (n : Z) (parents : list Z) : Prop := Forall (fun p => 0 <= p < n) parents.
Lemma fill_identity_ok n x : 0 <= n -> fill_identity (alloc n) n x = Ok (map (fun _ => x) (zseq 0 n)).
Proof. intros H. apply for_fill_all; [apply zlen_alloc; exact H|reflexivity]. Qed.

Section Groups.
Context {X : Type} (step : Z -> X -> Z) (Q : Z -> Prop) (init outlength : Z).
Lemma groups_kernel parents (xs : list X) (body : Z -> list Z -> res (list Z)) :
  0 <= outlength -> zlen parents = zlen xs -> inside outlength parents -> Q init -> (forall t x, Q t -> In x xs -> Q (step t x)) ->
  (forall i p x t to, nthZ parents i = Some p -> nthZ xs i = Some x -> nthZ to p = Some t -> Q t ->
     body i to = wr to p (step t x) \/ (body i to = Ok to /\ step t x = t)) ->
  for_ 0 (zlen parents) body (map (fun _ => init) (zseq 0 outlength)) = Ok (map (fun g => fold_left step (members parents xs g) init) (zseq 0 outlength)).
Proof.
  intros Hn Hl Hin Q0 QS Hb. rewrite <- (zlen_combine parents xs Hl).
  destruct (for_list (combine parents xs) (fun d to => zlen to = outlength /\ (forall g t, nthZ to g = Some t -> Q t) /\
      forall g, 0 <= g < outlength -> nthZ to g = Some (fold_left step (members (map fst d) (map snd d) g) init)) body (map (fun _ => init) (zseq 0 outlength))) as (to & HF & Hz & _ & Hto).
  - repeat split.
    + rewrite zlen_map, zlen_zseq by lia. lia.
    + intros g t Hg. rewrite nthZ_map in Hg. destruct (nthZ (zseq 0 outlength) g); [|discriminate]. injection Hg as <-. exact Q0.
    + intros g Hg. rewrite nthZ_map, nthZ_zseq by lia. reflexivity.
  - intros d [p x] r to Hd (Hz & HQ & Hto). destruct (combine_mid _ _ _ _ _ _ Hd) as [Hp Hx].
    assert (Hpr : 0 <= p < outlength) by (unfold inside in Hin; rewrite Forall_forall in Hin; apply Hin; eapply nthZ_In; exact Hp).
    pose proof (Hto p Hpr) as Ht. set (t := fold_left _ _ _) in Ht. specialize (HQ p t Ht) as HQt.
    assert (NM : forall g, fold_left step (members (map fst (d ++ [(p, x)])) (map snd (d ++ [(p, x)])) g) init
                 = let u := fold_left step (members (map fst d) (map snd d) g) init in if p =? g then step u x else u).
    { intros g. rewrite !map_app, members_app by (rewrite !zlen_map; reflexivity). cbn [map fst snd]. unfold members at 2. cbn [map pick]. rewrite fold_left_app. destruct (p =? g); reflexivity. }
    destruct (Hb _ _ _ _ _ Hp Hx Ht HQt) as [E|[E Es]]; rewrite E.
    + destruct (wr_spec to p (step t x)) as (to' & Hw & Hz' & Hn'); [lia|]. rewrite Hw. exists to'. split; [reflexivity|]. split; [lia|]. split.
      * intros g u Hu. rewrite Hn' in Hu. destruct (g =? p); [injection Hu as <-; apply QS; [exact HQt|eapply nthZ_In; exact Hx]|eapply HQ; exact Hu].
      * intros g Hg. rewrite Hn', NM. cbv zeta. rewrite (Z.eqb_sym p g). destruct (Z.eqb_spec g p) as [->|_]; [reflexivity|apply Hto; exact Hg].
    + exists to. split; [reflexivity|]. split; [exact Hz|]. split; [exact HQ|]. intros g Hg. rewrite NM. cbv zeta. destruct (Z.eqb_spec p g) as [<-|_]; [|apply Hto; exact Hg].
      fold t. rewrite Es. exact Ht.
  - rewrite HF. f_equal. apply list_eqZ; [rewrite zlen_map, zlen_zseq by lia; lia|]. intros g Hg. rewrite Hto by lia. rewrite nthZ_map, nthZ_zseq by lia. cbn [option_map]. rewrite Z.add_0_l.
    assert (E1 : map fst (combine parents xs) = parents /\ map snd (combine parents xs) = xs).
    { clear -Hl. revert xs Hl; induction parents as [|p ps IH]; intros [|x xs] H; rewrite ?zlen_cons in H; try (change (zlen (@nil Z)) with 0 in H); try (change (zlen (@nil X)) with 0 in H);
        try (pose proof (zlen_nonneg ps)); try (pose proof (zlen_nonneg xs)); try lia; [split; reflexivity|]. simpl. destruct (IH xs) as [A B]; [lia|]. rewrite A, B. split; reflexivity. }
    destruct E1 as [-> ->]. reflexivity.
Qed.
End Groups.

(** ** the result for one group *)
Lemma int64_wrap z : wrap64 z = int64 z.
Proof.
  unfold wrap64, int64. change (2 ^ 64) with 18446744073709551616. change (2 ^ 63) with 9223372036854775808. cbv zeta. pose proof (Z.mod_pos_bound z 18446744073709551616 ltac:(lia)) as Hm.
  pose proof (Z.div_mod z 18446744073709551616 ltac:(lia)) as HD. set (m := z mod _) in *. set (q := z / _) in *.
  destruct (Z.ltb_spec m 9223372036854775808) as [L|L].
  - replace ((z + 9223372036854775808) mod 18446744073709551616) with (m + 9223372036854775808); [lia|]. apply (Z.mod_unique _ _ q); lia.
  - replace ((z + 9223372036854775808) mod 18446744073709551616) with (m + 9223372036854775808 - 18446744073709551616); [lia|]. apply (Z.mod_unique _ _ (q + 1)); lia.
Qed.
Lemma int64_mod z : exists q, int64 z = z + q * 2 ^ 64.
Proof. unfold int64. exists (if z mod 2 ^ 64 <? 2 ^ 63 then - (z / 2 ^ 64) else - (z / 2 ^ 64) - 1). pose proof (Z.div_mod z (2 ^ 64) ltac:(lia)). cbv zeta. destruct (_ <? _); lia. Qed.
Lemma int64_eq a b q : a = b + q * 2 ^ 64 -> int64 a = int64 b.
Proof. intros ->. unfold int64. rewrite Z.mod_add by lia. reflexivity. Qed.
Lemma int64_add a b : int64 (int64 a + b) = int64 (a + b).
Proof. destruct (int64_mod a) as [q ->]. apply (int64_eq _ _ q). lia. Qed.
Lemma int64_mul a b : int64 (int64 a * b) = int64 (a * b).
Proof. destruct (int64_mod a) as [q ->]. apply (int64_eq _ _ (q * b)). lia. Qed.
Lemma fold_sum l : forall a, fold_left (fun x y => wrap64 (x + y)) l (int64 a) = int64 (a + total l).
Proof. induction l as [|x l IH]; intros a; simpl; [f_equal; unfold total; simpl; lia|]. rewrite int64_wrap, int64_add, IH. f_equal. unfold total. simpl. lia. Qed.
Lemma fold_prod l : forall a, fold_left (fun x y => wrap64 (x * y)) l (int64 a) = int64 (a * product l).
Proof. induction l as [|x l IH]; intros a; simpl; [f_equal; unfold product; simpl; lia|]. rewrite int64_wrap, int64_mul, IH. f_equal. unfold product. simpl. lia. Qed.
Lemma fold_count {A} (p : A -> bool) l : forall a, fold_left (fun t x => t + b2i (p x)) l a = a + zlen (filter p l).
Proof. induction l as [|x l IH]; intros a; simpl; [change (zlen (@nil A)) with 0; lia|]. rewrite IH. destruct (p x); rewrite ?zlen_cons; unfold b2i; lia. Qed.
Lemma fold_or {A} (p : A -> bool) l : forall b, fold_left (fun t x => b2i (negb (t =? 0) || p x)) l (b2i b) = b2i (b || existsb p l).
Proof. induction l as [|x l IH]; intros b; simpl; [rewrite orb_false_r; reflexivity|]. rewrite IH. f_equal. destruct b, (p x); reflexivity. Qed.
Lemma fold_and {A} (p : A -> bool) l : forall b, fold_left (fun t x => b2i (negb (t =? 0) && p x)) l (b2i b) = b2i (b && forallb p l).
Proof. induction l as [|x l IH]; intros b; simpl; [rewrite andb_true_r; reflexivity|]. rewrite IH. f_equal. destruct b, (p x); reflexivity. Qed.
Lemma fold_prodb {A} (p : A -> bool) l : forall b, fold_left (fun t x => t * b2i (p x)) l (b2i b) = b2i (b && forallb p l).
Proof. induction l as [|x l IH]; intros b; simpl; [rewrite andb_true_r; reflexivity|]. replace (b2i b * b2i (p x)) with (b2i (b && p x)) by (destruct b, (p x); reflexivity). rewrite IH. f_equal. destruct b, (p x); reflexivity. Qed.
Lemma fold_min l : forall a, fold_left (fun t x => if x <? t then x else t) l a = fold_right Z.min a l.
Proof.
  induction l as [|x l IH]; intros a; simpl; [reflexivity|]. rewrite IH. replace (if x <? a then x else a) with (Z.min x a) by (destruct (Z.ltb_spec x a); lia).
  clear. induction l as [|y l IH]; simpl; [reflexivity|]. rewrite IH. lia.
Qed.
Lemma fold_max l : forall a, fold_left (fun t x => if t <? x then x else t) l a = fold_right Z.max a l.
Proof.
  induction l as [|x l IH]; intros a; simpl; [reflexivity|]. rewrite IH. replace (if a <? x then x else a) with (Z.max x a) by (destruct (Z.ltb_spec a x); lia).
  clear. induction l as [|y l IH]; simpl; [reflexivity|]. rewrite IH. lia.
Qed.

Definition num (dt : dtype) (x : Z) : value := scalar dt x.
Lemma truthy_scalar F dt x : truthy F (scalar dt x) = nz_of F dt x.
Proof. destruct dt; reflexivity. Qed.
Lemma less_scalar F dt x y : less F (scalar dt x) (scalar dt y) = lt_of F dt x y.
Proof. destruct dt; simpl; try reflexivity. destruct (x =? 0), (y =? 0); reflexivity. Qed.
Lemma filter_truthy F dt l : zlen (filter (truthy F) (map (scalar dt) l)) = zlen (filter (nz_of F dt) l).
Proof. induction l as [|x l IH]; simpl; [reflexivity|]. rewrite truthy_scalar. destruct (nz_of F dt x); rewrite ?zlen_cons; lia. Qed.
Lemma existsb_truthy F dt l : existsb (truthy F) (map (scalar dt) l) = existsb (nz_of F dt) l.
Proof. induction l as [|x l IH]; simpl; [reflexivity|]. rewrite truthy_scalar, IH. reflexivity. Qed.
Lemma forallb_truthy F dt l : forallb (truthy F) (map (scalar dt) l) = forallb (nz_of F dt) l.
Proof. induction l as [|x l IH]; simpl; [reflexivity|]. rewrite truthy_scalar, IH. reflexivity. Qed.
Lemma number_int l : map number (map (scalar DInt) l) = l.
Proof. rewrite map_map. rewrite <- (map_id l) at 2. reflexivity. Qed.
Lemma number_real l : map number (map (scalar DReal) l) = l.
Proof. rewrite map_map. rewrite <- (map_id l) at 2. reflexivity. Qed.
Lemma product_bool l : product (map number (map (scalar DBool) l)) = b2i (forallb (fun x => negb (x =? 0)) l).
Proof. induction l as [|x l IH]; [reflexivity|]. unfold product in *. cbn [map fold_right]. rewrite IH. simpl. destruct (x =? 0); simpl; destruct (forallb _ l); reflexivity. Qed.
Lemma int64_b2i b : int64 (b2i b) = b2i b.
Proof. destruct b; reflexivity. Qed.
Lemma b2i_nz b : negb (b2i b =? 0) = b.
Proof. destruct b; reflexivity. Qed.

(** the codes the kernels compute *)
Definition code_of (F : floats) (r : reducer) (dt : dtype) (l : list Z) : Z :=
  match r, dt with
  | Count, _ => fold_left (fun t _ => t + 1) l 0
  | CountNonzero, _ | Sum, DBool => fold_left (fun t x => t + b2i (nz_of F dt x)) l 0
  | Sum, DInt => fold_left (fun x y => wrap64 (x + y)) l 0
  | Sum, DReal => fold_left (fadd F) l (fzero F)
  | Prod, DBool => fold_left (fun t x => t * b2i (negb (x =? 0))) l 1
  | Prod, DInt => fold_left (fun x y => wrap64 (x * y)) l 1
  | Prod, DReal => fold_left (fmul F) l (fone F)
  | Any, _ | Max _, DBool => fold_left (fun t x => b2i (negb (t =? 0) || nz_of F dt x)) l 0
  | All, _ | Min _, DBool => fold_left (fun t x => b2i (negb (t =? 0) && nz_of F dt x)) l 1
  | Min i, DInt => fold_left (fun t x => if x <? t then x else t) l (match i with Some (z, _) => z | None => max_int64 end)
  | Min i, DReal => fold_left (fun t x => if flt F x t then x else t) l (match i with Some (_, x) => x | None => finf F end)
  | Max i, DInt => fold_left (fun t x => if t <? x then x else t) l (match i with Some (z, _) => z | None => min_int64 end)
  | Max i, DReal => fold_left (fun t x => if flt F t x then x else t) l (match i with Some (_, x) => x | None => fninf F end)
  | Argmin, _ | Argmax, _ => 0
  end.
Lemma code_of_reduced F r dt ms l : returns_positions r = false -> map snd ms = map (scalar dt) l ->
  scalar (return_dtype r dt) (code_of F r dt l) = reduced F r dt ms.
Proof.
  intros Hr Hm. unfold reduced, code_of. rewrite Hm. destruct r; try discriminate Hr.
  - cbn [return_dtype scalar]. f_equal. rewrite zlen_map. clear. assert (G : forall a, fold_left (fun t (_ : Z) => t + 1) l a = a + zlen l); [|rewrite G; lia].
    induction l as [|x l IH]; intros a; simpl; [change (zlen (@nil Z)) with 0; lia|]. rewrite IH, zlen_cons. lia.
  - cbn [return_dtype scalar]. f_equal. rewrite fold_count, filter_truthy. destruct dt; reflexivity.
  - destruct dt; cbn [return_dtype scalar]; f_equal.
    + rewrite fold_count, filter_truthy. reflexivity.
    + rewrite number_int. change 0 with (int64 0) at 1. rewrite fold_sum. reflexivity.
    + rewrite number_real. reflexivity.
  - destruct dt; cbn [return_dtype scalar]; f_equal.
    + change 1 with (b2i true) at 1. rewrite (fold_prodb (fun x => negb (x =? 0))), product_bool, int64_b2i. reflexivity.
    + rewrite number_int. change 1 with (int64 1) at 1. rewrite fold_prod. f_equal. lia.
    + rewrite number_real. reflexivity.
  - cbn [return_dtype scalar]. f_equal. change 0 with (b2i false) at 2. rewrite fold_or, existsb_truthy, b2i_nz. reflexivity.
  - cbn [return_dtype scalar]. f_equal. change 1 with (b2i true) at 1. rewrite fold_and, forallb_truthy, b2i_nz. reflexivity.
  - destruct dt; cbn [return_dtype scalar]; f_equal.
    + change 1 with (b2i true) at 1. rewrite fold_and, forallb_truthy, b2i_nz. reflexivity.
    + rewrite number_int. apply fold_min.
    + rewrite number_real. reflexivity.
  - destruct dt; cbn [return_dtype scalar]; f_equal.
    + change 0 with (b2i false) at 2. rewrite fold_or, existsb_truthy, b2i_nz. reflexivity.
    + rewrite number_int. apply fold_max.
    + rewrite number_real. reflexivity.
Qed.
Lemma apply_code F r dt data parents n : 0 <= n -> zlen parents = zlen data -> inside n parents -> returns_positions r = false ->
  apply_reducer F r dt data parents n = Ok (map (fun g => code_of F r dt (members parents data g)) (zseq 0 n)).
Proof.
  intros Hn Hl Hin Hr. unfold apply_reducer, code_of.
  Ltac grp Hn Hl Hin step init := refine (groups_kernel step (fun _ => True) init _ _ _ _ Hn Hl Hin I _ _); [intros; exact I|]; intros i p x t to Hp Hx Ht _; left;
    unfold rd; rewrite ?Hp, ?Hx; cbn [bind]; rewrite ?Ht; reflexivity.
  destruct r; try discriminate Hr.
  - unfold awkward_reduce_count_64. rewrite fill_identity_ok by lia. cbn [bind]. grp Hn Hl Hin (fun (t : Z) (_ : Z) => t + 1) 0.
  - unfold awkward_reduce_countnonzero. rewrite fill_identity_ok by lia. cbn [bind]. grp Hn Hl Hin (fun t x => t + b2i (nz_of F dt x)) 0.
  - destruct dt; unfold awkward_reduce_countnonzero, awkward_reduce_sum; rewrite fill_identity_ok by lia; cbn [bind].
    + grp Hn Hl Hin (fun t x => t + b2i (nz_of F DBool x)) 0.
    + grp Hn Hl Hin (fun x y => wrap64 (x + y)) 0.
    + grp Hn Hl Hin (fadd F) (fzero F).
  - destruct dt; unfold awkward_reduce_prod_int64_bool_64, awkward_reduce_prod; rewrite fill_identity_ok by lia; cbn [bind].
    + grp Hn Hl Hin (fun t x => t * b2i (negb (x =? 0))) 1.
    + grp Hn Hl Hin (fun x y => wrap64 (x * y)) 1.
    + grp Hn Hl Hin (fmul F) (fone F).
  - unfold awkward_reduce_sum_bool. rewrite fill_identity_ok by lia. cbn [bind]. grp Hn Hl Hin (fun t x => b2i (negb (t =? 0) || nz_of F dt x)) 0.
  - unfold awkward_reduce_prod_bool. rewrite fill_identity_ok by lia. cbn [bind]. grp Hn Hl Hin (fun t x => b2i (negb (t =? 0) && nz_of F dt x)) 1.
  - destruct dt; unfold awkward_reduce_prod_bool, awkward_reduce_min; rewrite fill_identity_ok by lia; cbn [bind].
    + grp Hn Hl Hin (fun t x => b2i (negb (t =? 0) && nz_of F DBool x)) 1.
    + grp Hn Hl Hin (fun t x => if x <? t then x else t) (match initial with Some (z, _) => z | None => max_int64 end).
    + grp Hn Hl Hin (fun t x => if flt F x t then x else t) (match initial with Some (_, x) => x | None => finf F end).
  - destruct dt; unfold awkward_reduce_sum_bool, awkward_reduce_max; rewrite fill_identity_ok by lia; cbn [bind].
    + grp Hn Hl Hin (fun t x => b2i (negb (t =? 0) || nz_of F DBool x)) 0.
    + grp Hn Hl Hin (fun t x => if t <? x then x else t) (match initial with Some (z, _) => z | None => min_int64 end).
    + grp Hn Hl Hin (fun t x => if flt F t x then x else t) (match initial with Some (_, x) => x | None => fninf F end).
Qed.

(** positions *)
Definition best_index (beats : Z -> Z -> bool) (data : list Z) (t i : Z) : Z :=
  if t =? -1 then i else match nthZ data i, nthZ data t with Some x, Some y => if beats x y then i else t | _, _ => t end.
Lemma apply_arg F r dt data parents n : 0 <= n -> zlen parents = zlen data -> inside n parents -> returns_positions r = true ->
  apply_reducer F r dt data parents n =
  Ok (map (fun g => fold_left (best_index (match r with Argmin => lt_of F dt | _ => fun x y => lt_of F dt y x end) data) (members parents (zseq 0 (zlen data)) g) (-1)) (zseq 0 n)).
Proof.
  intros Hn Hl Hin Hr. pose proof (zlen_nonneg data).
  assert (HQ : forall b t x, (t = -1 \/ 0 <= t < zlen data) -> In x (zseq 0 (zlen data)) -> (best_index b data t x = -1 \/ 0 <= best_index b data t x < zlen data)).
  { intros b t x Ht Hx. apply In_zseq in Hx. unfold best_index. destruct (t =? -1); [lia|]. destruct (nthZ data x); [|exact Ht]. destruct (nthZ data t); [|exact Ht]. destruct (b _ _); lia. }
  assert (HB : forall b (cmp : Z -> Z -> bool), (forall x y, cmp x y = b x y) -> 
    for_ 0 (zlen parents) (fun i toptr => let* parent := rd parents i in let* t := rd toptr parent in if t =? -1 then wr toptr parent i else
      let* x := rd data i in let* y := rd data t in if cmp x y then wr toptr parent i else Ok toptr) (map (fun _ => -1) (zseq 0 n))
    = Ok (map (fun g => fold_left (best_index b data) (members parents (zseq 0 (zlen data)) g) (-1)) (zseq 0 n))).
  { intros b cmp HC. apply (groups_kernel (best_index b data) (fun t => t = -1 \/ 0 <= t < zlen data)); [exact Hn|rewrite zlen_zseq by lia; lia|exact Hin|left; reflexivity|apply HQ|].
    intros i p x t to Hp Hx Ht Qt. pose proof (nthZ_Some _ _ _ Hx) as Hi. rewrite zlen_zseq in Hi by lia. rewrite nthZ_zseq in Hx by lia. injection Hx as <-. rewrite Z.add_0_l.
    unfold rd. rewrite Hp. cbn [bind]. rewrite Ht. cbn [bind]. unfold best_index. destruct (Z.eqb_spec t (-1)) as [->|Hne]; [left; reflexivity|].
    destruct (nthZ_lt data i) as [v Hv]; [lia|]. destruct (nthZ_lt data t) as [w Hw]; [lia|]. rewrite Hv, Hw. cbn [bind]. rewrite HC. destruct (b v w); [left; reflexivity|right; split; reflexivity]. }
  destruct r; try discriminate Hr; unfold apply_reducer, awkward_reduce_argmin, awkward_reduce_argmax; rewrite fill_identity_ok by lia; cbn [bind].
  - apply (HB (lt_of F dt) (fun x y => lt_of F dt x y)). reflexivity.
  - apply (HB (fun x y => lt_of F dt y x) (fun x y => lt_of F dt y x)). reflexivity.
Qed.
Lemma arg_winner (b : Z -> Z -> bool) (beats : value -> value -> bool) data (h : Z -> member) js :
  (forall i j x y, In i js -> In j js -> nthZ data i = Some x -> nthZ data j = Some y -> beats (snd (h i)) (snd (h j)) = b x y) ->
  (forall i, In i js -> 0 <= i < zlen data) ->
  exists w, fold_left (best_index b data) js (-1) = match w with Some i => i | None => -1 end /\ winner beats (map h js) = option_map h w /\ (forall i, w = Some i -> In i js).
Proof.
  intros HB Hr. unfold winner.
  assert (G : forall js' w0, incl js' js -> (forall i, w0 = Some i -> In i js) ->
    exists w, fold_left (best_index b data) js' (match w0 with Some i => i | None => -1 end) = match w with Some i => i | None => -1 end /\
      fold_left (fun best m => match best with None => Some m | Some bb => if beats (snd m) (snd bb) then Some m else Some bb end) (map h js') (option_map h w0) = option_map h w /\ (forall i, w = Some i -> In i js)).
  { induction js' as [|j js' IH]; intros w0 Hi Hw; [exists w0; auto|]. cbn [fold_left map].
    assert (Hj : In j js) by (apply Hi; left; reflexivity). assert (Hi' : incl js' js) by (intros x Hx; apply Hi; right; exact Hx).
    destruct w0 as [i|]; cbn [option_map].
    - specialize (Hw i eq_refl) as Hii. destruct (nthZ_lt data j (Hr j Hj)) as [x Hx]. destruct (nthZ_lt data i (Hr i Hii)) as [y Hy]. unfold best_index at 2. rewrite Hx, Hy. rewrite (HB j i x y Hj Hii Hx Hy).
      destruct (Z.eqb_spec i (-1)) as [E|_]; [specialize (Hr i Hii); lia|]. destruct (b x y).
      + apply (IH (Some j)); [exact Hi'|]. intros i' [= <-]. exact Hj.
      + apply (IH (Some i)); [exact Hi'|]. intros i' [= <-]. exact Hii.
    - unfold best_index at 2. simpl (-1 =? -1). cbv iota. apply (IH (Some j)); [exact Hi'|]. intros i' [= <-]. exact Hj. }
  exact (G js None (incl_refl js) ltac:(intros; discriminate)).
Qed.

Lemma for_inplace (f : Z -> Z -> Z) (body : Z -> list Z -> res (list Z)) l n : n = zlen l ->
  (forall k x to, nthZ l k = Some x -> nthZ to k = Some x -> body k to = wr to k (f k x) \/ (body k to = Ok to /\ f k x = x)) ->
  exists l', for_ 0 n body l = Ok l' /\ zlen l' = zlen l /\ forall k x, nthZ l k = Some x -> nthZ l' k = Some (f k x).
Proof.
  intros -> HB. pose proof (zlen_nonneg l) as Hl0.
  destruct (for_inv (fun k to => zlen to = zlen l /\ forall j x, nthZ l j = Some x -> nthZ to j = Some (if j <? k then f j x else x)) 0 (zlen l) body l) as (l' & HF & Hz & Hl'); [exact Hl0| | |].
  - split; [reflexivity|]. intros j x Hj. pose proof (nthZ_Some _ _ _ Hj). destruct (Z.ltb_spec j 0); [lia|exact Hj].
  - intros k to Hk (Hz & Hto). destruct (nthZ_lt l k Hk) as [x Hx]. pose proof (Hto k x Hx) as Hk'. rewrite Z.ltb_irrefl in Hk'.
    destruct (HB k x to Hx Hk') as [E|[E Ef]]; rewrite E.
    + destruct (wr_spec to k (f k x)) as (to' & -> & Hz' & Hn); [lia|]. exists to'. split; [reflexivity|]. split; [lia|]. intros j y Hj. rewrite Hn. destruct (Z.eqb_spec j k) as [->|Hne].
      * rewrite Hx in Hj. injection Hj as <-. destruct (Z.ltb_spec k (k + 1)); [reflexivity|lia].
      * rewrite (Hto j y Hj). destruct (Z.ltb_spec j k), (Z.ltb_spec j (k + 1)); try reflexivity; lia.
    + exists to. split; [reflexivity|]. split; [exact Hz|]. intros j y Hj. rewrite (Hto j y Hj). destruct (Z.ltb_spec j k), (Z.ltb_spec j (k + 1)); try reflexivity; try lia.
      assert (j = k) by lia. subst j. rewrite Hx in Hj. injection Hj as <-. rewrite Ef. reflexivity.
  - exists l'. split; [exact HF|]. split; [exact Hz|]. intros k x Hk. rewrite (Hl' k x Hk). pose proof (nthZ_Some _ _ _ Hk). destruct (Z.ltb_spec k (zlen l)); [reflexivity|lia].
Qed.

(** element i of a group is at position tags[i] of its list *)
Definition placed (starts shifts parents tags : list Z) : Prop :=
  forall i p tag, nthZ parents i = Some p -> nthZ tags i = Some tag ->
    exists s sh, nthZ starts p = Some s /\ (if zlen shifts =? 0 then sh = 0 else nthZ shifts i = Some sh) /\ tag = i + sh - s.

Lemma adjust_kernel ptr n parents starts shifts tags : n = zlen ptr -> placed starts shifts parents tags -> zlen tags = zlen parents ->
  (forall x, In x ptr -> x = -1 \/ 0 <= x < zlen parents) ->
  exists ptr', (if zlen shifts =? 0 then awkward_NumpyArray_reduce_adjust_starts_64 ptr n parents starts
                else awkward_NumpyArray_reduce_adjust_starts_shifts_64 ptr n parents starts shifts) = Ok ptr' /\
    ptr' = map (fun x => if x =? -1 then -1 else match nthZ tags x with Some t => t | None => -1 end) ptr.
Proof.
  intros Hn HP Ht Hx.
  assert (G : forall body : Z -> list Z -> res (list Z),
    (forall k x to, nthZ ptr k = Some x -> nthZ to k = Some x -> body k to = wr to k (match nthZ tags x with Some t => t | None => -1 end) \/ (body k to = Ok to /\ x = -1)) ->
    exists ptr', for_ 0 n body ptr = Ok ptr' /\ ptr' = map (fun x => if x =? -1 then -1 else match nthZ tags x with Some t => t | None => -1 end) ptr).
  { intros body HB. destruct (for_inplace (fun k x => if x =? -1 then -1 else match nthZ tags x with Some t => t | None => -1 end) body ptr n Hn) as (l' & HF & Hz & Hl').
    - intros k x to Hk Hto. destruct (HB k x to Hk Hto) as [E|[E ->]]; rewrite E.
      + destruct (Z.eqb_spec x (-1)) as [->|_]; [|left; reflexivity]. rewrite nthZ_neg by lia. left. reflexivity.
      + right. split; reflexivity.
    - exists l'. split; [exact HF|]. apply list_eqZ; [rewrite zlen_map; exact Hz|]. intros k Hk. destruct (nthZ_lt ptr k) as [x Hkx]; [lia|]. rewrite (Hl' k x Hkx), nthZ_map, Hkx. reflexivity. }
  destruct (zlen shifts =? 0) eqn:Es.
  - apply G. intros k x to Hk Hto. destruct (Hx x (nthZ_In _ _ _ Hk)) as [->|Hr].
    + right. unfold rd. rewrite Hto. split; reflexivity.
    + left. destruct (nthZ_lt parents x Hr) as [p Hp]. destruct (nthZ_lt tags x ltac:(lia)) as [tag Htag]. destruct (HP x p tag Hp Htag) as (s & sh & H1 & H2 & H3). rewrite Es in H2.
      unfold rd. rewrite Hto. cbn [bind]. destruct (Z.leb_spec 0 x); [|lia]. rewrite Hp. cbn [bind]. rewrite H1. cbn [bind]. rewrite Htag. f_equal. lia.
  - apply G. intros k x to Hk Hto. destruct (Hx x (nthZ_In _ _ _ Hk)) as [->|Hr].
    + right. unfold rd. rewrite Hto. split; reflexivity.
    + left. destruct (nthZ_lt parents x Hr) as [p Hp]. destruct (nthZ_lt tags x ltac:(lia)) as [tag Htag]. destruct (HP x p tag Hp Htag) as (s & sh & H1 & H2 & H3). rewrite Es in H2.
      unfold rd. rewrite Hto. cbn [bind]. destruct (Z.leb_spec 0 x); [|lia]. rewrite Hp. cbn [bind]. rewrite H1. cbn [bind]. rewrite H2. cbn [bind]. rewrite Htag. f_equal. lia.
Qed.

Lemma mask_kernel parents n : 0 <= n -> inside n parents ->
  awkward_NumpyArray_reduce_mask_ByteMaskedArray_64 (alloc n) parents (zlen parents) n = Ok (map (fun g => match members parents parents g with [] => 1 | _ => 0 end) (zseq 0 n)).
Proof.
  intros Hn Hin. unfold awkward_NumpyArray_reduce_mask_ByteMaskedArray_64. rewrite (for_fill_all _ (fun _ => 1)); [|apply zlen_alloc; lia|reflexivity]. cbn [bind].
  rewrite (groups_kernel (fun _ (_ : Z) => 0) (fun _ => True) 1 n parents parents); try assumption; try reflexivity; try (intros; exact I); try exact I.
  - f_equal. apply map_ext. intros g. destruct (members parents parents g) as [|x l]; [reflexivity|]. cbn [fold_left]. induction l as [|y l IH]; [reflexivity|exact IH].
  - intros i p x t to Hp _ _ _. left. unfold rd. rewrite Hp. reflexivity.
Qed.

Lemma members_tags parents (tags : list Z) (vs : list value) g : zlen tags = zlen vs -> map snd (members parents (combine tags vs) g) = members parents vs g.
Proof.
  intros H. rewrite members_combine by exact H. pose proof (zlen_members parents tags vs g H) as HL. revert HL. generalize (members parents tags g) (members parents vs g). clear.
  intros a; induction a as [|x a IH]; intros [|y b] H; rewrite ?zlen_cons in H; try (change (zlen (@nil Z)) with 0 in H); try (change (zlen (@nil value)) with 0 in H); try (pose proof (zlen_nonneg a)); try (pose proof (zlen_nonneg b)); try lia; [reflexivity|].
  simpl. rewrite IH by lia. reflexivity.
Qed.
Lemma combine_tags (tags data : list Z) dt : zlen tags = zlen data ->
  combine tags (map (scalar dt) data) = map (fun i => (match nthZ tags i with Some t => t | None => -1 end, match nthZ data i with Some x => scalar dt x | None => VNone end)) (zseq 0 (zlen data)).
Proof.
  intros H. pose proof (zlen_nonneg data). apply list_eqZ; [rewrite zlen_combine, zlen_map, zlen_zseq by (rewrite ?zlen_map; lia); lia|].
  intros i Hi. rewrite zlen_combine in Hi by (rewrite zlen_map; lia). rewrite nthZ_combine, !nthZ_map, nthZ_zseq by lia. cbn [option_map]. rewrite Z.add_0_l.
  destruct (nthZ_lt tags i) as [t ->]; [lia|]. destruct (nthZ_lt data i) as [x ->]; [lia|]. reflexivity.
Qed.

Lemma numpy_ok F r mask dt data starts shifts parents n kd tags : 0 <= n -> zlen parents = zlen data -> inside n parents -> zlen tags = zlen data ->
  (returns_positions r = true -> placed starts shifts parents tags) ->
  good (numpy_reduce F r mask dt data starts shifts parents n kd) (Some (map (fun g => leaf F r mask kd dt (members parents (combine tags (map (scalar dt) data)) g)) (zseq 0 n))).
Proof.
  intros Hn Hl Hin Ht HP. pose proof (zlen_nonneg data) as Hd0. unfold numpy_reduce.
  assert (PTR : exists ptr, (let* ptr := apply_reducer F r dt data parents n in
      if returns_positions r then if zlen shifts =? 0 then awkward_NumpyArray_reduce_adjust_starts_64 ptr n parents starts else awkward_NumpyArray_reduce_adjust_starts_shifts_64 ptr n parents starts shifts else Ok ptr) = Ok ptr
      /\ map (scalar (return_dtype r dt)) ptr = map (fun g => reduced F r dt (members parents (combine tags (map (scalar dt) data)) g)) (zseq 0 n)).
  { destruct (returns_positions r) eqn:Er.
    - rewrite apply_arg by assumption. cbn [bind]. set (b := match r with Argmin => lt_of F dt | _ => _ end). set (beats := match r with Argmin => less F | _ => fun v w => less F w v end).
      set (h := fun i => (match nthZ tags i with Some t => t | None => -1 end, match nthZ data i with Some x => scalar dt x | None => VNone end) : member).
      assert (HW : forall g, exists w, fold_left (best_index b data) (members parents (zseq 0 (zlen data)) g) (-1) = match w with Some i => i | None => -1 end /\
         winner beats (map h (members parents (zseq 0 (zlen data)) g)) = option_map h w /\ (forall i, w = Some i -> In i (members parents (zseq 0 (zlen data)) g))).
      { intros g. apply arg_winner.
        - intros i j x y _ _ Hx Hy. unfold h. rewrite Hx, Hy. cbn [snd]. unfold beats, b. destruct r; try discriminate Er; apply less_scalar.
        - intros i Hi. apply pick_In, In_zseq in Hi. lia. }
      destruct (adjust_kernel (map (fun g => fold_left (best_index b data) (members parents (zseq 0 (zlen data)) g) (-1)) (zseq 0 n)) n parents starts shifts tags) as (ptr' & E & Ep);
        [rewrite zlen_map, zlen_zseq by lia; lia|apply HP; reflexivity|lia| |].
      { intros x Hx. apply in_map_iff in Hx as (g & <- & _). destruct (HW g) as ([i|] & -> & _ & Hi); [|left; reflexivity]. right. specialize (Hi i eq_refl). apply pick_In, In_zseq in Hi. lia. }
      exists ptr'. split; [exact E|]. subst ptr'. rewrite !map_map. apply map_ext. intros g. destruct (HW g) as (w & E1 & E2 & Hi). rewrite E1.
      assert (HC : combine tags (map (scalar dt) data) = map h (zseq 0 (zlen data))) by (apply combine_tags; exact Ht). rewrite HC, members_map.
      assert (ER : reduced F r dt (map h (members parents (zseq 0 (zlen data)) g)) = position (option_map h w)) by (rewrite <- E2; destruct r; try discriminate Er; reflexivity).
      etransitivity; [|symmetry; exact ER]. unfold position. destruct w as [i|]; cbn [option_map]; [|destruct r; try discriminate Er; reflexivity]. specialize (Hi i eq_refl). apply pick_In, In_zseq in Hi.
      destruct (Z.eqb_spec i (-1)); [lia|]. unfold h. cbn [fst]. destruct r; try discriminate Er; reflexivity.
    - rewrite apply_code by assumption. cbn [bind]. eexists. split; [reflexivity|]. rewrite map_map. apply map_ext. intros g. apply code_of_reduced; [exact Er|]. rewrite members_tags by (rewrite zlen_map; exact Ht). apply members_map. }
  destruct PTR as (ptr & EP & HD).
  destruct (apply_reducer F r dt data parents n) as [p0|m|] eqn:EA; try discriminate EP. cbn [bind] in EP |- *. rewrite EP. cbn [bind].
  assert (OUT : exists out, (if mask then let* outmask := awkward_NumpyArray_reduce_mask_ByteMaskedArray_64 (alloc n) parents (zlen parents) n in mkByteMasked outmask false (Numpy (return_dtype r dt) ptr) else Ok (Numpy (return_dtype r dt) ptr)) = Ok out /\
      den out = Some (map (fun g => leaf F r mask false dt (members parents (combine tags (map (scalar dt) data)) g)) (zseq 0 n))).
  { assert (Hz : zlen ptr = n) by (apply (f_equal zlen) in HD; rewrite !zlen_map, zlen_zseq in HD by lia; lia).
    destruct mask.
    - rewrite mask_kernel by assumption. cbn [bind]. unfold mkByteMasked. cbn [length_]. rewrite zlen_map, zlen_zseq, Hz by lia. destruct (Z.ltb_spec n (n - 0)); [lia|]. eexists. split; [reflexivity|].
      cbn [den]. rewrite !zlen_map, zlen_zseq, Hz by lia. destruct (Z.leb_spec (n - 0) n); [|lia]. f_equal. rewrite HD.
      assert (E : forall g, zlen (members parents parents g) = zlen (members parents (combine tags (map (scalar dt) data)) g)) by (intros g; apply zlen_members; rewrite zlen_combine by (rewrite zlen_map; lia); lia).
      clear -E. induction (zseq 0 n) as [|g l IH]; [reflexivity|]. cbn [map combine]. rewrite IH. f_equal. cbn [fst snd]. unfold leaf.
      specialize (E g). destruct (members parents parents g) as [|a ma], (members parents (combine tags _) g) as [|b mb]; rewrite ?zlen_cons in E; try reflexivity; exfalso; [pose proof (zlen_nonneg mb)|pose proof (zlen_nonneg ma)]; change (zlen (@nil Z)) with 0 in E; change (zlen (@nil (Z * value))) with 0 in E; change (zlen (@nil member)) with 0 in E; lia.
    - eexists. split; [reflexivity|]. cbn [den]. rewrite HD. f_equal. apply map_ext. intros g. unfold leaf. destruct (members _ _ g); reflexivity. }
  destruct OUT as (out & -> & HO). cbn [bind]. destruct kd; [|exists out; auto].
  enough (HR : den (Regular 1 (zlen data) out) = Some (map (fun g => leaf F r mask true dt (members parents (combine tags (map (scalar dt) data)) g)) (zseq 0 n))) by (exists (Regular 1 (zlen data) out); split; [eapply mkRegular_den; exact HR|exact HR]).
  rewrite (regular_den 1 (zlen data) out (map (fun v => [v]) (map (fun g => leaf F r mask false dt (members parents (combine tags (map (scalar dt) data)) g)) (zseq 0 n)))).
  - rewrite !map_map. f_equal.
  - lia.
  - lia.
  - intros l Hin'. apply in_map_iff in Hin' as (v & <- & _). reflexivity.
  - rewrite HO. f_equal. generalize (zseq 0 n). clear. induction l as [|g l IH]; [reflexivity|]. cbn [map concat app]. f_equal. exact IH.
Qed.
