(** Output buffers of the Forth machine: a good buffer stays good, and its contents are what was written *)
From Verif Require Import Base BaseLemmas Forth.
Local Open Scope list_scope.
Local Open Scope Z_scope.

(** the values written so far *)
Definition contents (b : outbuf) : list (option Z) := firstn (Z.to_nat (olen b)) (cells b).

Record good (b : outbuf) (vs : list Z) : Prop := mkGood {
  g_len : olen b = zlen vs;
  g_room : olen b <= reserved b;
  g_vals : contents b = map Some vs
}.

Lemma good_parts : forall b vs, good b vs <-> exists rest, cells b = map Some vs ++ rest /\ olen b = zlen vs.
Proof.
  intros b vs; split.
  - intros [ L R V ]. exists (skipn (Z.to_nat (olen b)) (cells b)). unfold contents in V.
    rewrite <- V. split; [ symmetry; apply firstn_skipn | exact L ].
  - intros (rest & C & L). constructor.
    + exact L.
    + unfold reserved. rewrite C, L, zlen_app, zlen_map. pose proof (zlen_nonneg rest). lia.
    + unfold contents. rewrite C, L. unfold zlen. rewrite Nat2Z.id.
      rewrite <- (map_length Some vs), firstn_app, Nat.sub_diag, firstn_all. apply app_nil_r.
Qed.

Lemma grow_loop_ok : forall grow, (forall r, 0 < r -> r < grow r) -> forall fuel next r, 0 < r -> (Z.to_nat (next - r) <= fuel)%nat ->
  exists r', grow_loop fuel grow next r = Some r' /\ next <= r' /\ r <= r'.
Proof.
  intros grow G; induction fuel as [ | f IH ]; intros next r Hr L; cbn [grow_loop].
  - destruct (Z.leb_spec next r); [ exists r; auto with zarith | lia ].
  - destruct (Z.leb_spec next r); [ exists r; auto with zarith | ].
    pose proof (G r Hr). destruct (IH next (grow r) ltac:(lia) ltac:(lia)) as (r' & E & A & B).
    exists r'; repeat split; [ exact E | lia | lia ].
Qed.

Definition growing (m : machine) : Prop := 0 < m_outinit m /\ forall r, 0 < r -> r < m_grow m r.

Lemma maybe_resize_ok : forall m b vs next k, growing m -> 0 < reserved b -> good b vs -> 
  exists b', maybe_resize m next b k = k b' /\ good b' vs /\ next <= reserved b' /\ 0 < reserved b' /\ otype b' = otype b.
Proof.
  intros m b vs next k [ _ G ] R Hg. unfold maybe_resize. destruct (Z.ltb_spec (reserved b) next).
  - destruct (grow_loop_ok (m_grow m) G (Z.to_nat (next - reserved b)) next (reserved b) R (le_n _)) as (r' & -> & A & B).
    eexists; split; [ reflexivity | ]. apply good_parts in Hg. destruct Hg as (rest & C & L).
    assert (E : reserved (mkOut (otype b) (cells b ++ repeat None (Z.to_nat (r' - reserved b))) (olen b)) = r').
    { unfold reserved in *. cbn [cells]. rewrite zlen_app. unfold zlen at 2. rewrite repeat_length. lia. }
    repeat split; try lia.
    + exact L.
    + cbn. pose proof (zlen_nonneg rest). rewrite C in *. unfold reserved in *. rewrite C, zlen_app, zlen_map in *. lia.
    + unfold contents. cbn [cells olen]. rewrite C, L. unfold zlen. rewrite Nat2Z.id, <- app_assoc.
      rewrite <- (map_length Some vs), firstn_app, Nat.sub_diag, firstn_all. apply app_nil_r.
  - exists b. repeat split; try assumption; try lia. apply Hg. apply Hg. apply Hg.
Qed.

Lemma upd_app_mid : forall {A} (a : list A) x y r, upd (a ++ x :: r) (List.length a) y = a ++ y :: r.
Proof. induction a as [ | h t IH ]; intros; cbn; [ reflexivity | f_equal; apply IH ]. Qed.

(** storing after the contents *)
Lemma store_all_ok : forall vs b base k, cells b = map Some base ++ skipn (List.length base) (cells b) ->
  zlen base + zlen vs <= reserved b ->
  exists b', store_all (zlen base) vs b k = k b' /\ cells b' = map Some (base ++ vs) ++ skipn (List.length (base ++ vs)) (cells b)
    /\ otype b' = otype b /\ olen b' = olen b.
Proof.
  induction vs as [ | v vs IH ]; intros b base k C R; cbn [store_all].
  - exists b. rewrite app_nil_r. auto.
  - rewrite zlen_cons in R. pose proof (zlen_nonneg base). pose proof (zlen_nonneg vs).
    unfold store. destruct (Z.leb_spec 0 (zlen base)); [ | lia ]. destruct (Z.ltb_spec (zlen base) (reserved b)); [ | lia ].
    cbn [andb]. set (b1 := mkOut _ _ _).
    assert (S : exists x r, skipn (List.length base) (cells b) = x :: r).
    { destruct (skipn (List.length base) (cells b)) eqn:E; [ | eauto ].
      exfalso. assert (List.length (skipn (List.length base) (cells b)) = 0%nat) by (rewrite E; reflexivity).
      rewrite skipn_length in *. unfold reserved, zlen in *. lia. }
    destruct S as (x & r & S). rewrite S in C.
    assert (C1 : cells b1 = map Some (base ++ [v]) ++ r).
    { unfold b1; cbn [cells]. rewrite C. unfold zlen. rewrite Nat2Z.id, <- (map_length Some base), upd_app_mid.
      rewrite map_app, <- app_assoc. reflexivity. }
    assert (N : skipn (List.length (base ++ [v])) (cells b1) = r).
    { rewrite C1, <- (map_length Some (base ++ [v])), skipn_app, Nat.sub_diag, skipn_all. reflexivity. }
    assert (N' : forall n, skipn (n + List.length (base ++ [v])) (cells b) = skipn n r).
    { intros n. rewrite C, <- (map_length Some (base ++ [v])), map_app. cbn [map].
      change (x :: r) with ([x] ++ r). rewrite app_assoc. rewrite skipn_app.
      rewrite skipn_all2 by (rewrite !app_length, !map_length; cbn; lia). cbn [app]. f_equal. rewrite !app_length, !map_length; cbn; lia. }
    destruct (IH b1 (base ++ [v]) k) as (b' & E1 & E2 & E3 & E4).
    + rewrite N. exact C1.
    + rewrite zlen_app. change (zlen [v]) with 1. unfold b1, reserved in *; cbn [cells]. rewrite zlen_upd. lia.
    + exists b'. rewrite <- E1. split; [ f_equal; rewrite zlen_app; reflexivity | ].
      rewrite <- app_assoc in E2. cbn [app] in E2. split; [ | auto ].
      rewrite E2. f_equal.
      replace (List.length (base ++ v :: vs)) with (List.length vs + List.length (base ++ [v]))%nat
        by (rewrite !app_length; cbn; lia).
      rewrite N', C1. rewrite skipn_app, map_length.
      rewrite skipn_all2 by (rewrite map_length; lia). cbn [app]. f_equal. lia.
Qed.

(** write_copy and write_one append *)
Lemma good_cells : forall b vs, good b vs -> cells b = map Some vs ++ skipn (List.length vs) (cells b).
Proof.
  intros b vs H. apply good_parts in H. destruct H as (rest & C & L). rewrite C at 2.
  rewrite <- (map_length Some vs), skipn_app, Nat.sub_diag, skipn_all. exact C.
Qed.

Lemma write_copy_ok : forall m b base vs, growing m -> 0 < reserved b -> good b base ->
  exists b', write_copy m vs b = OOk b' /\ good b' (base ++ vs) /\ 0 < reserved b' /\ otype b' = otype b.
Proof.
  intros m b base vs Gm R Hg. unfold write_copy.
  destruct (maybe_resize_ok m b base (olen b + zlen vs)
     (fun b0 => store_all (olen b0) vs b0 (fun b1 => OOk (set_olen (olen b + zlen vs) b1))) Gm R Hg) as (b1 & -> & G1 & N1 & R1 & T1).
  rewrite (g_len _ _ G1). pose proof (g_len _ _ Hg) as L.
  destruct (store_all_ok vs b1 base (fun b1 => OOk (set_olen (olen b + zlen vs) b1)) (good_cells _ _ G1) ltac:(lia))
    as (b2 & -> & C & T & O).
  eexists; split; [ reflexivity | ]. split; [ | split; [ | cbn; congruence ] ].
  - apply good_parts. eexists; split; [ exact C | ]. cbn. rewrite zlen_app. lia.
  - unfold reserved, set_olen; cbn [cells]. rewrite C. unfold reserved in R1.
    rewrite zlen_app, zlen_map. unfold zlen in *. rewrite skipn_length. rewrite L in N1. rewrite app_length in *. lia.
Qed.

Lemma write_one_ok : forall m b base v, growing m -> 0 < reserved b -> good b base ->
  exists b', write_one m v b = OOk b' /\ good b' (base ++ [v]) /\ 0 < reserved b' /\ otype b' = otype b.
Proof.
  intros m b base v Gm R Hg.
  assert (E : write_one m v b = write_copy m [v] b).
  { unfold write_one, write_copy. cbn zeta. change (zlen [v]) with 1. cbn [set_olen olen].
    unfold maybe_resize, set_olen, reserved; cbn [cells olen otype].
    destruct (zlen (cells b) <? olen b + 1).
    - destruct (grow_loop _ _ _ _); [ | reflexivity ]. cbn [store_all olen]. unfold store, reserved; cbn [cells olen otype].
      replace (olen b + 1 - 1) with (olen b) by lia. destruct (_ && _); reflexivity.
    - cbn [store_all olen]. unfold store, reserved; cbn [cells olen otype].
      replace (olen b + 1 - 1) with (olen b) by lia. destruct (_ && _); reflexivity. }
  rewrite E. apply write_copy_ok; assumption.
Qed.

Lemma load_last : forall b base v k, good b (base ++ [v]) -> load (olen b - 1) b k = k v.
Proof.
  intros b base v k Hg. unfold load. pose proof (good_cells _ _ Hg) as C. pose proof (g_len _ _ Hg) as L.
  rewrite C, L, map_app, <- app_assoc, zlen_app. change (zlen [v]) with 1. rewrite nthZ_app, zlen_map.
  destruct (Z.ltb_spec (zlen base + 1 - 1) (zlen base)); [ lia | ].
  replace (zlen base + 1 - 1 - zlen base) with 0 by lia. reflexivity.
Qed.

Lemma write_dup_ok : forall m b base v n, growing m -> 0 < reserved b -> good b (base ++ [v]) ->
  exists b', odup m n b = OOk b' /\ good b' (base ++ [v] ++ repeat v (Z.to_nat n)) /\ 0 < reserved b' /\ otype b' = otype b.
Proof.
  intros m b base v n Gm R Hg. unfold odup. pose proof (g_len _ _ Hg) as L. rewrite zlen_app in L. change (zlen [v]) with 1 in L.
  pose proof (zlen_nonneg base). destruct (Z.eqb_spec (olen b) 0); [ lia | ]. destruct (Z.ltb_spec 0 n).
  - destruct (maybe_resize_ok m b (base ++ [v]) (olen b + n)
      (fun b0 => load (olen b0 - 1) b0 (fun v => store_all (olen b0) (repeat v (Z.to_nat n)) b0 (fun b1 => OOk (set_olen (olen b + n) b1))))
      Gm R Hg) as (b1 & -> & G1 & N1 & R1 & T1).
    rewrite (load_last _ _ _ _ G1). rewrite (g_len _ _ G1).
    assert (Z1 : zlen (repeat v (Z.to_nat n)) = n) by (unfold zlen; rewrite repeat_length; lia).
    destruct (store_all_ok (repeat v (Z.to_nat n)) b1 (base ++ [v]) (fun b1 => OOk (set_olen (olen b + n) b1)) (good_cells _ _ G1))
      as (b2 & -> & C & T & O).
    { rewrite Z1, zlen_app. change (zlen [v]) with 1. lia. }
    eexists; split; [ reflexivity | ]. split; [ | split; [ | cbn; congruence ] ].
    + rewrite app_assoc. apply good_parts. eexists; split; [ exact C | ]. cbn. rewrite !zlen_app, Z1. change (zlen [v]) with 1. lia.
    + unfold reserved, set_olen; cbn [cells]. rewrite C, zlen_app, zlen_map, !zlen_app, Z1. change (zlen [v]) with 1.
      pose proof (zlen_nonneg (skipn (List.length ((base ++ [v]) ++ repeat v (Z.to_nat n))) (cells b1))). lia.
  - exists b. replace (Z.to_nat n) with 0%nat by lia. cbn [repeat]. rewrite app_nil_r. auto.
Qed.

Lemma rewind_ok : forall b vs n, 0 <= n -> good b vs ->
  orewind n b = (if zlen vs <? n then OBeyond else OOk (set_olen (zlen vs - n) b))
  /\ (n <= zlen vs -> good (set_olen (zlen vs - n) b) (firstn (Z.to_nat (zlen vs - n)) vs)).
Proof.
  intros b vs n Hn Hg. unfold orewind. rewrite (g_len _ _ Hg). split.
  - destruct (Z.ltb_spec (zlen vs - n) 0), (Z.ltb_spec (zlen vs) n); try lia; reflexivity.
  - intros L. apply good_parts. pose proof (good_cells _ _ Hg) as C. pose proof (zlen_nonneg vs).
    exists (map Some (skipn (Z.to_nat (zlen vs - n)) vs) ++ skipn (List.length vs) (cells b)). split.
    + cbn [set_olen cells]. rewrite app_assoc, <- map_app, firstn_skipn. exact C.
    + cbn [set_olen olen]. unfold zlen in *. rewrite firstn_length. lia.
Qed.

Lemma write_add_ok : forall m b base x v, growing m -> 0 < reserved b -> good b base ->
  oadd m (otype b) (last base 0) (cast_out m (otype b) x) = Some v ->
  exists b', owrite_add m x b = OOk b' /\ good b' (base ++ [v]) /\ 0 < reserved b' /\ otype b' = otype b.
Proof.
  intros m b base x v Gm R Hg A.
  assert (E : owrite_add m x b = write_one m v b).
  { assert (P : forall prev, last base 0 = prev ->
       (let b := set_olen (olen b + 1) b in
        maybe_resize m (olen b) b (fun b => match oadd m (otype b) prev (cast_out m (otype b) x) with
          | Some v => store (olen b - 1) v b OOk | None => OBad Arith end)) = write_one m v b).
    { intros prev Hp. subst prev. unfold write_one. cbn zeta. unfold maybe_resize. cbn [otype set_olen].
      destruct (_ <? _); [ destruct (grow_loop _ _ _ _); [ | reflexivity ] | ]; cbn [otype]; rewrite A; reflexivity. }
    unfold owrite_add. pose proof (g_len _ _ Hg) as L. pose proof (zlen_nonneg base).
    destruct (Z.eqb_spec (olen b) 0).
    - apply P. destruct base; [ reflexivity | ]. rewrite zlen_cons in *. pose proof (zlen_nonneg base). lia.
    - destruct (exists_last (l := base)) as (base' & u & ->). { intros ->. apply n. rewrite L. reflexivity. }
      rewrite (load_last _ _ _ _ Hg). apply P. apply last_last. }
  rewrite E. apply write_one_ok; assumption.
Qed.
