(** Strided arrays: slices with index arrays *)
From Verif Require Import Base BaseLemmas LoopLemmas OmapLemmas Content KRange KGetitem KCore Core SpecSlice PRange PCarry Strided SpecStrided PStrided PStrided2.
Local Open Scope list_scope.
Local Open Scope Z_scope.

(** ** All the indices of a shape *)
Lemma list_as_map {A} (d : A) (l : list A) : l = map (fun j => match nthZ l j with Some x => x | None => d end) (zseq 0 (zlen l)).
Proof.
  pose proof (zlen_nonneg l). apply list_eqZ; [rewrite zlen_map, zlen_zseq; lia|]. intros i Hi. rewrite nthZ_map, nthZ_zseq by lia. cbn [option_map]. destruct (nthZ_lt l i Hi) as (x & E). rewrite !Z.add_0_l, !E. reflexivity.
Qed.
Lemma indices_grid n sh : indices (n :: sh) = grid (fun i j => i :: match nthZ (indices sh) j with Some x => x | None => [] end) n (zlen (indices sh)).
Proof. cbn [indices]. rewrite flat_map_concat_map. unfold grid. f_equal. apply map_ext. intros i. rewrite (list_as_map [] (indices sh)) at 1. rewrite map_map. reflexivity. Qed.
Lemma zlen_indices sh : nonneg sh -> zlen (indices sh) = prod sh.
Proof. induction 1 as [|n sh Hn H IH]; [reflexivity|]. rewrite indices_grid, zlen_grid by (auto; apply zlen_nonneg). rewrite IH, prod_cons. reflexivity. Qed.
Lemma In_indices : forall sh p, In p (indices sh) <-> inside sh p.
Proof.
  induction sh as [|n sh IH]; intros p; cbn [indices].
  - split; [intros [<-|[]]; constructor|intros H; apply inside_nil in H as ->; left; reflexivity].
  - rewrite in_flat_map. split.
    + intros (i & Hi & H). apply in_map_iff in H as (q & <- & Hq). apply In_zseq in Hi. apply inside_cons. split; [exact Hi|now apply IH].
    + intros H. apply inside_inv in H as (i & q & -> & Hi & Hq). exists i. split; [now apply In_zseq|]. apply in_map, IH, Hq.
Qed.
Lemma nthZ_indices sh p : inside sh p -> nthZ (indices sh) (dot p (cst 1 sh)) = Some p.
Proof.
  induction 1 as [|n i sh p H1 H2 IH]; [reflexivity|]. fold (inside sh p) in H2. rewrite indices_grid. cbn [cst dot]. rewrite Z.mul_1_l.
  assert (N : nonneg sh) by (clear - H2; induction H2; constructor; auto; lia). rewrite <- (zlen_indices sh N). rewrite nthZ_grid; [rewrite IH; reflexivity|exact H1|].
  rewrite zlen_indices by exact N. pose proof (dot_cst 1 sh p ltac:(lia) H2). lia.
Qed.
Lemma cst_app isz a b : cst isz (a ++ b) = cst (isz * prod b) a ++ cst isz b.
Proof. induction a as [|n a IH]; [reflexivity|]. cbn [app cst]. rewrite IH, prod_app. f_equal; lia. Qed.
Lemma dot_cst_scale isz sh : forall p, dot p (cst isz sh) = isz * dot p (cst 1 sh).
Proof. induction sh as [|n sh IH]; intros p; destruct p as [|i p]; cbn [cst dot]; [lia|lia|lia|]. rewrite IH. lia. Qed.

(** ** Two arrays filled by one loop *)
Lemma for_pair {A B} (f1 : Z -> A -> res A) (f2 : Z -> B -> res B) (f : Z -> A * B -> res (A * B)) lo hi s1 s2 t1 t2 :
  for_ lo hi f1 s1 = Ok t1 -> for_ lo hi f2 s2 = Ok t2 ->
  (forall i a b a' b', f1 i a = Ok a' -> f2 i b = Ok b' -> f i (a, b) = Ok (a', b')) -> for_ lo hi f (s1, s2) = Ok (t1, t2).
Proof.
  intros H1 H2 H. unfold for_ in *. generalize dependent lo. intros lo. generalize (Z.to_nat (hi - lo)). intros k H1 H2. revert lo s1 s2 H1 H2. induction k as [|k IH]; intros lo s1 s2 H1 H2; cbn [loop] in *.
  - congruence.
  - apply bind_Ok in H1 as (a & E1 & H1). apply bind_Ok in H2 as (b & E2 & H2). rewrite (H _ _ _ _ _ E1 E2). cbn [bind]. apply IH; auto.
Qed.

(** ** Flattening an index array *)
Lemma ravel_ok index b strides (v : list Z -> Z) : nonneg b -> zlen strides = zlen b -> 1 <= zlen b <= 2 -> (forall p, inside b p -> nthZ index (dot p strides) = Some (v p)) ->
  nd_ravel index b strides = Ok (map v (indices b)).
Proof.
  intros F L D H. destruct b as [|n [|m [|]]], strides as [|s [|t [|]]]; try (exfalso; unfold zlen in L, D; cbn [List.length] in L, D; lia); unfold nd_ravel.
  - cbn [awkward_slicearray_ravel fold_left]. inversion F; subst. rewrite (for_fill_all _ (fun i => v [i])).
    + f_equal. cbn [indices]. rewrite flat_map_concat_map. cbn [map]. induction (zseq 0 n) as [|x l IH]; [reflexivity|]. cbn [map concat app]. rewrite IH. reflexivity.
    + rewrite zlen_alloc; lia.
    + intros i o Hi _. specialize (H [i] ltac:(apply inside_cons; split; [exact Hi|constructor])). cbn [dot] in H. unfold rd. replace (0 + i * s) with (i * s + 0) by lia. rewrite H. cbn [bind]. reflexivity.
  - inversion F as [|? ? Fn F']; subst. inversion F' as [|? ? Fm _]; subst.
    change (awkward_slicearray_ravel (alloc (fold_left Z.mul [n; m] 1)) 0 index 0 [n; m] [s; t]) with
      (for_ 0 n (fun i to => for_ 0 m (fun j to => let* x := rd index (0 + i * s + j * t) in wr to (0 + i * m + j) x) to) (alloc (fold_left Z.mul [n; m] 1))).
    rewrite (fill_grid (fun i j to => let* x := rd index (0 + i * s + j * t) in wr to (0 + i * m + j) x) (fun i j => v [i; j])); auto.
    + f_equal. cbn [indices]. unfold grid. rewrite flat_map_concat_map, concat_map, map_map. f_equal. apply map_ext. intros i. rewrite map_map, flat_map_concat_map, concat_map, map_map.
      induction (zseq 0 m) as [|x l IH]; [reflexivity|]. cbn [map concat app]. f_equal. exact IH.
    + cbn [fold_left]. rewrite zlen_alloc; nia.
    + intros i j o Hi Hj _. specialize (H [i; j] ltac:(apply inside_cons; split; [exact Hi|apply inside_cons; split; [exact Hj|constructor]])). cbn [dot] in H. unfold rd. replace (0 + i * s + j * t) with (i * s + (j * t + 0)) by lia. rewrite H. cbn [bind]. f_equal; lia.
Qed.
Definition pos0 (i n : Z) : Z := match position i n with Some k => k | None => 0 end.
Lemma regular_at_position x n : regular_at x n = match position x n with Some k => Ok k | None => Err "index out of range"%string end.
Proof. unfold regular_at, position. cbv zeta. destruct (_ && _); reflexivity. Qed.
Lemma regularize_ok n : forall l, if forallb (fun x => match position x n with Some _ => true | None => false end) l
  then awkward_regularize_arrayslice l n = Ok (map (fun x => pos0 x n) l) else exists m, awkward_regularize_arrayslice l n = Err m.
Proof.
  induction l as [|x l IH]; [reflexivity|]. cbn [forallb]. unfold awkward_regularize_arrayslice in *. cbn [mapres]. rewrite regular_at_position.
  destruct (position x n) as [k|] eqn:E; cbn [bind andb]; [|eexists; reflexivity].
  destruct (forallb _ l); [|destruct IH as (m & ->); eexists; reflexivity]. rewrite IH. cbn [bind map]. unfold pos0 at 2. rewrite E. reflexivity.
Qed.
Lemma position_range i n k : position i n = Some k -> 0 <= k < n.
Proof. unfold position. cbv zeta. destruct ((0 <=? _) && (_ <? n)) eqn:E; [|discriminate]. intros H; injection H as <-. lia. Qed.

(** ** What becomes of the items *)
Definition seals (b : list Z) (it0 it : nditem) : Prop :=
  match it0 with
  | NAt _ | NArray _ _ _ => exists index strides, it = NArray index b strides /\ zlen strides = zlen b /\ forall p, inside b p -> nthZ index (dot p strides) = says it0 p /\ says it0 p <> None
  | _ => it = it0
  end.
Lemma seals_consumed b : forall l0 l, Forall2 (seals b) l0 l -> consumed l = consumed l0.
Proof.
  induction 1 as [|i0 i l0 l H1 H2 IH]; [reflexivity|]. unfold consumed in *. cbn [filter].
  destruct i0; cbn [seals] in H1; try (subst i; rewrite ?zlen_cons, IH; reflexivity); destruct H1 as (? & ? & -> & _); rewrite !zlen_cons, IH; reflexivity.
Qed.

Section Adv.
Variables (mem : list Z) (off isz : Z) (b : list Z).
Hypothesis Hisz : 0 < isz.
Hypothesis Hb : nonneg b.
Hypothesis Hdim : 1 <= zlen b <= 2.

Definition pidx (adv : option (list Z)) (i : Z) : option (list Z) :=
  match adv with Some A => match nthZ A i with Some k => nthZ (indices b) k | None => None end | None => None end.
Definition is_some {A} (o : option A) : bool := match o with Some _ => true | None => false end.
Definition adv_ok (adv : option (list Z)) (carry : list Z) : Prop :=
  match adv with Some A => zlen A = zlen carry /\ forall k, In k A -> 0 <= k < prod b | None => True end.
Definition next_ok (sh carry : list Z) (adv : option (list Z)) (items : list nditem) (r : res ndarray) : Prop :=
  match slice_shape (Some b) (is_some adv) items sh with
  | Some rs => exists out d, r = Ok out /\ nd_shape out = d :: rs /\ nd_strides out = isz * prod rs :: cst isz rs /\ nd_offset out = 0 /\ nd_itemsize out = isz /\ nonneg rs /\
      forall i c idx, nthZ carry i = Some c -> inside rs idx ->
        exists src, source (Some b) (pidx adv i) items sh idx = Some src /\ inside sh src /\ element out (i :: idx) = block mem (off + c * (isz * prod sh) + dot src (cst isz sh)) isz
  | None => exists m, r = Err m
  end.

Lemma range_next n sh carry adv carry' adv' start stop step items a r length :
  0 <= n -> (forall j, 0 <= j < zlen (positions start stop step n) -> nthZ (positions start stop step n) j = Some (a + j * step) /\ 0 <= a + j * step < n) ->
  (forall i c j, nthZ carry i = Some c -> 0 <= j < zlen (positions start stop step n) ->
     nthZ carry' (i * zlen (positions start stop step n) + j) = Some (n * c + a + j * step) /\ pidx adv' (i * zlen (positions start stop step n) + j) = pidx adv i) ->
  is_some adv' = is_some adv ->
  next_ok sh carry' adv' items r ->
  next_ok (n :: sh) carry adv (NRange start stop step :: items)
    (let* out := r in match nd_strides out with
      | t :: _ => Ok (mkND (nd_mem out) (length :: zlen (positions start stop step n) :: tl (nd_shape out)) (zlen (positions start stop step n) * t :: nd_strides out) (nd_offset out) isz)
      | [] => UB end).
Proof.
  intros Hn P C Ea H. unfold next_ok in *. cbn [slice_shape]. rewrite Ea in H. set (l := zlen (positions start stop step n)) in *. destruct (slice_shape (Some b) (is_some adv) items sh) as [rs|]; cbn [option_map].
  - destruct H as (out & d & -> & Es & Et & Eo & Ei & F & G). cbn [bind]. rewrite Et, Es, Eo. cbn [tl]. eexists _, _. split; [reflexivity|]. cbn [nd_mem nd_shape nd_strides nd_offset nd_itemsize].
    split; [reflexivity|]. split; [cbn [cst]; rewrite prod_cons; f_equal; lia|]. split; [reflexivity|]. split; [reflexivity|]. split; [constructor; [apply zlen_nonneg|exact F]|].
    intros i c idx Ec I. apply inside_inv in I as (j & idx' & -> & Hj & I). destruct (P j Hj) as [P1 P2]. destruct (C i c j Ec Hj) as [C1 C2]. destruct (G _ _ idx' C1 I) as (src & S1 & S2 & S3).
    exists (a + j * step :: src). cbn [source]. rewrite <- C2, P1, S1. split; [reflexivity|]. split; [apply inside_cons; auto|].
    unfold element in *. rewrite Et, Eo, Ei in S3. cbn [nd_mem nd_shape nd_strides nd_offset nd_itemsize dot cst] in *. rewrite prod_cons.
    replace (off + c * (isz * (n * prod sh)) + ((a + j * step) * (isz * prod sh) + dot src (cst isz sh))) with (off + (n * c + a + j * step) * (isz * prod sh) + dot src (cst isz sh)) by lia. rewrite <- S3. f_equal; lia.
  - destruct H as (m & ->). eexists; reflexivity.
Qed.

Lemma next_unfold fuel a items carry advanced length stride : nd_getitem_next (S fuel) a items carry advanced length stride =
  match items with
  | [] =>
      let* out := awkward_NumpyArray_getitem_next_null (nd_mem a) (nd_offset a) (zlen carry) stride carry in
      Ok (mkND out (zlen carry :: tl (nd_shape a)) (stride :: tl (nd_strides a)) 0 (nd_itemsize a))
  | NAt at_ :: tail =>
      match nd_shape a, nd_strides a with
      | _ :: n :: _, _ :: s :: _ =>
          let next := mkND (nd_mem a) (flatten_shape (nd_shape a)) (tl (nd_strides a)) (nd_offset a) (nd_itemsize a) in
          let* i := regular_at at_ n in
          let* nextcarry := awkward_NumpyArray_getitem_next_at (alloc (zlen carry)) carry (zlen carry) n i in
          let* out := nd_getitem_next fuel next tail nextcarry advanced length s in
          Ok (mkND (nd_mem out) (length :: tl (nd_shape out)) (nd_strides out) (nd_offset out) (nd_itemsize a))
      | _, _ => Err "too many dimensions in slice"%string
      end
  | NRange start stop step :: tail =>
      match nd_shape a, nd_strides a with
      | _ :: n :: _, _ :: s :: _ =>
          let* r := nd_lenhead start stop step n in
          let '(start, step, lenhead) := r in
          let next := mkND (nd_mem a) (flatten_shape (nd_shape a)) (tl (nd_strides a)) (nd_offset a) (nd_itemsize a) in
          let* ca :=
            match advanced with
            | Some adv =>
                if zlen adv =? 0 then
                  let* nextcarry := awkward_NumpyArray_getitem_next_range (alloc (zlen carry * lenhead)) carry (zlen carry) lenhead n start step in
                  Ok (nextcarry, advanced)
                else
                  let* ca := awkward_NumpyArray_getitem_next_range_advanced (alloc (zlen carry * lenhead)) (alloc (zlen carry * lenhead)) carry adv (zlen carry) lenhead n start step in
                  Ok (fst ca, Some (snd ca))
            | None =>
                let* nextcarry := awkward_NumpyArray_getitem_next_range (alloc (zlen carry * lenhead)) carry (zlen carry) lenhead n start step in
                Ok (nextcarry, advanced)
            end in
          let* out := nd_getitem_next fuel next tail (fst ca) (snd ca) (length * lenhead) s in
          match nd_strides out with
          | t :: _ => Ok (mkND (nd_mem out) (length :: lenhead :: tl (nd_shape out)) (lenhead * t :: nd_strides out) (nd_offset out) (nd_itemsize a))
          | [] => UB
          end
      | _, _ => Err "too many dimensions in slice"%string
      end
  | NEllipsis :: tail =>
      if (zlen tail =? 0) || (zlen (nd_shape a) - 1 =? nd_dimlength tail) then nd_getitem_next fuel a tail carry advanced length stride
      else nd_getitem_next fuel a (NRange kSliceNone kSliceNone 1 :: NEllipsis :: tail) carry advanced length stride
  | NNewAxis :: tail =>
      let* out := nd_getitem_next fuel a tail carry advanced length stride in
      match nd_strides out with
      | s :: _ => Ok (mkND (nd_mem out) (length :: 1 :: tl (nd_shape out)) (s :: nd_strides out) (nd_offset out) (nd_itemsize a))
      | [] => UB
      end
  | NArray index arrayshape arraystrides :: tail =>
      match nd_shape a, nd_strides a with
      | _ :: n :: _, _ :: s :: _ =>
          let next := mkND (nd_mem a) (flatten_shape (nd_shape a)) (tl (nd_strides a)) (nd_offset a) (nd_itemsize a) in
          let* flathead := nd_ravel index arrayshape arraystrides in
          let* flathead := awkward_regularize_arrayslice flathead n in
          match advanced with
          | None =>
              let m := zlen carry * zlen flathead in
              let* ca := awkward_NumpyArray_getitem_next_array (alloc m) (alloc m) carry flathead (zlen carry) (zlen flathead) n in
              let* out := nd_getitem_next fuel next tail (fst ca) (Some (snd ca)) (length * zlen flathead) s in
              let* outstrides := array_strides arrayshape (nd_strides out) in
              Ok (mkND (nd_mem out) (length :: arrayshape ++ tl (nd_shape out)) outstrides (nd_offset out) (nd_itemsize a))
          | Some adv =>
              let* nextcarry := awkward_NumpyArray_getitem_next_array_advanced (alloc (zlen carry)) carry adv flathead (zlen carry) n in
              let* out := nd_getitem_next fuel next tail nextcarry advanced (length * hd 0 arrayshape) s in
              Ok (mkND (nd_mem out) (length :: tl (nd_shape out)) (nd_strides out) (nd_offset out) (nd_itemsize a))
          end
      | _, _ => Err "too many dimensions in slice"%string
      end
  end.
Proof. reflexivity. Qed.

(** ** The kernels *)
Definition cof (l : list Z) (i : Z) : Z := match nthZ l i with Some c => c | None => 0 end.
Lemma k_range carry l n a step : 0 <= l -> awkward_NumpyArray_getitem_next_range (alloc (zlen carry * l)) carry (zlen carry) l n a step = Ok (grid (fun i j => n * cof carry i + a + j * step) (zlen carry) l).
Proof.
  intros Hl. pose proof (zlen_nonneg carry). unfold awkward_NumpyArray_getitem_next_range. rewrite (fill_grid _ (fun i j => n * cof carry i + a + j * step)); auto; [apply zlen_alloc; nia|].
  intros i j o Hi Hj _. unfold rd, cof. destruct (nthZ_lt carry i) as (c & ->); [lia|]. reflexivity.
Qed.
Lemma k_range_adv carry adv l n a step : 0 <= l -> zlen adv = zlen carry ->
  awkward_NumpyArray_getitem_next_range_advanced (alloc (zlen carry * l)) (alloc (zlen carry * l)) carry adv (zlen carry) l n a step
  = Ok (grid (fun i j => n * cof carry i + a + j * step) (zlen carry) l, grid (fun i j => cof adv i) (zlen carry) l).
Proof.
  intros Hl La. pose proof (zlen_nonneg carry). unfold awkward_NumpyArray_getitem_next_range_advanced.
  eapply for_pair with (f1 := fun i o => for_ 0 l (fun j o => let* c := rd carry i in wr o (i * l + j) (n * c + a + j * step)) o) (f2 := fun i o => for_ 0 l (fun j o => let* d := rd adv i in wr o (i * l + j) d) o).
  - exact (k_range carry l n a step Hl).
  - rewrite (fill_grid _ (fun i j => cof adv i)); auto; [apply zlen_alloc; nia|]. intros i j o Hi Hj _. unfold rd, cof. destruct (nthZ_lt adv i) as (c & ->); [lia|]. reflexivity.
  - intros i x y x' y' E1 E2. cbv beta in E1, E2. eapply for_pair; [exact E1|exact E2|]. intros j u w u' w' F1 F2. cbv beta in F1, F2. destruct (rd carry i) as [c| |]; cbn [bind] in *; try discriminate. rewrite F1. cbn [bind].
    destruct (rd adv i) as [d| |]; cbn [bind] in *; try discriminate. rewrite F2. reflexivity.
Qed.
Lemma k_array carry fl n : awkward_NumpyArray_getitem_next_array (alloc (zlen carry * zlen fl)) (alloc (zlen carry * zlen fl)) carry fl (zlen carry) (zlen fl) n
  = Ok (grid (fun i j => n * cof carry i + cof fl j) (zlen carry) (zlen fl), grid (fun i j => j) (zlen carry) (zlen fl)).
Proof.
  pose proof (zlen_nonneg carry). pose proof (zlen_nonneg fl). unfold awkward_NumpyArray_getitem_next_array.
  eapply for_pair with (f1 := fun i o => for_ 0 (zlen fl) (fun j o => let* c := rd carry i in let* x := rd fl j in wr o (i * zlen fl + j) (n * c + x)) o) (f2 := fun i o => for_ 0 (zlen fl) (fun j o => wr o (i * zlen fl + j) j) o).
  - rewrite (fill_grid _ (fun i j => n * cof carry i + cof fl j)); auto; [apply zlen_alloc; nia|]. intros i j o Hi Hj _. unfold rd, cof. destruct (nthZ_lt carry i) as (c & ->); [lia|]. destruct (nthZ_lt fl j) as (x & ->); [lia|]. reflexivity.
  - rewrite (fill_grid _ (fun i j => j)); auto; apply zlen_alloc; nia.
  - intros i x y x' y' E1 E2. cbv beta in E1, E2. eapply for_pair; [exact E1|exact E2|]. intros j u w u' w' F1 F2. cbv beta in F1, F2. destruct (rd carry i) as [c| |]; cbn [bind] in *; try discriminate. 
    destruct (rd fl j) as [d| |]; cbn [bind] in *; try discriminate. rewrite F1. cbn [bind]. rewrite F2. reflexivity.
Qed.
Lemma k_array_adv carry adv fl n : zlen adv = zlen carry -> (forall k, In k adv -> 0 <= k < zlen fl) ->
  awkward_NumpyArray_getitem_next_array_advanced (alloc (zlen carry)) carry adv fl (zlen carry) n = Ok (map (fun i => n * cof carry i + cof fl (cof adv i)) (zseq 0 (zlen carry))).
Proof.
  intros La Ha. pose proof (zlen_nonneg carry). unfold awkward_NumpyArray_getitem_next_array_advanced. rewrite (for_fill_all _ (fun i => n * cof carry i + cof fl (cof adv i))); [reflexivity|apply zlen_alloc; lia|].
  intros i o Hi _. unfold rd, cof. destruct (nthZ_lt carry i) as (c & ->); [lia|]. cbn [bind]. destruct (nthZ_lt adv i) as (k & Ek); [lia|]. rewrite Ek. cbn [bind]. destruct (nthZ_lt fl k) as (x & ->); [apply Ha; eapply nthZ_In; eauto|]. reflexivity.
Qed.
Lemma array_strides_ok rs : forall bs, array_strides bs (isz * prod rs :: cst isz rs) = Ok (isz * prod (bs ++ rs) :: cst isz (bs ++ rs)).
Proof. induction bs as [|x bs IH]; [reflexivity|]. cbn [array_strides]. rewrite IH. cbn [bind app cst]. rewrite prod_cons. do 2 f_equal. lia. Qed.

Definition reads (sh carry : list Z) : Prop := forall c idx, In c carry -> inside sh idx -> block mem (off + c * (isz * prod sh) + dot idx (cst isz sh)) isz <> None.

Lemma ell_next n sh carry adv items r : 0 <= n -> zlen (n :: sh) <> consumed items ->
  next_ok (n :: sh) carry adv (NRange kSliceNone kSliceNone 1 :: NEllipsis :: items) r -> next_ok (n :: sh) carry adv (NEllipsis :: items) r.
Proof.
  intros Hn E H. unfold next_ok in *. rewrite (shape_ell_step _ _ _ _ _ E Hn). destruct (slice_shape _ _ _ (n :: sh)) as [rs|] eqn:Es; [|exact H].
  destruct (Z.lt_ge_cases (zlen (n :: sh)) (consumed items)) as [X|X]; [rewrite shape_ell_many' in Es by exact X; discriminate|].
  destruct H as (out & d & -> & Es' & Et & Eo & Ei & F & G). exists out, d. repeat (split; [first [reflexivity|eassumption]|]).
  intros i c idx Ec I. assert (exists j idx', idx = j :: idx' /\ 0 <= j < n) as (j & idx' & -> & Hj).
  { cbn [slice_shape] in Es. match type of Es with option_map _ ?x = _ => destruct x; [|discriminate] end. cbn [option_map] in Es. injection Es as <-. apply inside_inv in I as (j & idx' & -> & Hj & _).
    rewrite positions_all, zlen_zseq in Hj by lia. exists j, idx'. split; [reflexivity|lia]. }
  rewrite source_ell_step by lia. apply (G i c _ Ec I).
Qed.

(** the two ways in which a range goes on *)
Lemma range_carry n sh carry adv l a step : 0 <= n -> 0 <= l -> (forall j, 0 <= j < l -> 0 <= a + j * step < n) -> adv_ok adv carry -> reads (n :: sh) carry ->
  exists carry' adv', (match adv with
            | Some adv0 =>
                if zlen adv0 =? 0 then
                  let* nextcarry := awkward_NumpyArray_getitem_next_range (alloc (zlen carry * l)) carry (zlen carry) l n a step in
                  Ok (nextcarry, adv)
                else
                  let* ca := awkward_NumpyArray_getitem_next_range_advanced (alloc (zlen carry * l)) (alloc (zlen carry * l)) carry adv0 (zlen carry) l n a step in
                  Ok (fst ca, Some (snd ca))
            | None =>
                let* nextcarry := awkward_NumpyArray_getitem_next_range (alloc (zlen carry * l)) carry (zlen carry) l n a step in
                Ok (nextcarry, adv)
            end) = Ok (carry', adv') /\ adv_ok adv' carry' /\ reads sh carry' /\ is_some adv' = is_some adv /\
    forall i c j, nthZ carry i = Some c -> 0 <= j < l -> nthZ carry' (i * l + j) = Some (n * c + a + j * step) /\ pidx adv' (i * l + j) = pidx adv i.
Proof.
  intros Hn Hl P A R. pose proof (zlen_nonneg carry) as LC. set (carry' := grid (fun i j => n * cof carry i + a + j * step) (zlen carry) l).
  assert (R' : reads sh carry').
  { intros c idx Hc I. apply In_nthZ in Hc as (k & Hc). apply nthZ_grid_inv in Hc as (i & j & Hi & Hj & _ & ->); auto. unfold cof. destruct (nthZ_lt carry i Hi) as (c & Ec). rewrite Ec.
    specialize (R c (a + j * step :: idx) (nthZ_In _ _ _ Ec) ltac:(apply inside_cons; split; auto)). cbn [cst dot] in R. rewrite prod_cons in R.
    replace (off + (n * c + a + j * step) * (isz * prod sh) + dot idx (cst isz sh)) with (off + c * (isz * (n * prod sh)) + ((a + j * step) * (isz * prod sh) + dot idx (cst isz sh))) by lia. exact R. }
  assert (C : forall i c j, nthZ carry i = Some c -> 0 <= j < l -> nthZ carry' (i * l + j) = Some (n * c + a + j * step)).
  { intros i c j Ec Hj. pose proof (nthZ_Some _ _ _ Ec). unfold carry'. rewrite nthZ_grid by lia. unfold cof. rewrite Ec. reflexivity. }
  destruct adv as [A0|].
  - destruct A as [La Ha]. destruct (Z.eqb_spec (zlen A0) 0) as [E0|E0].
    + exists carry', (Some A0). rewrite k_range by exact Hl. cbn [bind]. split; [reflexivity|]. assert (zlen carry = 0) as Z0 by lia. split; [split; [unfold carry'; rewrite zlen_grid by lia; nia|exact Ha]|]. split; [exact R'|]. split; [reflexivity|].
      intros i c j Ec. pose proof (nthZ_Some _ _ _ Ec). lia.
    + exists carry', (Some (grid (fun i j => cof A0 i) (zlen carry) l)). rewrite k_range_adv by auto. cbn [bind fst snd]. split; [reflexivity|]. split.
      * split; [unfold carry'; rewrite !zlen_grid by lia; reflexivity|]. intros k Hk. apply In_nthZ in Hk as (m & Hk). apply nthZ_grid_inv in Hk as (i & j & Hi & Hj & _ & ->); auto. unfold cof. destruct (nthZ_lt A0 i) as (x & Ex); [lia|]. rewrite Ex. apply Ha. eapply nthZ_In; eauto.
      * split; [exact R'|]. split; [reflexivity|]. intros i c j Ec Hj. split; [apply C; auto|]. pose proof (nthZ_Some _ _ _ Ec). cbn [pidx]. rewrite nthZ_grid by lia. unfold cof. destruct (nthZ_lt A0 i) as (x & Ex); [lia|]. rewrite Ex. reflexivity.
  - exists carry', None. rewrite k_range by exact Hl. cbn [bind]. split; [reflexivity|]. split; [exact I|]. split; [exact R'|]. split; [reflexivity|]. intros i c j Ec Hj. split; [apply C; auto|reflexivity].
Qed.

(** an index array, or an integer with index arrays about *)
Definition is_fancy (it : nditem) : bool := match it with NAt _ | NArray _ _ _ => true | _ => false end.
Lemma shape_fancy met it0 items n sh : is_fancy it0 = true -> slice_shape (Some b) met (it0 :: items) (n :: sh) =
  if forallb (fun p => match says it0 p with Some i => match position i n with Some _ => true | None => false end | None => false end) (indices b)
  then option_map (app (if met then [] else b)) (slice_shape (Some b) true items sh) else None.
Proof. destruct it0; try discriminate; reflexivity. Qed.
Lemma source_fancy p it0 items n sh idx : is_fancy it0 = true -> source (Some b) p (it0 :: items) (n :: sh) idx =
  let '(q, rest) := match p with Some q => (q, idx) | None => (firstn (List.length b) idx, skipn (List.length b) idx) end in
  match says it0 q with Some i => match position i n, source (Some b) (Some q) items sh rest with Some k, Some src => Some (k :: src) | _, _ => None end | None => None end.
Proof. destruct it0, p; try discriminate; reflexivity. Qed.
Lemma forallb_says it0 n v : (forall p, inside b p -> says it0 p = Some (v p)) -> forallb (fun x => match position x n with Some _ => true | None => false end) (map v (indices b)) =
  forallb (fun p => match says it0 p with Some i => match position i n with Some _ => true | None => false end | None => false end) (indices b).
Proof.
  intros Hv. assert (X : forall l, (forall p, In p l -> inside b p) -> forallb (fun x => match position x n with Some _ => true | None => false end) (map v l) =
     forallb (fun p => match says it0 p with Some i => match position i n with Some _ => true | None => false end | None => false end) l).
  { induction l as [|p l IHl]; intros Hl; [reflexivity|]. cbn [map forallb]. rewrite IHl by (intros; apply Hl; right; auto). rewrite (Hv p) by (apply Hl; left; auto). reflexivity. }
  apply X. intros p. apply In_indices.
Qed.
Lemma array_step fuel it0 index strides items0 items n sh n0 carry adv length :
  is_fancy it0 = true -> zlen strides = zlen b -> (forall p, inside b p -> nthZ index (dot p strides) = says it0 p /\ says it0 p <> None) ->
  nonneg (n :: sh) -> adv_ok adv carry -> reads (n :: sh) carry ->
  (forall carry' adv' length', adv_ok adv' carry' -> reads sh carry' ->
     next_ok sh carry' adv' items0 (nd_getitem_next fuel (mkND mem (n0 * n :: sh) (isz * prod sh :: cst isz sh) off isz) items carry' adv' length' (isz * prod sh))) ->
  next_ok (n :: sh) carry adv (it0 :: items0) (nd_getitem_next (S fuel) (mkND mem (n0 :: n :: sh) (isz * prod (n :: sh) :: cst isz (n :: sh)) off isz) (NArray index b strides :: items) carry adv length (isz * prod (n :: sh))).
Proof.
  intros Hf Ls Hp F A R IH. rewrite next_unfold. cbn [nd_shape nd_strides nd_mem nd_offset nd_itemsize cst flatten_shape tl]. inversion F as [|? ? Fn Fs]; subst.
  set (v := fun p => match says it0 p with Some i => i | None => 0 end).
  assert (Hv : forall p, inside b p -> says it0 p = Some (v p)) by (intros p Ip; unfold v; destruct (Hp p Ip) as [_ Hn]; destruct (says it0 p); [reflexivity|contradiction]).
  rewrite (ravel_ok index b strides v) by (auto; intros p Ip; rewrite <- (Hv p Ip); apply Hp; exact Ip). cbn [bind].
  pose proof (regularize_ok n (map v (indices b))) as RG. rewrite (forallb_says it0 n v Hv) in RG. unfold next_ok. rewrite shape_fancy by exact Hf.
  destruct (forallb _ (indices b)) eqn:FA; [|destruct RG as (m & ->); cbn [bind]; eexists; reflexivity].
  rewrite RG. cbn [bind]. rewrite map_map. set (fl := map (fun p => pos0 (v p) n) (indices b)).
  assert (Lf : zlen fl = prod b) by (unfold fl; rewrite zlen_map; apply zlen_indices, Hb). pose proof (zlen_nonneg carry) as LC. pose proof (prod_nonneg _ Hb) as PB.
  assert (HP : forall p, inside b p -> position (v p) n = Some (pos0 (v p) n) /\ 0 <= pos0 (v p) n < n).
  { intros p Ip. rewrite forallb_forall in FA. specialize (FA p ltac:(apply In_indices; exact Ip)). rewrite (Hv p Ip) in FA. unfold pos0. destruct (position (v p) n) as [k|] eqn:Ek; [|discriminate]. split; [reflexivity|eapply position_range; eauto]. }
  assert (Hfl : forall k p, nthZ (indices b) k = Some p -> cof fl k = pos0 (v p) n) by (intros k p Ek; unfold cof, fl; rewrite nthZ_map, Ek; reflexivity).
  assert (Hin : forall k, 0 <= k < prod b -> exists p, nthZ (indices b) k = Some p /\ inside b p).
  { intros k Hk. destruct (nthZ_lt (indices b) k) as (p & Ep); [rewrite zlen_indices by exact Hb; exact Hk|]. exists p. split; [exact Ep|]. apply In_indices. eapply nthZ_In; eauto. }
  assert (RD : forall c k idx, In c carry -> 0 <= k < prod b -> inside sh idx -> block mem (off + (n * c + cof fl k) * (isz * prod sh) + dot idx (cst isz sh)) isz <> None).
  { intros c k idx Hc Hk I. destruct (Hin k Hk) as (p & Ep & Ip). rewrite (Hfl k p Ep). specialize (R c (pos0 (v p) n :: idx) Hc ltac:(apply inside_cons; split; [apply HP; exact Ip|exact I])). cbn [cst dot] in R. rewrite prod_cons in R.
    replace (off + (n * c + pos0 (v p) n) * (isz * prod sh) + dot idx (cst isz sh)) with (off + c * (isz * (n * prod sh)) + (pos0 (v p) n * (isz * prod sh) + dot idx (cst isz sh))) by lia. exact R. }
  destruct adv as [A0|].
  - (* not the first one *) destruct A as [La Ha]. rewrite k_array_adv by (auto; rewrite Lf; exact Ha). cbn [bind is_some app option_map].
    set (carry' := map _ (zseq 0 (zlen carry))).
    assert (Hc' : forall i c, nthZ carry i = Some c -> nthZ carry' i = Some (n * c + cof fl (cof A0 i))) by (intros i c Ec; pose proof (nthZ_Some _ _ _ Ec); unfold carry'; rewrite nthZ_map, nthZ_zseq by lia; cbn [option_map]; rewrite Z.add_0_l; unfold cof at 1; rewrite Ec; reflexivity).
    assert (HA : forall i, 0 <= i < zlen carry -> 0 <= cof A0 i < prod b) by (intros i Hi; unfold cof; destruct (nthZ_lt A0 i) as (k & Ek); [lia|]; rewrite Ek; apply Ha; eapply nthZ_In; eauto).
    specialize (IH carry' (Some A0) (length * hd 0 b)). unfold next_ok in IH. cbn [is_some] in IH.
    assert (A1 : adv_ok (Some A0) carry') by (split; [unfold carry'; rewrite zlen_map, zlen_zseq by lia; lia|exact Ha]).
    assert (R1 : reads sh carry').
    { intros c idx Hc I. apply In_nthZ in Hc as (i & Hc). pose proof (nthZ_Some _ _ _ Hc) as Bi. unfold carry' in Bi. rewrite zlen_map, zlen_zseq in Bi by lia. destruct (nthZ_lt carry i) as (c0 & Ec0); [lia|]. rewrite (Hc' i c0 Ec0) in Hc. injection Hc as <-. apply RD; auto; [eapply nthZ_In; eauto|apply HA; lia]. }
    specialize (IH A1 R1). destruct (slice_shape (Some b) true items0 sh) as [rs|]; cbn [option_map].
    + destruct IH as (out & d & -> & Es & Et & Eo & Ei & Fr & G). cbn [bind]. eexists _, _. split; [reflexivity|]. cbn [nd_mem nd_shape nd_strides nd_offset nd_itemsize]. rewrite Es, Et. cbn [tl].
      split; [reflexivity|]. split; [reflexivity|]. split; [exact Eo|]. split; [reflexivity|]. split; [exact Fr|]. intros i c idx Ec I. destruct (G i _ idx (Hc' i c Ec) I) as (src & S1 & S2 & S3).
      pose proof (nthZ_Some _ _ _ Ec) as Bi. destruct (nthZ_lt A0 i) as (k & Ek); [lia|]. assert (Ck : cof A0 i = k) by (unfold cof; rewrite Ek; reflexivity). pose proof (HA i ltac:(lia)) as Hk. rewrite Ck in *. destruct (Hin k Hk) as (p & Ep & Ip).
      assert (Ex : pidx (Some A0) i = Some p) by (cbn [pidx]; rewrite Ek; exact Ep). rewrite Ex in *. exists (pos0 (v p) n :: src). rewrite source_fancy by exact Hf. rewrite (Hv p Ip). destruct (HP p Ip) as [HP1 HP2]. rewrite HP1, S1. split; [reflexivity|]. split; [apply inside_cons; auto|].
      rewrite (Hfl k p Ep) in S3. unfold element in *. cbn [nd_mem nd_shape nd_strides nd_offset nd_itemsize cst] in *. rewrite Et, Ei in S3. rewrite S3. rewrite prod_cons. cbn [dot]. f_equal; lia.
    + destruct IH as (m & ->). eexists; reflexivity.
  - (* the first one *) cbv zeta. rewrite k_array. cbn [bind fst snd is_some]. rewrite Lf.
    set (carry' := grid (fun i j => n * cof carry i + cof fl j) (zlen carry) (prod b)). set (A1 := grid (fun _ j => j) (zlen carry) (prod b)).
    assert (Hc' : forall i c k, nthZ carry i = Some c -> 0 <= k < prod b -> nthZ carry' (i * prod b + k) = Some (n * c + cof fl k)) by (intros i c k Ec Hk; pose proof (nthZ_Some _ _ _ Ec); unfold carry'; rewrite nthZ_grid by lia; unfold cof at 1; rewrite Ec; reflexivity).
    specialize (IH carry' (Some A1) (length * prod b)). unfold next_ok in IH. cbn [is_some] in IH.
    assert (AO : adv_ok (Some A1) carry').
    { split; [unfold carry', A1; rewrite !zlen_grid by lia; reflexivity|]. intros k Hk. apply In_nthZ in Hk as (m & Hk). apply nthZ_grid_inv in Hk as (i & j & Hi & Hj & _ & ->); auto. }
    assert (R1 : reads sh carry').
    { intros c idx Hc I. apply In_nthZ in Hc as (m & Hc). apply nthZ_grid_inv in Hc as (i & j & Hi & Hj & _ & ->); auto. destruct (nthZ_lt carry i Hi) as (c0 & Ec0). unfold cof at 1. rewrite Ec0. apply RD; auto. eapply nthZ_In; eauto. }
    specialize (IH AO R1). destruct (slice_shape (Some b) true items0 sh) as [rs|]; cbn [option_map].
    + destruct IH as (out & d & -> & Es & Et & Eo & Ei & Fr & G). cbn [bind]. rewrite Et, array_strides_ok. cbn [bind]. eexists _, _. split; [reflexivity|]. cbn [nd_mem nd_shape nd_strides nd_offset nd_itemsize]. rewrite Es. cbn [tl].
      split; [reflexivity|]. split; [reflexivity|]. split; [exact Eo|]. split; [reflexivity|]. split; [apply Forall_app; split; [exact Hb|exact Fr]|]. intros i c idx Ec I. apply inside_app_inv in I as (p & idx' & -> & Ip & I').
      pose proof (nthZ_Some _ _ _ Ec) as Bi. pose proof (nthZ_indices b p Ip) as Ep. pose proof (dot_cst 1 b p ltac:(lia) Ip) as Hk. set (k := dot p (cst 1 b)) in *. destruct (G _ _ idx' (Hc' i c k Ec ltac:(lia)) I') as (src & S1 & S2 & S3).
      assert (Ex : pidx (Some A1) (i * prod b + k) = Some p) by (cbn [pidx]; unfold A1; rewrite nthZ_grid by lia; exact Ep). rewrite Ex in S1. exists (pos0 (v p) n :: src). rewrite source_fancy by exact Hf. cbn [pidx].
      pose proof (inside_len _ _ Ip) as Lp. assert (Lp' : List.length b = List.length p) by (unfold zlen in Lp; lia). rewrite Lp', firstn_app, firstn_all, skipn_app, skipn_all, Nat.sub_diag. cbn [firstn skipn]. rewrite app_nil_r, app_nil_l.
      rewrite (Hv p Ip). destruct (HP p Ip) as [HP1 HP2]. rewrite HP1, S1. split; [reflexivity|]. split; [apply inside_cons; auto|].
      rewrite (Hfl k p Ep) in S3. unfold element in *. cbn [nd_mem nd_shape nd_strides nd_offset nd_itemsize cst] in *. rewrite Et, Ei in S3. rewrite Eo in *. rewrite prod_cons. cbn [dot] in *.
      replace (off + c * (isz * (n * prod sh)) + (pos0 (v p) n * (isz * prod sh) + dot src (cst isz sh))) with (off + (n * c + pos0 (v p) n) * (isz * prod sh) + dot src (cst isz sh)) by lia. rewrite <- S3.
      rewrite cst_app, dot_app by (rewrite cst_len; exact Lp). rewrite (dot_cst_scale (isz * prod rs) b p). fold k. rewrite prod_app. f_equal; lia.
    + destruct IH as (m & ->). eexists; reflexivity.
Qed.

Lemma getitem_next_ok : forall N fuel items0 items sh n0 carry adv length,
  (fuel < N)%nat -> (2 * List.length sh + List.length items < fuel)%nat -> nonneg sh -> Forall2 (seals b) items0 items -> Forall item_ok items0 -> adv_ok adv carry -> reads sh carry ->
  next_ok sh carry adv items0 (nd_getitem_next fuel (mkND mem (n0 :: sh) (isz * prod sh :: cst isz sh) off isz) items carry adv length (isz * prod sh)).
Proof.
  induction N as [|N IH]; intros fuel items0 items sh n0 carry adv length HN Hf F S O A R; [lia|]. destruct fuel as [|fuel]; [lia|].
  inversion S as [|it0 it items0' items' Si S']; subst.
  { (* no more items: copy *) rewrite next_unfold. cbn [nd_shape nd_strides nd_mem nd_offset nd_itemsize tl]. pose proof (prod_nonneg _ F) as PN. set (W := isz * prod sh) in *.
    destruct (copy_rows mem W (fun p => off + p * W) carry) as (out & E & Lo & G); [subst W; nia|intros p Hp; apply box_in; auto; intros idx I; apply R; auto|].
    unfold awkward_NumpyArray_getitem_next_null. rewrite E. cbn [bind]. unfold next_ok. cbn [slice_shape]. eexists _, _. split; [reflexivity|]. cbn [nd_shape nd_strides nd_mem nd_offset nd_itemsize].
    split; [reflexivity|]. split; [reflexivity|]. split; [reflexivity|]. split; [reflexivity|]. split; [exact F|]. intros i c idx Ec I. exists idx. cbn [source]. split; [reflexivity|]. split; [exact I|].
    unfold element. cbn [nd_shape nd_strides nd_mem nd_offset nd_itemsize dot]. pose proof (dot_cst _ _ _ Hisz I). rewrite Z.add_0_l. fold W. rewrite (G i c Ec) by (fold W; lia). reflexivity. }
  inversion O as [|? ? Oi O']; subst. cbn [List.length] in Hf.
  assert (ARR : forall index strides, is_fancy it0 = true -> it = NArray index b strides -> zlen strides = zlen b -> (forall p, inside b p -> nthZ index (dot p strides) = says it0 p /\ says it0 p <> None) ->
     next_ok sh carry adv (it0 :: items0') (nd_getitem_next (Datatypes.S fuel) (mkND mem (n0 :: sh) (isz * prod sh :: cst isz sh) off isz) (it :: items') carry adv length (isz * prod sh))).
  { intros index strides Hfan -> Ls Hp. destruct sh as [|n sh].
    - rewrite next_unfold. unfold next_ok. cbn [nd_shape nd_strides cst]. destruct it0; try discriminate Hfan; eexists; reflexivity.
    - apply array_step; auto. intros carry' adv' length' A' R'. inversion F; subst. apply IH; auto; cbn [List.length] in *; lia. }
  destruct it0 as [x|start stop step| | |index0 ash ast]; cbn [seals] in Si.
  1, 5: destruct Si as (index & strides & -> & Ls & Hp); apply (ARR index strides); auto.
  all: clear ARR; subst it; rewrite next_unfold; cbn [nd_shape nd_strides nd_mem nd_offset nd_itemsize].
  - (* a range *) destruct sh as [|n sh]; [unfold next_ok; cbn [slice_shape]; eexists; reflexivity|]. inversion F as [|? ? Fn Fs]; subst. cbn [cst flatten_shape tl].
    cbn [item_ok] in Oi. destruct Oi as [O1 O2]. destruct (lenhead_ok start stop step n Fn O1 O2) as (a & E & P). rewrite E. cbn [bind].
    destruct (range_carry n sh carry adv (zlen (positions start stop step n)) a step Fn (zlen_nonneg _) ltac:(intros; apply P; auto) A R) as (carry' & adv' & Ec & A' & R' & Eis & C). rewrite Ec. cbn [bind fst snd].
    apply range_next with (a := a) (carry' := carry') (adv' := adv'); auto. apply IH; auto; cbn [List.length] in Hf; lia.
  - (* an ellipsis *) rewrite dimlength_consumed, (seals_consumed b _ _ S'), zlen_cons. replace (zlen sh + 1 - 1) with (zlen sh) by lia.
    assert (Lis : zlen items' = zlen items0') by (clear - S'; induction S'; [reflexivity|rewrite !zlen_cons; lia]). rewrite Lis.
    destruct (Z.eqb_spec (zlen items0') 0) as [E0|E0]; [|destruct (Z.eqb_spec (zlen sh) (consumed items0')) as [E1|E1]]; cbn [orb].
    1, 2: assert (X : items0' = [] \/ zlen sh = consumed items0') by (first [left; apply zlen_0; exact E0|right; exact E1]);
      specialize (IH fuel items0' items' sh n0 carry adv length ltac:(lia) ltac:(lia) F S' O' A R); unfold next_ok in *; rewrite shape_ell_direct by exact X; destruct (slice_shape _ _ _ _); [|exact IH];
      destruct IH as (out & d & IH); exists out, d; repeat (destruct IH as [? IH]; split; [assumption|]); intros i c idx Ec I; rewrite source_ell_direct by exact X; apply (IH i c idx Ec I).
    assert (0 < List.length items')%nat as Hl by (unfold zlen in E0, Lis; lia). destruct fuel as [|fuel]; [lia|]. rewrite next_unfold. cbn [nd_shape nd_strides nd_mem nd_offset nd_itemsize].
    destruct sh as [|n sh].
    { unfold next_ok. pose proof (consumed_nonneg items0'). rewrite shape_ell_many by (change (zlen (@nil Z)) with 0 in *; lia). eexists; reflexivity. }
    inversion F as [|? ? Fn Fs]; subst. apply ell_next; [exact Fn|exact E1|]. cbn [cst flatten_shape tl].
    destruct (lenhead_ok kSliceNone kSliceNone 1 n Fn ltac:(lia) ltac:(unfold kSliceNone; lia)) as (a & E & P). rewrite E. cbn [bind].
    destruct (range_carry n sh carry adv (zlen (positions kSliceNone kSliceNone 1 n)) a 1 Fn (zlen_nonneg _) ltac:(intros; apply P; auto) A R) as (carry' & adv' & Ec & A' & R' & Eis & C). rewrite Ec. cbn [bind fst snd].
    apply range_next with (a := a) (carry' := carry') (adv' := adv'); auto. apply IH; auto; cbn [List.length] in *; lia.
  - (* a new dimension *) specialize (IH fuel items0' items' sh n0 carry adv length ltac:(lia) ltac:(lia) F S' O' A R). unfold next_ok in *. cbn [slice_shape]. destruct (slice_shape (Some b) (is_some adv) items0' sh) as [rs|]; cbn [option_map].
    + destruct IH as (out & d & -> & Es & Et & Eo & Ei & Fr & G). cbn [bind]. rewrite Et. eexists _, _. split; [reflexivity|]. cbn [nd_mem nd_shape nd_strides nd_offset nd_itemsize]. rewrite Es. cbn [tl].
      split; [reflexivity|]. split; [cbn [cst]; rewrite prod_cons, Z.mul_1_l; reflexivity|]. split; [exact Eo|]. split; [reflexivity|]. split; [constructor; [lia|exact Fr]|].
      intros i c idx Ec I. apply inside_inv in I as (j & idx' & -> & Hj & I). destruct (G i c idx' Ec I) as (src & S1 & S2 & S3). exists src. cbn [source tl]. split; [exact S1|]. split; [exact S2|]. rewrite <- S3. unfold element. cbn [nd_mem nd_strides nd_offset nd_itemsize]. rewrite Et, Ei. cbn [dot]. assert (j = 0) as -> by lia. f_equal; lia.
    + destruct IH as (m & ->). eexists; reflexivity.
Qed.
End Adv.
