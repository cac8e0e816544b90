(** Proofs about range slicing. *)
From Verif Require Import BaseLemmas SpecSlice KRange.
Ltac Zify.zify_post_hook ::= Z.div_mod_to_equations.

Ltac ltbs := repeat match goal with
  | |- context [if ?x <? ?y then _ else _] =>
    lazymatch x with context [if _ then _ else _] => fail | _ => idtac end;
    lazymatch y with context [if _ then _ else _] => fail | _ => idtac end;
    destruct (Z.ltb_spec x y) end.


Lemma py_range_nil i j step : (0 < step -> j <= i) -> (step <= 0 -> i <= j) -> py_range i j step = [].
Proof.
  intros H1 H2. unfold py_range, py_range_len.
  destruct (Z.ltb_spec 0 step), (Z.ltb_spec i j), (Z.ltb_spec j i); try lia; reflexivity.
Qed.
Lemma py_range_len_nonneg i j step : step <> 0 -> 0 <= py_range_len i j step.
Proof.
  intros. unfold py_range_len.
  destruct (Z.ltb_spec 0 step), (Z.ltb_spec i j), (Z.ltb_spec j i); try lia.
  all: nia.
Qed.
Lemma py_range_len_cons i j step :
  step <> 0 -> (if 0 <? step then i < j else j < i) ->
  py_range_len i j step = 1 + py_range_len (i + step) j step.
Proof.
  intros H0 H. unfold py_range_len.
  destruct (Z.ltb_spec 0 step).
  - destruct (Z.ltb_spec i j); [|lia]. destruct (Z.ltb_spec (i + step) j).
    + replace (j - i - 1) with ((j - (i + step) - 1) + 1 * step) by lia.
      rewrite Z.div_add by lia. lia.
    + rewrite Z.div_small by lia. lia.
  - destruct (Z.ltb_spec j i); [|lia]. destruct (Z.ltb_spec j (i + step)).
    + replace (i - j - 1) with ((i + step - j - 1) + 1 * (- step)) by lia.
      rewrite Z.div_add by lia. lia.
    + rewrite Z.div_small by lia. lia.
Qed.
Lemma py_range_cons i j step :
  step <> 0 -> (if 0 <? step then i < j else j < i) ->
  py_range i j step = i :: py_range (i + step) j step.
Proof.
  intros H0 H. unfold py_range. rewrite (py_range_len_cons i j step) by auto.
  pose proof (py_range_len_nonneg (i + step) j step H0).
  rewrite zseq_cons by lia. cbn [map]. f_equal; [lia|].
  replace (0 + 1) with (0 + 1) by lia.
  rewrite (Z.add_comm 1 (py_range_len _ _ _)), map_zseq_shift.
  apply map_ext; intros; lia.
Qed.
Lemma py_range_bounds i j step p :
  step <> 0 -> In p (py_range i j step) ->
  if 0 <? step then i <= p < j else j < p <= i.
Proof.
  intros H0 H. unfold py_range in H. apply in_map_iff in H. destruct H as (n & <- & Hn).
  apply In_zseq in Hn. unfold py_range_len in Hn.
  destruct (Z.ltb_spec 0 step).
  - destruct (Z.ltb_spec i j); [|lia]. nia.
  - destruct (Z.ltb_spec j i); [|lia]. nia.
Qed.

(** The loops visit exactly [py_range]. *)
Lemma for_range_spec {S} (body : Z -> S -> res S) (P : list Z -> S -> Prop) j j' step s :
  step <> 0 ->
  int64_min <= j' + step - 1 -> j' + step <= int64_max + 1 ->
  int64_min <= j + step -> j + step <= int64_max ->
  P [] s ->
  (forall d p t, In p (py_range j j' step) -> (exists r, d ++ p :: r = py_range j j' step) -> P d t ->
      exists t', body p t = Ok t' /\ P (d ++ [p]) t') ->
  exists s', for_range j j' step body s = Ok s' /\ P (py_range j j' step) s'.
Proof.
  intros H0 Hb1 Hb2 Hb3 Hb4 HP Hbody.
  assert (forall fuel d j0 t, d ++ py_range j0 j' step = py_range j j' step -> P d t ->
            (0 < step -> j' - j0 <= Z.of_nat fuel) -> (step < 0 -> j0 - j' <= Z.of_nat fuel) ->
            exists s', (if 0 <? step then for_up fuel j0 j' step body t else for_down fuel j0 j' step body t) = Ok s'
                       /\ P (py_range j j' step) s') as Hmain.
  { induction fuel; intros d j0 t Hd HPd Hf1 Hf2.
    - assert (py_range j0 j' step = []) as E by (apply py_range_nil; lia).
      rewrite E, app_nil_r in Hd; subst d. exists t; split; [|exact HPd].
      destruct (Z.ltb_spec 0 step); cbn [for_up for_down].
      + destruct (Z.ltb_spec j0 j'); [lia|reflexivity].
      + destruct (Z.ltb_spec j' j0); [lia|reflexivity].
    - destruct (if 0 <? step then j0 <? j' else j' <? j0) eqn:Econt.
      + rewrite py_range_cons in Hd by (auto; destruct (0 <? step); lia).
        destruct (Hbody d j0 t) as (t' & Ht' & HPt').
        * rewrite <- Hd. apply in_or_app; right; left; reflexivity.
        * eexists; exact Hd.
        * exact HPd.
        * assert (Hin : In j0 (py_range j j' step)) by (rewrite <- Hd; apply in_or_app; right; left; reflexivity).
          pose proof (py_range_bounds _ _ _ _ H0 Hin) as Hbd.
          assert (add64 j0 step = Ok (j0 + step)) as Hadd.
          { unfold add64. destruct (Z.leb_spec int64_min (j0 + step)), (Z.leb_spec (j0 + step) int64_max); try reflexivity;
            unfold int64_min, int64_max in *; destruct (Z.ltb_spec 0 step); lia. }
          destruct (IHfuel (d ++ [j0]) (j0 + step) t') as (s' & Hs' & HPs').
          -- rewrite <- Hd, <- app_assoc. reflexivity.
          -- exact HPt'.
          -- lia.
          -- lia.
          -- exists s'; split; [|exact HPs']. cbn [for_up for_down].
             destruct (0 <? step); rewrite Econt; rewrite Ht'; cbn [bind]; rewrite Hadd; cbn [bind]; exact Hs'.
      + assert (py_range j0 j' step = []) as E by (apply py_range_nil; destruct (0 <? step) eqn:Es; lia).
        rewrite E, app_nil_r in Hd; subst d. exists t; split; [|exact HPd].
        cbn [for_up for_down]. destruct (0 <? step); rewrite Econt; reflexivity. }
  unfold for_range.
  destruct (Hmain (Z.to_nat (if 0 <? step then j' - j else j - j')) [] j s) as (s' & Hs' & HPs'); auto.
  - destruct (Z.ltb_spec 0 step); lia.
  - destruct (Z.ltb_spec 0 step); lia.
  - exists s'; split; [|exact HPs']. destruct (0 <? step); exact Hs'.
Qed.

Lemma regularize_py start stop step len :
  0 <= len -> step <> 0 ->
  let '(a, b) := regularize_rangeslice start stop (0 <? step)
     (negb (start =? kSliceNone)) (negb (stop =? kSliceNone)) len in
  a = py_start (opt64 start) step len /\
  py_range a b step = py_slice (opt64 start) (opt64 stop) step len /\
  -1 <= a <= len /\ -1 <= b <= len /\ (if 0 <? step then 0 <= a <= b else b <= a < len) .
Proof.
  intros Hlen Hstep. unfold py_slice, regularize_rangeslice, opt64, py_start, py_stop.
  change 9223372036854775807 with kSliceNone.
  destruct (Z.ltb_spec 0 step); cbn zeta.
  - set (a := if len <? _ then _ else _).
    assert (Ha : a = match (if start =? kSliceNone then None else Some start) with
       | Some x => if x <? 0 then Z.max 0 (x + len) else Z.min x len | None => 0 end).
    { subst a. destruct (start =? kSliceNone); cbn [negb]; [|destruct (Z.ltb_spec start 0)];
        ltbs; lia. }
    assert (0 <= a <= len) as Hab by (rewrite Ha; destruct (start =? kSliceNone); ltbs; lia).
    clearbody a. rewrite <- Ha.
    set (b := match (if stop =? kSliceNone then None else Some stop) with
       | Some x => if x <? 0 then Z.max 0 (x + len) else Z.min x len | None => len end).
    match goal with |- context [if ?b' <? a then a else ?b'] => assert (b' = b) as Hb' end.
    { subst b. destruct (stop =? kSliceNone); cbn [negb]; [|destruct (Z.ltb_spec stop 0)];
        ltbs; lia. }
    rewrite Hb'. clear Hb'.
    assert (0 <= b <= len) by (subst b; destruct (stop =? kSliceNone); [lia|]; destruct (Z.ltb_spec stop 0); lia).
    split; [reflexivity|]. destruct (Z.ltb_spec b a).
    + split; [|lia]. rewrite !py_range_nil by lia. reflexivity.
    + split; [reflexivity|lia].
  - set (a := if len - 1 <? _ then _ else _).
    assert (Ha : a = match (if start =? kSliceNone then None else Some start) with
       | Some x => if x <? 0 then Z.max (-1) (x + len) else Z.min x (len - 1) | None => len - 1 end).
    { subst a. destruct (start =? kSliceNone); cbn [negb]; [|destruct (Z.ltb_spec start 0)];
        ltbs; lia. }
    assert (-1 <= a <= len - 1) as Hab by (rewrite Ha; destruct (start =? kSliceNone); ltbs; lia).
    clearbody a. rewrite <- Ha.
    set (b := match (if stop =? kSliceNone then None else Some stop) with
       | Some x => if x <? 0 then Z.max (-1) (x + len) else Z.min x (len - 1) | None => -1 end).
    match goal with |- context [if a <? ?b' then a else ?b'] => assert (b' = b) as Hb' end.
    { subst b. destruct (stop =? kSliceNone); cbn [negb]; [|destruct (Z.ltb_spec stop 0)];
        ltbs; lia. }
    rewrite Hb'. clear Hb'.
    assert (-1 <= b <= len - 1) by (subst b; destruct (stop =? kSliceNone); [lia|]; destruct (Z.ltb_spec stop 0); lia).
    split; [reflexivity|]. destruct (Z.ltb_spec a b).
    + split; [|lia]. rewrite !py_range_nil by lia. reflexivity.
    + split; [reflexivity|lia].
Qed.

Lemma zlen_py_range i j step : step <> 0 -> zlen (py_range i j step) = py_range_len i j step.
Proof.
  intros. unfold py_range. pose proof (py_range_len_nonneg i j step H). rewrite zlen_map, zlen_zseq; lia.
Qed.

Lemma py_slice_in_range start stop step len p :
  0 <= len -> step <> 0 -> In p (py_slice start stop step len) -> 0 <= p < len.
Proof.
  intros Hl Hs Hp. apply py_range_bounds in Hp; [|exact Hs]. revert Hp. unfold py_start, py_stop.
  destruct (0 <? step), start as [x|], stop as [y|];
    try destruct (Z.ltb_spec x 0); try destruct (Z.ltb_spec y 0); lia.
Qed.

(** ** offsets *)
Lemma offsets_from_snoc a l n : offsets_from a (l ++ [n]) = offsets_from a l ++ [a + fold_right Z.add 0 l + n].
Proof.
  revert a; induction l as [|m l IH]; intros a; cbn [offsets_from app fold_right].
  - do 2 f_equal; lia.
  - f_equal. rewrite IH. do 2 f_equal; lia.
Qed.
Lemma zlen_offsets_from a l : zlen (offsets_from a l) = zlen l + 1.
Proof. revert a; induction l; intros; cbn [offsets_from]; rewrite ?zlen_cons, ?IHl; reflexivity || lia. Qed.
Lemma sum_zlen_concat {A} (l : list (list A)) : fold_right Z.add 0 (map zlen l) = zlen (concat l).
Proof. induction l; cbn; [reflexivity|rewrite zlen_app, IHl; reflexivity]. Qed.

(** ** the list kernels *)
Section ListRange.
  Variables (start stop step : Z).
  Let sel (ab : Z * Z) : list Z := py_slice (opt64 start) (opt64 stop) step (snd ab - fst ab).
  Let carry (ab : Z * Z) : list Z := map (Z.add (fst ab)) (sel ab).

  Definition range_ok (maxlen : Z) : Prop :=
    step <> 0 /\ int64_min <= step - maxlen - 2 /\ step + maxlen + 2 <= int64_max.

  Lemma carrylength_spec maxlen starts stops :
    zlen starts <= zlen stops -> range_ok maxlen ->
    (forall a b, In (a, b) (combine starts stops) -> 0 <= b - a <= maxlen) ->
    awkward_ListArray_getitem_next_range_carrylength starts stops (zlen starts) start stop step
    = Ok (zlen (concat (map sel (combine starts stops)))).
  Proof.
    intros Hlen (Hs & Hlo & Hhi) Hab. unfold awkward_ListArray_getitem_next_range_carrylength.
    assert (zlen starts = zlen (combine starts stops)) as Hz
      by (unfold zlen in *; rewrite combine_length; lia).
    rewrite Hz.
    match goal with |- for_ 0 _ ?body _ = _ =>
      destruct (for_list (combine starts stops) (fun d n => n = zlen (concat (map sel d))) body 0) as (s' & Hs' & ->)
    end; [reflexivity| |exact Hs'].
    intros d [a b] r t Hd ->. destruct (combine_mid _ _ _ _ _ _ Hd) as [Ha Hb].
    apply rd_Ok in Ha, Hb. rewrite Ha, Hb. cbn [bind].
    assert (0 <= b - a <= maxlen) as Hba by (apply Hab; rewrite <- Hd; apply in_or_app; right; left; reflexivity).
    pose proof (regularize_py start stop step (b - a) ltac:(lia) Hs) as Hreg.
    destruct (regularize_rangeslice _ _ _ _ _ _) as [rs re]. destruct Hreg as (_ & Hpy & Hrs & Hre & _).
    destruct (for_range_spec (fun _ n => Ok (n + 1)) (fun l n => n = zlen (concat (map sel d)) + zlen l) rs re step
                (zlen (concat (map sel d)))) as (n & Hn & Hn'); try (unfold int64_min, int64_max in *; lia).
    - rewrite zlen_nil; lia.
    - intros d' p t _ _ ->. eexists; split; [reflexivity|]. rewrite zlen_app, zlen_cons, zlen_nil; lia.
    - exists n; split; [exact Hn|]. rewrite map_app, concat_app, zlen_app. cbn [map concat]. rewrite app_nil_r.
      rewrite Hn', Hpy. reflexivity.
  Qed.

  Lemma list_range_spec maxlen starts stops tooffsets tocarry :
    zlen starts <= zlen stops -> range_ok maxlen ->
    (forall a b, In (a, b) (combine starts stops) -> 0 <= b - a <= maxlen) ->
    zlen tooffsets = zlen starts + 1 ->
    zlen tocarry = zlen (concat (map sel (combine starts stops))) ->
    awkward_ListArray_getitem_next_range tooffsets tocarry starts stops (zlen starts) start stop step
    = Ok (offsets_of (map (fun ab => zlen (sel ab)) (combine starts stops)),
          concat (map carry (combine starts stops))).
  Proof.
    intros Hlen (Hs & Hlo & Hhi) Hab Hto Htc. unfold awkward_ListArray_getitem_next_range.
    assert (zlen starts = zlen (combine starts stops)) as Hz
      by (unfold zlen in *; rewrite combine_length; lia).
    rewrite Hz in *. set (xs := combine starts stops) in *.
    destruct tooffsets as [|y0 to]; [rewrite zlen_nil in Hto; pose proof (zlen_nonneg xs); lia|].
    change (y0 :: to) with ([] ++ y0 :: to). rewrite (wr_push [] y0 to 0 : wr ([] ++ y0 :: to) 0 0 = _). cbn [bind app].
    rewrite zlen_cons in Hto.
    assert (Hcl : forall l, zlen (concat (map carry l)) = zlen (concat (map sel l))).
    { induction l; cbn [map concat]; [reflexivity|]. rewrite !zlen_app, IHl. unfold carry. now rewrite zlen_map. }
    match goal with |- bind (for_ 0 _ ?body _) _ = _ =>
      destruct (for_list xs (fun d st => let '(k, o, c) := st in
          exists ro rc, o = offsets_of (map (fun ab => zlen (sel ab)) d) ++ ro /\ c = concat (map carry d) ++ rc /\
             k = zlen (concat (map carry d)) /\ zlen ro + zlen d = zlen xs /\
             zlen c = zlen (concat (map sel xs)))
        body (0, 0 :: to, tocarry)) as ([[k o] c] & Hs' & ro & rc & -> & -> & -> & Hro & Hrc)
    end.
    - exists to, tocarry. cbn. repeat split; auto; rewrite ?zlen_nil; lia.
    - intros d [a b] r [[k o] c] Hd (ro & rc & -> & -> & -> & Hro & Hrc).
      destruct (combine_mid _ _ _ _ _ _ Hd) as [Ha Hb].
      apply rd_Ok in Ha, Hb. rewrite Ha, Hb. cbn [bind].
      assert (0 <= b - a <= maxlen) as Hba by (apply Hab; rewrite <- Hd; apply in_or_app; right; left; reflexivity).
      pose proof (regularize_py start stop step (b - a) ltac:(lia) Hs) as Hreg.
      destruct (regularize_rangeslice _ _ _ _ _ _) as [rs re]. destruct Hreg as (_ & Hpy & Hrs & Hre & _).
      match goal with |- context [for_range rs re step ?body2 ?s2] =>
        destruct (for_range_spec body2 (fun l st => let '(k, c) := st in
            exists rc, c = (concat (map carry d) ++ map (Z.add a) l) ++ rc /\ k = zlen (concat (map carry d)) + zlen l /\
               zlen c = zlen (concat (map sel xs))) rs re step s2) as ([k' c'] & Hst & rc' & -> & -> & Hrc')
      end; try (unfold int64_min, int64_max in *; lia).
      + exists rc. cbn [map]. rewrite app_nil_r, zlen_nil. repeat split; auto; lia.
      + intros d' p [k c] Hin (r' & Hd') (rc' & -> & -> & Hc).
        assert (0 < zlen rc') as Hpos.
        { rewrite !zlen_app, zlen_map, Hcl in Hc.
          assert (zlen (concat (map sel xs)) >= zlen (concat (map sel d)) + zlen d' + 1); [|lia].
          rewrite <- Hd, map_app, concat_app, zlen_app. cbn [map concat]. rewrite zlen_app.
          assert (sel (a, b) = d' ++ p :: r') as -> by (rewrite Hd'; symmetry; exact Hpy).
          rewrite zlen_app, zlen_cons. pose proof (zlen_nonneg r'). pose proof (zlen_nonneg (concat (map sel r))). lia. }
        destruct (wr_push' (concat (map carry d) ++ map (Z.add a) d') rc' (a + p) Hpos) as (rc'' & Hw & Hl).
        rewrite zlen_app, zlen_map in Hw. rewrite Hw. cbn [bind]. eexists; split; [reflexivity|].
        exists rc''. rewrite map_app. cbn [map]. rewrite !app_assoc. split; [reflexivity|].
        rewrite !zlen_app in *. rewrite ?zlen_map in *. change (zlen [p]) with 1. change (zlen [a + p]) with 1.
        split; lia.
      + rewrite Hst. cbn [bind].
        assert (0 < zlen ro) as Hpos.
        { rewrite <- Hd, zlen_app, zlen_cons in Hro. pose proof (zlen_nonneg r). lia. }
        set (dl := map (fun ab => zlen (sel ab)) d) in *.
        assert (zlen dl = zlen d) as Hdl by (subst dl; apply zlen_map).
        destruct (wr_push' (offsets_of dl) ro (zlen (concat (map carry d)) + zlen (py_range rs re step)) Hpos) as (ro' & Hw & Hl).
        unfold offsets_of in Hw at 2. rewrite zlen_offsets_from, Hdl in Hw. rewrite Hw. cbn [bind].
        eexists; split; [reflexivity|]. exists ro', rc'. rewrite Hpy.
        assert (map (Z.add a) (py_slice (opt64 start) (opt64 stop) step (b - a)) = carry (a, b)) as E by reflexivity.
        rewrite Hpy in Hrc'. rewrite !map_app. cbn [map]. rewrite concat_app. cbn [concat]. rewrite app_nil_r, <- E.
        split; [|split; [reflexivity|]].
        * f_equal. unfold offsets_of. rewrite offsets_from_snoc. f_equal. f_equal.
          subst dl. rewrite <- (map_map sel zlen), sum_zlen_concat, Hcl. unfold sel at 3. cbn [fst snd]. lia.
        * split; [rewrite zlen_app, zlen_map; reflexivity|]. split; [|exact Hrc'].
          rewrite zlen_app. change (zlen [(a, b)]) with 1. lia.
    - rewrite Hs'. cbn [bind]. f_equal. f_equal.
      + assert (ro = []) as -> by (apply zlen_0; lia). apply app_nil_r.
      + assert (rc = []) as -> by (apply zlen_0; rewrite zlen_app, Hcl in Hrc; lia). apply app_nil_r.
  Qed.
End ListRange.

(** ** the regular kernel *)
Lemma quot_ceil d s : 0 < d -> 0 < s ->
  (if negb (Z.rem d s =? 0) then Z.quot d s + 1 else Z.quot d s) = (d - 1) / s + 1.
Proof.
  intros. rewrite Z.quot_div_nonneg, Z.rem_mod_nonneg by lia.
  destruct (Z.eqb_spec (d mod s) 0); cbn [negb]; nia.
Qed.
Lemma nextsize_spec start stop step size :
  0 <= size -> step <> 0 ->
  let '(a, n) := RegularArray_range_nextsize start stop step size in
  0 <= n /\ map (fun j => a + j * step) (zseq 0 n) = py_slice (opt64 start) (opt64 stop) step size.
Proof.
  intros Hsize Hstep. unfold RegularArray_range_nextsize.
  pose proof (regularize_py start stop step size Hsize Hstep) as Hreg.
  destruct (regularize_rangeslice _ _ _ _ _ _) as [a b]. destruct Hreg as (_ & Hpy & Ha & Hb & Hab).
  cbv zeta. set (n := if _ && _ then _ else _).
  assert (n = py_range_len a b step) as ->.
  { subst n. unfold py_range_len. destruct (Z.ltb_spec 0 step).
    - destruct (Z.ltb_spec a b), (Z.ltb_spec 0 (b - a)); try lia; cbn [andb].
      + rewrite quot_ceil by lia. rewrite Z.abs_eq by lia. f_equal.
      + destruct (Z.ltb_spec step 0); [lia|reflexivity].
    - cbn [andb]. destruct (Z.ltb_spec step 0); [|lia].
      destruct (Z.ltb_spec b a), (Z.ltb_spec (b - a) 0); try lia; cbn [andb].
      + rewrite quot_ceil by lia. rewrite Z.abs_neq by lia. f_equal.
      + reflexivity. }
  split; [now apply py_range_len_nonneg|exact Hpy].
Qed.
Lemma regular_range_spec start stop step size length tocarry :
  0 <= size -> 0 <= length -> step <> 0 ->
  let '(a, n) := RegularArray_range_nextsize start stop step size in
  zlen tocarry = length * n ->
  awkward_RegularArray_getitem_next_range tocarry a step length size n
  = Ok (concat (map (fun i => map (Z.add (i * size)) (py_slice (opt64 start) (opt64 stop) step size)) (zseq 0 length))).
Proof.
  intros Hsize Hlen Hstep. pose proof (nextsize_spec start stop step size Hsize Hstep) as H.
  destruct (RegularArray_range_nextsize _ _ _ _) as [a n]. destruct H as [Hn H]. intros Htc.
  unfold awkward_RegularArray_getitem_next_range.
  destruct (for_fill2 (fun i j tocarry => wr tocarry (i * n + j) (i * size + a + j * step))
     (fun i j => i * size + a + j * step) length n tocarry) as (rest & Hf & Hr); try lia.
  - reflexivity.
  - rewrite Hf. assert (rest = []) as -> by (apply zlen_0; lia). rewrite app_nil_r. do 2 f_equal.
    apply map_ext; intros i. rewrite <- H, map_map. apply map_ext; intros j. lia.
Qed.

(** getitem_range: the positions start, ..., stop-1 after regularization. *)
Lemma regularize_step1 start stop len :
  0 <= len ->
  let '(a, b) := regularize_rangeslice start stop true
     (negb (start =? kSliceNone)) (negb (stop =? kSliceNone)) len in
  0 <= a <= b /\ b <= len /\ zseq a b = py_slice (opt64 start) (opt64 stop) 1 len.
Proof.
  intros Hlen. pose proof (regularize_py start stop 1 len Hlen ltac:(lia)) as H.
  change (0 <? 1) with true in H. cbv iota in H.
  destruct (regularize_rangeslice _ _ _ _ _ _) as [a b]. destruct H as (_ & Hpy & Ha & Hb & Hab).
  split; [lia|]. split; [lia|]. rewrite <- Hpy. unfold py_range, py_range_len. change (0 <? 1) with true. cbv iota.
  rewrite Z.div_1_r. destruct (Z.ltb_spec a b).
  - pose proof (map_zseq_shift (fun x => x) 0 (b - a) a) as Hs. rewrite map_id in Hs.
    replace (0 + a) with a in Hs by lia. replace (b - a + a) with b in Hs by lia. rewrite Hs.
    replace (b - a - 1 + 1) with (b - a) by lia. apply map_ext; intros; lia.
  - rewrite !zseq_nil by lia. reflexivity.
Qed.
