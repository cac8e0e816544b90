(** C19: taking a field commutes with slicing, and records stay aligned. *)
From Verif Require Import Base BaseLemmas OmapLemmas LoopLemmas Content SpecArray SpecForm SpecSlice SpecGetitem KRange Core Getitem
  PCore PRange PValid PCarry PList PForm PNat PAxis PFillna PAt PGetitem1 PField PGetitem PGetitem2 ExampleArrays ThmC02 ThmC03.
From Coq Require Import String.
From Coq Require Import List.
Import ListNotations.
Local Open Scope string_scope.
Local Open Scope list_scope.
Local Open Scope Z_scope.

Lemma omap_at {A B} (f : A -> option B) l ys i x : omap f l = Some ys -> nthZ l i = Some x -> exists y, f x = Some y /\ nthZ ys i = Some y.
Proof. intros H Hx. destruct (omap_nth _ _ _ _ _ H Hx) as [E [y Ey]]. exists y. split; [exact Ey|congruence]. Qed.

(** array["x"] has the field x of every record, at the place of the record: missing records stay missing, lists of records become lists *)
Theorem C19_field : forall c vs key, den c = Some vs -> has_field key (form_of c) = true ->
  exists f ws, getitem_field key c = Ok f /\ den f = Some ws /\ Forall2 (fun v w => proj key v = Some w) vs ws.
Proof.
  intros c vs key Hd Hf. destruct (field_den key c vs Hf Hd) as (f & ws & E & Hw & Hd'). exists f, ws. split; [exact E|]. split; [exact Hd'|]. apply F2_omap. exact Hw.
Qed.
Print Assumptions C19_field.

(** array["x"][start:stop] and array[start:stop]["x"] *)
Theorem C19_range : forall c vs key start stop, den c = Some vs -> has_field key (form_of c) = true ->
  exists f f' c' f'' ws, getitem_field key c = Ok f /\ getitem_range f start stop = Ok f' /\
    getitem_range c start stop = Ok c' /\ getitem_field key c' = Ok f'' /\ den f' = Some ws /\ den f'' = Some ws.
Proof.
  intros c vs key start stop Hd Hf. destruct (field_den key c vs Hf Hd) as (f & ws & E & Hw & Hd').
  destruct (C03_getitem_range c vs start stop Hd) as (c' & vs' & E1 & D1 & P1). destruct (C03_getitem_range f ws start stop Hd') as (f' & ws' & E2 & D2 & P2).
  assert (Hfc : form_of c' = form_of c). { unfold getitem_range in E1. destruct (regularize_rangeslice _ _ _ _ _ _) as [a b]. assert (E1' : c' = c \/ getitem_range_nowrap c a b = Ok c') by (destruct c; auto; try (left; congruence); destruct (_ <? _) in E1; [discriminate|auto]).
    destruct E1' as [->|E1']; [reflexivity|]. apply range_same in E1'. destruct E1'; congruence. }
  destruct (field_den key c' vs') as (f'' & ws'' & E3 & W3 & D3); [rewrite Hfc; exact Hf|exact D1|].
  exists f, f', c', f'', ws'. repeat split; auto. rewrite D3. f_equal. apply omap_zlen in Hw as Hz. rewrite Hz in P2.
  apply omap_picks in P1, P2. pose proof (omap_pos (nthZ vs) (proj key) (nthZ ws) (py_slice (opt64 start) (opt64 stop) 1 (zlen vs))) as G. rewrite P1, P2 in G.
  destruct G as (us & U1 & U2).
  - intros p _. destruct (nthZ vs p) as [v|] eqn:Ev.
    + destruct (omap_at _ _ _ _ _ Hw Ev) as (w & A & B). eauto.
    + destruct (nthZ ws p) as [w|] eqn:Ew; [|reflexivity]. apply nthZ_Some in Ew. destruct (nthZ_lt vs p ltac:(lia)) as (v & Hv). congruence.
  - congruence.
Qed.
Print Assumptions C19_range.

(** array["x"][i] and array[i]["x"] *)
Theorem C19_at : forall c vs key i it, den c = Some vs -> has_field key (form_of c) = true -> getitem_at c i = Ok it ->
  exists f jt v w, getitem_field key c = Ok f /\ getitem_at f i = Ok jt /\ item_den it = Some v /\ item_den jt = Some w /\ proj key v = Some w.
Proof.
  intros c vs key i it Hd Hf Ei. destruct (field_den key c vs Hf Hd) as (f & ws & E & Hw & Hd'). apply omap_zlen in Hw as Hz.
  pose proof (C02_getitem_at c vs i Hd) as A. pose proof (C02_getitem_at f ws i Hd') as B. rewrite Hz in B. set (p := if i <? 0 then i + zlen vs else i) in *.
  destruct (nthZ vs p) as [v|] eqn:Ev; [|destruct A; congruence]. destruct A as (it' & E1 & D1). rewrite Ei in E1. injection E1 as <-.
  destruct (omap_at _ _ _ _ _ Hw Ev) as (w & Pw & Nw). rewrite Nw in B. destruct B as (jt & E2 & D2). exists f, jt, v, w. repeat split; auto.
Qed.
Print Assumptions C19_at.

(** array[list of positions], the reordering behind most operations *)
Theorem C19_carry : forall c vs key nc us, den c = Some vs -> has_field key (form_of c) = true -> omap (nthZ vs) nc = Some us ->
  exists f f' c' f'' ws, getitem_field key c = Ok f /\ carry f nc true = Ok f' /\ carry c nc true = Ok c' /\ getitem_field key c' = Ok f'' /\ den f' = Some ws /\ den f'' = Some ws.
Proof.
  intros c vs key nc us Hd Hf Hn. destruct (field_den key c vs Hf Hd) as (f & ws & E & Hw & Hd').
  destruct (carry_den c vs nc us true Hd Hn) as (c' & E1 & D1). assert (Hfc : form_of c' = form_of c) by (apply carry_same in E1; destruct E1; congruence).
  destruct (field_den key c' us) as (f'' & ws'' & E3 & W3 & D3); [rewrite Hfc; exact Hf|exact D1|].
  pose proof (omap_pos (nthZ vs) (proj key) (nthZ ws) nc) as G. rewrite Hn in G. destruct G as (us' & U1 & U2).
  { intros p _. destruct (nthZ vs p) as [v|] eqn:Ev.
    + destruct (omap_at _ _ _ _ _ Hw Ev) as (w & A & B). eauto.
    + destruct (nthZ ws p) as [w|] eqn:Ew; [|reflexivity]. apply nthZ_Some in Ew. apply omap_zlen in Hw. destruct (nthZ_lt vs p ltac:(lia)) as (v & Hv). congruence. }
  destruct (carry_den f ws nc us' true Hd' U2) as (f' & E2 & D2). exists f, f', c', f'', us'. repeat split; auto. congruence.
Qed.
Print Assumptions C19_carry.

(** array["x", items...] is array["x"][items...] *)
Theorem C19_field_first : forall is64 fuel c vs key f items, den c = Some vs -> has_field key (form_of c) = true -> getitem_field key c = Ok f ->
  getitem is64 (S fuel) c (SField key :: items) = getitem is64 fuel f items.
Proof.
  intros is64 fuel c vs key f items Hd Hf E. destruct (field_den key c vs Hf Hd) as (f' & ws & E' & Hw & Hd'). rewrite E in E'. injection E' as <-. apply omap_zlen in Hw.
  unfold getitem. destruct (one_row is64 c vs Hd) as [D1 L1]. rewrite (mkRegular_den _ _ _ _ D1). cbn [bind]. unfold getitem_next at 1; fold getitem_next. cbn [getitem_field]. rewrite E. cbn [bind]. rewrite L1.
  assert (length_ f = length_ c) as -> by (rewrite (den_length _ _ Hd), (den_length _ _ Hd'); exact Hw).
  destruct (mkRegular (length_ c) 1 f); reflexivity.
Qed.
Print Assumptions C19_field_first.

(** ** whole slices *)
Lemma thru_rec f fs : thru f (VRec fs) = option_map VRec (omap (fun kx => option_map (pair (fst kx)) (thru f (snd kx))) fs).
Proof.
  cbn [thru]. f_equal. induction fs as [|[k x] fs IH]; [reflexivity|]. cbn [omap fst snd]. rewrite IH. destruct (thru f x); reflexivity.
Qed.
Lemma thru_tuple f l : thru f (VTuple l) = option_map VTuple (omap (thru f) l).
Proof. reflexivity. Qed.

Lemma thru_proj key f v w pv : (forall l, v = VList l -> forall w, f v = Some w -> forall pv, proj key v = Some pv -> exists pw, proj key w = Some pw /\ f pv = Some pw) ->
  thru f v = Some w -> proj key v = Some pv -> exists pw, proj key w = Some pw /\ thru f pv = Some pw.
Proof.
  intros HL Hw Hp. destruct v as [| | | |l|fs|l]; cbn [proj] in Hp; try discriminate.
  - injection Hp as <-. cbn [thru] in Hw. injection Hw as <-. exists VNone. split; reflexivity.
  - cbn [thru] in Hw. destruct (omap (proj key) l) as [pl|] eqn:El; [|discriminate]. injection Hp as <-. destruct (HL l eq_refl w Hw (VList pl)) as (pw & A & B); [cbn [proj]; rewrite El; reflexivity|]. exists pw. split; [exact A|exact B].
  - rewrite thru_rec in Hw. destruct (omap _ fs) as [fs'|] eqn:Ef; [|discriminate]. injection Hw as <-. cbn [proj]. revert fs' Ef Hp. induction fs as [|[k x] fs IH]; cbn [find omap fst snd option_map]; intros fs' Ef Hp; [discriminate|].
    destruct (thru f x) as [y|] eqn:Ex; [|discriminate]. cbn [option_map] in Ef. destruct (omap _ fs) as [t|]; [|discriminate]. injection Ef as <-. cbn [find fst]. destruct (String.eqb k key).
    + cbn [option_map snd] in *. injection Hp as <-. exists y. split; [reflexivity|exact Ex].
    + apply IH; [|reflexivity|exact Hp]. intros; discriminate.
  - rewrite thru_tuple in Hw. destruct (omap (thru f) l) as [l'|] eqn:El; [|discriminate]. injection Hw as <-. cbn [proj]. destruct (stoi key) as [i|]; [|discriminate]. destruct (omap_at _ _ _ _ _ El Hp) as (y & A & B). eauto.
Qed.

Lemma elem_proj key l pl i x : omap (proj key) l = Some pl -> elem l i = Some x -> exists px, proj key x = Some px /\ elem pl i = Some px.
Proof.
  unfold elem. intros H E. rewrite (omap_zlen _ _ _ H). destruct (wrap i (zlen l)) as [k|]; [|discriminate]. destruct (omap_at _ _ _ _ _ H E) as (y & A & B). eauto.
Qed.
Lemma omap_proj key (g : value -> option value) l pl ws : (forall x px w, proj key x = Some px -> g x = Some w -> exists pw, proj key w = Some pw /\ g px = Some pw) ->
  omap (proj key) l = Some pl -> omap g l = Some ws -> exists pws, omap (proj key) ws = Some pws /\ omap g pl = Some pws.
Proof.
  intros HG. revert pl ws. induction l as [|x l IH]; cbn [omap]; intros pl ws Hp Hg.
  - injection Hp as <-. injection Hg as <-. exists []. split; reflexivity.
  - destruct (proj key x) as [px|] eqn:Ex; [|discriminate]. destruct (omap (proj key) l) as [pl'|]; [|discriminate]. injection Hp as <-. destruct (g x) as [w|] eqn:Eg; [|discriminate]. destruct (omap g l) as [ws'|]; [|discriminate]. injection Hg as <-.
    destruct (IH _ _ eq_refl eq_refl) as (pws & A & B). destruct (HG _ _ _ Ex Eg) as (pw & C & D). exists (pw :: pws). cbn [omap]. rewrite A, B, C, D. split; reflexivity.
Qed.

Definition no_field (items : list sliceitem) : Prop := forall key, ~ In (SField key) items.
Lemma pick_proj key items : no_field items -> forall k v w pv, pick items k v = Some w -> proj key v = Some pv -> exists pw, proj key w = Some pw /\ pick items k pv = Some pw.
Proof.
  intros HN. induction items as [|it t IH]; intros k v w pv Hw Hp; [cbn [pick] in *; injection Hw as <-; eauto|].
  assert (HN' : no_field t) by (intros k' H; apply (HN k'); right; exact H). specialize (IH HN').
  destruct it as [i|a b s| | |shape index|key'|offsets sc]; cbn [pick] in Hw |- *; try discriminate.
  - eapply thru_proj; [|exact Hw|exact Hp]. clear - IH. intros l -> w Hw pv Hp. cbn [proj] in Hp. destruct (omap (proj key) l) as [pl|] eqn:El; [|discriminate]. injection Hp as <-.
    destruct (elem l i) as [x|] eqn:Ex; [|discriminate]. destruct (elem_proj _ _ _ _ _ El Ex) as (px & A & B). rewrite B. eapply IH; eassumption.
  - eapply thru_proj; [|exact Hw|exact Hp]. clear - IH. intros l -> w Hw pv Hp. cbn [proj] in Hp. destruct (omap (proj key) l) as [pl|] eqn:El; [|discriminate]. injection Hp as <-. rewrite (omap_zlen _ _ _ El).
    destruct (omap (nthZ l) _) as [xs|] eqn:Ex; [|discriminate]. destruct (omap (pick t k) xs) as [ys|] eqn:Ey; [|discriminate]. cbn [option_map] in Hw. injection Hw as <-.
    pose proof (omap_pos (nthZ l) (proj key) (nthZ pl) (py_slice (opt64 a) (opt64 b) s (zlen l))) as G. rewrite Ex in G. destruct G as (pxs & G1 & G2).
    { intros p _. destruct (nthZ l p) as [v|] eqn:Ev; [destruct (omap_at _ _ _ _ _ El Ev) as (u & A & B); eauto|]. destruct (nthZ pl p) eqn:Epl; [|reflexivity]. apply nthZ_Some in Epl. apply omap_zlen in El. destruct (nthZ_lt l p ltac:(lia)). congruence. }
    rewrite G2. destruct (omap_proj key (pick t k) xs pxs ys) as (pws & A & B); auto; [intros; eapply IH; eassumption|]. rewrite B. exists (VList pws). cbn [proj option_map]. rewrite A. split; reflexivity.
  - destruct (pick t k v) as [x|] eqn:Ex; [|discriminate]. injection Hw as <-. destruct (IH _ _ _ _ Ex Hp) as (px & A & B). rewrite B. exists (VList [px]). cbn [proj omap option_map]. rewrite A. split; reflexivity.
  - eapply thru_proj; [|exact Hw|exact Hp]. clear - IH. intros l -> w Hw pv Hp. cbn [proj] in Hp. destruct (omap (proj key) l) as [pl|] eqn:El; [|discriminate]. injection Hp as <-.
    assert (HA : forall j x, match nthZ index j with Some i => match elem l i with Some x => pick t (Some j) x | None => None end | None => None end = Some x ->
      exists px, proj key x = Some px /\ match nthZ index j with Some i => match elem pl i with Some x => pick t (Some j) x | None => None end | None => None end = Some px).
    { intros j x H. destruct (nthZ index j) as [i|]; [|discriminate]. destruct (elem l i) as [y|] eqn:Ey; [|discriminate]. destruct (elem_proj _ _ _ _ _ El Ey) as (py & A & B). rewrite B. eapply IH; eassumption. }
    destruct k as [j|]; [apply HA; exact Hw|]. destruct (omap _ (zseq 0 (zlen index))) as [xs|] eqn:Ex in Hw; [|discriminate]. injection Hw as <-.
    assert (G : exists pxs, omap (proj key) xs = Some pxs /\ omap (fun j => match nthZ index j with Some i => match elem pl i with Some x => pick t (Some j) x | None => None end | None => None end) (zseq 0 (zlen index)) = Some pxs).
    { revert xs Ex. induction (zseq 0 (zlen index)) as [|j js IHj]; cbn [omap]; intros xs Ex; [injection Ex as <-; exists []; split; reflexivity|].
      destruct (match nthZ index j with Some _ => _ | None => _ end) as [x|] eqn:E1 in Ex; [|discriminate]. destruct (omap _ js) as [xs'|] in Ex, IHj; [|discriminate]. injection Ex as <-. destruct (IHj _ eq_refl) as (pxs & A & B). destruct (HA _ _ E1) as (px & C & D). exists (px :: pxs). rewrite B, D. cbn [omap]. rewrite A, C. split; reflexivity. }
    destruct G as (pxs & A & B). rewrite B. exists (VList pxs). cbn [proj option_map]. rewrite A. split; reflexivity.
  - exfalso. apply (HN key'). left; reflexivity.
Qed.

Lemma short_and m l : fold_right and True (map (short m) l) <-> Forall (short m) l.
Proof. induction l as [|x l IH]; cbn [map fold_right]; [split; constructor|]. rewrite IH. split; [intros []; constructor; assumption|intros H; inversion H; auto]. Qed.
Lemma short_proj1 m key v : forall w, short m v -> proj key v = Some w -> short m w.
Proof.
  induction v using value_ind'; cbn [proj]; intros w Hs Hp; try discriminate; try (injection Hp as <-; exact I).
  - destruct (omap (proj key) l) as [pl|] eqn:El; [|discriminate]. injection Hp as <-. cbn [short] in Hs |- *. destruct Hs as [Hz Hs]. rewrite (omap_zlen _ _ _ El). split; [exact Hz|]. rewrite short_and in Hs |- *.
    clear Hz. revert pl El. induction l as [|x l IHl]; cbn [omap]; intros pl El; [injection El as <-; constructor|]. destruct (proj key x) as [y|] eqn:Ex; [|discriminate]. destruct (omap (proj key) l) as [t|]; [|discriminate]. injection El as <-. inversion H; subst. inversion Hs; subst. constructor; eauto.
  - cbn [short] in Hs. destruct (find _ r) as [[k x]|] eqn:Ef; [|discriminate]. injection Hp as <-. apply find_some in Ef. destruct Ef as [Hin _]. clear H. induction r as [|[k' y] r IHf]; [contradiction|]. cbn [map fold_right snd] in Hs. destruct Hs as [H1 H2]. destruct Hin as [E|Hin]; [injection E as <- <-; exact H1|apply IHf; assumption].
  - destruct (stoi key); [|discriminate]. cbn [short] in Hs. rewrite short_and in Hs. rewrite Forall_forall in Hs. apply Hs. eapply nthZ_In; exact Hp.
Qed.
Lemma short_proj m key vs ws : short m (VList vs) -> omap (proj key) vs = Some ws -> short m (VList ws).
Proof. intros Hs Hw. eapply (short_proj1 m key (VList vs)); [exact Hs|]. cbn [proj]. rewrite Hw. reflexivity. Qed.

(** array[items...]["x"] and array["x"][items...]: the field of what the first slice returns is what the second slice returns.
    Missing from the full claim: what C20_getitem_partial leaves out. *)
Theorem C19_slice_partial : forall is64 n m c vs key f items,
  den c = Some vs -> has_field key (form_of c) = true -> getitem_field key c = Ok f -> no_field items ->
  exact c -> short m (VList vs) -> fits n m false items (FList (form_of c)) ->
  exact f -> fits n m false items (FList (form_of f)) ->
  exists k, forall fuel, (k <= fuel)%nat ->
  match getitem is64 fuel c items, getitem is64 fuel f items with
  | Ok it, Ok jt => exists v w, item_den it = Some v /\ item_den jt = Some w /\ proj key v = Some w
  | Ok _, Err _ => has_regular f = true
  | _, UB => False
  | Err _, _ => pick items None (VList vs) = None \/ has_regular c = true
  | UB, _ => False
  end.
Proof.
  intros is64 n m c vs key f items Hd Hf E HN HE Hsh Hfit HE' Hfit'. destruct (field_den key c vs Hf Hd) as (f' & ws & E' & Hw & Hd'). rewrite E in E'. injection E' as <-.
  assert (Hm : 0 <= m) by (destruct Hsh; pose proof (zlen_nonneg vs); lia).
  exists (S (bound c) + S (bound f) + length items)%nat. intros fuel Hk.
  pose proof (getitem_correct is64 n m Hm c vs items fuel Hd HE Hsh ltac:(lia) Hfit) as A.
  pose proof (getitem_correct is64 n m Hm f ws items fuel Hd' HE') as B. specialize (B (short_proj _ _ _ _ Hsh Hw) ltac:(lia) Hfit').
  destruct (getitem is64 fuel c items) as [it|e|]; [|destruct (getitem is64 fuel f items); [exact A|exact A|exact B]|destruct A].
  destruct A as (v & Dv & Pv). destruct (pick_proj key items HN None (VList vs) v (VList ws) Pv) as (pw & Q1 & Q2); [cbn [proj]; rewrite Hw; reflexivity|].
  destruct (getitem is64 fuel f items) as [jt|e|].
  - destruct B as (w & Dw & Pw). rewrite Q2 in Pw. injection Pw as <-. exists v, pw. auto.
  - destruct B as [B|B]; [congruence|exact B].
  - exact B.
Qed.
Print Assumptions C19_slice_partial.

(** ** concrete cases *)
Definition points : content := ListOffset [0;2;2;3] (Record (Some ["x"; "y"]) 3 [Numpy DInt [1;2;3]; ListOffset [0;1;3;3] (Numpy DInt [10;20;30])]).
Definition w64 (c : content) : bool := true.
Definition run (c : content) (items : list sliceitem) : res (option value) := match getitem w64 30 c items with Ok it => Ok (item_den it) | Err e => Err e | UB => UB end.
Definition run_field (key : string) (c : content) (items : list sliceitem) : res (option value) := match getitem_field key c with Ok f => run f items | Err e => Err e | UB => UB end.
Definition field_of (key : string) (r : res (option value)) : res (option value) := match r with Ok (Some v) => Ok (proj key v) | _ => r end.

Example C19_ex_hyps : has_field "y" (form_of points) = true /\ exact points /\ fits 1 9 false [SRange 0 9 2; SAt (-1)] (FList (form_of points)) /\
  getitem_field "y" points = Ok (ListOffset [0;2;2;3] (ListOffset [0;1;3;3] (Numpy DInt [10;20;30]))).
Proof.
  split; [reflexivity|]. split; [cbn; intuition discriminate|]. split; [|reflexivity]. cbn [form_of points map].
  apply fits_range; [lia|unfold int64_min; lia|unfold int64_max; lia|cbv; discriminate|]. apply fits_at. apply fits_nil.
Qed.
Example C19_ex_values :
  field_of "y" (run points [SRange 0 9 2; SAt (-1)]) = Ok (Some (VList [VList [VInt 20; VInt 30]; VList []])) /\
  run_field "y" points [SRange 0 9 2; SAt (-1)] = Ok (Some (VList [VList [VInt 20; VInt 30]; VList []])) /\
  run points [SRange 0 9 2; SAt (-1); SField "y"] = Ok (Some (VList [VList [VInt 20; VInt 30]; VList []])) /\
  run points [SField "y"; SRange 0 9 2; SAt (-1)] = Ok (Some (VList [VList [VInt 20; VInt 30]; VList []])).
Proof. vm_compute. repeat split; reflexivity. Qed.

(** ** what the code gets wrong *)
(** three items, two of them inside the records: the last one is not applied to the fields *)
Definition r3 : content := Record (Some ["x"]) 2 [ListOffset [0;2;4] (ListOffset [0;2;4;6;8] (Numpy DInt (zseq 0 8)))].
Theorem C19_deep_slice_refuted :
  let items := [SRange kSliceNone kSliceNone 1; SRange 0 1 1; SAt 0] in
  field_of "x" (run r3 items) = Ok (Some (VList [VList [VInt 0; VInt 1]; VList [VInt 4; VInt 5]])) /\
  run_field "x" r3 items = Ok (Some (VList [VList [VInt 0]; VList [VInt 4]])).
Proof. vm_compute. split; reflexivity. Qed.
Print Assumptions C19_deep_slice_refuted.
(** a key that no record has is taken for the number of a field *)
Theorem C19_absent_key_refuted : has_field "1" (form_of points) = false /\
  exists f, getitem_field "1" points = Ok f /\ den f = Some [VList [VList [VInt 10]; VList [VInt 20; VInt 30]]; VList []; VList [VList []]].
Proof. split; [reflexivity|]. eexists. split; vm_compute; reflexivity. Qed.
Print Assumptions C19_absent_key_refuted.
