(** C14: concatenating arrays concatenates their values, each unchanged up to numeric promotion. *)
From Coq Require Import Permutation.
From Verif Require Import Base BaseLemmas OmapLemmas LoopLemmas Content SpecArray SpecForm SpecMerge KCore Core Convert Option KMerge Merge
  PCore PForm PTidy PPromote PMergeable PMergeK PMerge PMergeC PMergeR PMergeM.
Local Open Scope string_scope.
Local Open Scope list_scope.
Local Open Scope Z_scope.

(** mergeable says exactly which types have a common type without a union *)
Theorem C14_mergeable : forall mergebool c vs other vs', den c = Some vs -> den other = Some vs' -> tidy c -> tidy other ->
  (mergeable mergebool c other = true <-> compatible mergebool (form_of c) (form_of other)).
Proof. intros mb c vs o vs' Hc Ho Tc To. rewrite mergeable_form. apply fm_compatible; eapply tidy_fwf; eassumption. Qed.
Print Assumptions C14_mergeable.

(** the hypotheses of the main theorem: the arrays have values, are pairwise mergeable and tidy, and option-type arrays are not
    mixed with IndexedArrays (see C14_option_then_indexed_refuted) *)
Definition mergeable_arrays (mergebool : bool) (arrays : list content) : Prop :=
  Forall tidy arrays /\ ForallOrdPairs (fun a b => mergeable mergebool a b = true) arrays /\
  (Forall (fun c => indexed_free c = true) (tl arrays) \/ Forall (fun c => option_free (form_of c) = true) arrays).

Lemma to_pre mb self others vss : omap den (self :: others) = Some vss -> mergeable_arrays mb (self :: others) -> pre mb self others vss.
Proof.
  intros HD (HT & HP & HO). split; [apply dens_omap; exact HD|]. split; [exact HT|]. split; [exact HO|]. revert HP. generalize (self :: others). clear. intros l H. induction H as [|a l HF HP IH]; constructor; [|exact IH].
  eapply Forall_impl; [|exact HF]. intros b Hb. cbv beta in Hb. rewrite mergeable_form in Hb. exact Hb.
Qed.

(** the result of mergemany, when there is one, has the values of all the arrays, in order; an error is raised only because some
    index is narrower than 64 bits, or because of the limit of 127 contents of unions; no memory is read or written out of bounds *)
Theorem C14_mergemany : forall rc narrow mergebool self others vss, omap den (self :: others) = Some vss -> mergeable_arrays mergebool (self :: others) ->
  exists n, forall fuel, (n <= fuel)%nat ->
  match mergemany rc narrow fuel self others with
  | Ok c' => exists vs', den c' = Some vs' /\ Forall2 (promotes rc) (concat vss) vs'
  | Err _ => (exists x, narrow x = true) \/ ((exists c, In c (self :: others) /\ union_free (form_of c) = false) /\ 127 < Z.of_nat (list_sum (map weight (self :: others))))
  | UB => False
  end.
Proof.
  intros rc narrow mb self others vss HD HM. exists (sumw (self :: others) + length others)%nat. intros fuel Hf. pose proof (mergemany_ok rc narrow mb fuel self others vss (to_pre _ _ _ _ HD HM) Hf) as H.
  destruct (mergemany rc narrow fuel self others) as [c'| |]; [destruct H as (vs' & D & P & _); eauto| |exact H]. destruct H as [H|[H1 H2]]; [left; exact H|right]. split; [|exact H2].
  destruct (existsb (fun c => negb (union_free (form_of c))) (self :: others)) eqn:E.
  - apply existsb_exists in E as (c & Hin & Hc). exists c. split; [exact Hin|]. destruct (union_free (form_of c)); [discriminate|reflexivity].
  - exfalso. apply H1. apply Forall_forall. intros c Hc. unfold ufree. destruct (union_free (form_of c)) eqn:EU; [reflexivity|]. assert (X : existsb (fun c => negb (union_free (form_of c))) (self :: others) = true) by (apply existsb_exists; exists c; rewrite EU; auto). congruence.
Qed.
Print Assumptions C14_mergemany.

(** with 64-bit indexes it succeeds on all arrays without unions, and on all arrays with unions that are not too large *)
Theorem C14_mergemany_succeeds : forall rc mergebool self others vss, omap den (self :: others) = Some vss -> mergeable_arrays mergebool (self :: others) ->
  (forall c, In c (self :: others) -> union_free (form_of c) = true) \/ Z.of_nat (list_sum (map weight (self :: others))) <= 127 ->
  exists n, forall fuel, (n <= fuel)%nat ->
  exists c' vs', mergemany rc (fun _ => false) fuel self others = Ok c' /\ den c' = Some vs' /\ Forall2 (promotes rc) (concat vss) vs'.
Proof.
  intros rc mb self others vss HD HM HU. destruct (C14_mergemany rc (fun _ => false) mb self others vss HD HM) as (n & Hn). exists n. intros fuel Hf. specialize (Hn fuel Hf).
  destruct (mergemany rc (fun _ => false) fuel self others) as [c'| |]; [destruct Hn as (vs' & D & P); exists c', vs'; auto| |contradiction].
  exfalso. destruct Hn as [(x & Hx)|((c & Hin & Hc) & HW)]; [discriminate|]. destruct HU as [HU|HU]; [rewrite (HU c Hin) in Hc; discriminate|lia].
Qed.
Print Assumptions C14_mergemany_succeeds.

(** arrays of numbers: the common type, and every number converted to it *)
Lemma common_snoc ds d : common (ds ++ [d]) = match ds with [] => d | _ => promote (common ds) d end.
Proof.
  unfold common. rewrite !existsb_app. cbn [existsb]. destruct ds as [|d0 ds]; [destruct d; reflexivity|].
  set (l := d0 :: ds). destruct (existsb (fun d => match d with DReal => true | _ => false end) l); [destruct d; reflexivity|]. cbn [orb]. destruct (existsb (fun d => match d with DInt => true | _ => false end) l); destruct d; reflexivity.
Qed.
Lemma cast_as_type rc dt d z : dle dt d -> scalar d (cast rc dt d z) = as_type rc d (scalar dt z).
Proof. unfold dle. destruct dt, d; simpl; intros H; try discriminate; try reflexivity. all: destruct (z =? 0)%Z; reflexivity. Qed.
Theorem C14_numbers : forall rc narrow fuel dt data others, (1 <= fuel)%nat ->
  exists out, mergemany rc narrow fuel (Numpy dt data) (map (fun p => Numpy (fst p) (snd p)) others) = Ok (Numpy (common (dt :: map fst others)) out) /\
    map (scalar (common (dt :: map fst others))) out
      = map (as_type rc (common (dt :: map fst others))) (map (scalar dt) data ++ concat (map (fun p => map (scalar (fst p)) (snd p)) others)).
Proof.
  intros rc narrow fuel dt data others Hf. destruct fuel as [|f]; [lia|]. cbn [mergemany]. destruct others as [|o0 rest].
  { exists data. simpl map. assert (E : common [dt] = dt) by (destruct dt; reflexivity). rewrite E. split; [reflexivity|]. cbn [concat]. rewrite app_nil_r, map_map. apply map_ext. intros z. destruct dt; reflexivity. }
  set (others := o0 :: rest). set (g := fun p : dtype * list Z => Numpy (fst p) (snd p)). change (map g (o0 :: rest)) with (map g others). assert (HNE : others <> []) by discriminate. clearbody others.
  unfold NumpyArray_mergemany. assert (ES : merging_strategy (Numpy dt data) (map g others) = (map g others, [])).
  { cbn [merging_strategy]. clear. induction others as [|p l IH]; [reflexivity|]. cbn [map split_until]. rewrite IH. reflexivity. }
  rewrite ES. set (d := common (dt :: map fst others)).
  assert (ED : numpy_dtype (Numpy dt data :: map g others) = Ok (Some d)).
  { unfold numpy_dtype. cbn [foldm bind]. assert (G : forall l pre, foldm (fun acc array => match array with Numpy dt _ => Ok (Some (match acc with None => dt | Some d => promote d dt end)) | Empty => Ok acc | _ => Err "cannot merge NumpyArray with this class" end) (map g l) (Some (common (dt :: pre))) = Ok (Some (common (dt :: pre ++ map fst l)))).
    { induction l as [|p l IH]; intros q; cbn [map foldm g]; [rewrite app_nil_r; reflexivity|]. cbn [bind]. specialize (IH (q ++ [fst p])). rewrite <- app_assoc in IH. cbn [app] in IH. rewrite <- IH.
      f_equal. f_equal. symmetry. apply (common_snoc (dt :: q)). }
    specialize (G others []). assert (E : common [dt] = dt) by (destruct dt; reflexivity). rewrite E in G. exact G. }
  rewrite ED. cbn [bind].
  assert (LE : forall x, In x (dt :: map fst others) -> dle x d).
  { unfold d, common, dle. intros x Hx. set (l := dt :: map fst others) in *. destruct (existsb (fun d => match d with DReal => true | _ => false end) l) eqn:E1; [reflexivity|].
    destruct (existsb (fun d => match d with DInt => true | _ => false end) l) eqn:E2.
    - destruct x; try reflexivity. exfalso. assert (X : existsb (fun d => match d with DReal => true | _ => false end) l = true) by (apply existsb_exists; exists DReal; auto). congruence.
    - destruct x; try reflexivity; exfalso; [assert (X : existsb (fun d => match d with DInt => true | _ => false end) l = true) by (apply existsb_exists; exists DInt; auto); congruence|].
      assert (X : existsb (fun d => match d with DReal => true | _ => false end) l = true) by (apply existsb_exists; exists DReal; auto). congruence. }
  set (all := (dt, data) :: others). change (Numpy dt data :: map g others) with (map g all). change (map (scalar dt) data ++ concat (map (fun p => map (scalar (fst p)) (snd p)) others)) with (concat (map (fun p => map (scalar (fst p)) (snd p)) all)).
  assert (LE' : forall p, In p all -> dle (fst p) d) by (intros p Hp; apply LE; unfold all in Hp; destruct Hp as [<-|Hp]; [left; reflexivity|right; apply in_map; exact Hp]).
  assert (G : forall l pre rst, (forall p, In p l -> dle (fst p) d) -> zlen rst = zlen (concat (map snd l)) ->
    exists out, foldm (numpy_fill rc d) (map g l) (pre ++ rst, zlen pre) = Ok (pre ++ out, zlen (pre ++ out)) /\ map (scalar d) out = map (as_type rc d) (concat (map (fun p => map (scalar (fst p)) (snd p)) l))).
  { induction l as [|p l IH]; intros q rst HL Hz; cbn [map foldm concat] in *.
    - assert (rst = []) as -> by (apply zlen_0; exact Hz). exists []. rewrite app_nil_r. auto.
    - rewrite zlen_app in Hz. unfold g at 1. cbn [numpy_fill]. pose proof (zlen_nonneg (concat (map snd l))). destruct (numpy_fill_spec q rst (snd p) (cast rc (fst p) d)) as (r1 & E1 & L1); [lia|]. rewrite E1. cbn [bind].
      replace (zlen q + zlen (snd p)) with (zlen (q ++ map (cast rc (fst p) d) (snd p))) by (rewrite zlen_app, zlen_map; lia).
      destruct (IH (q ++ map (cast rc (fst p) d) (snd p)) r1) as (out & E & A); [intros; apply HL; right; assumption|lia|]. exists (map (cast rc (fst p) d) (snd p) ++ out). rewrite app_assoc. split; [exact E|].
      rewrite !map_app, A. f_equal. rewrite !map_map. apply map_ext. intros z. apply cast_as_type. apply HL. left; reflexivity. }
  assert (HTL : total_length (map g all) = zlen (concat (map snd all))).
  { unfold total_length. clear. assert (G : forall l n, fold_left (fun n c => n + length_ c) (map g l) n = n + zlen (concat (map snd l))); [|rewrite G; lia]. induction l as [|p l IH]; intros n; simpl; [change (zlen (@nil Z)) with 0; lia|]. rewrite IH, zlen_app. lia. }
  rewrite HTL. pose proof (zlen_nonneg (concat (map snd all))). destruct (G all [] (alloc (zlen (concat (map snd all)))) LE') as (out & E & A); [apply zlen_alloc; lia|]. cbn [app] in E. change (zlen (@nil Z)) with 0 in E. rewrite E. cbn [bind fst merge_tail]. exists out. split; [|exact A]. destruct others; [congruence|reflexivity].
Qed.
Print Assumptions C14_numbers.

(** any two arrays can be put one after the other in a union *)
Theorem C14_merge_as_union : forall c vs other vs', den c = Some vs -> den other = Some vs' ->
  exists c', merge_as_union c other = Ok c' /\ den c' = Some (vs ++ vs').
Proof.
  intros c vs o vs' Hc Ho. unfold merge_as_union. rewrite (den_length _ _ Hc), (den_length _ _ Ho). pose proof (zlen_nonneg vs). pose proof (zlen_nonneg vs').
  destruct (filltags_const_spec [] (alloc (zlen vs + zlen vs')) (zlen vs) 0) as (r1 & E1 & L1); [rewrite zlen_alloc by lia; lia|]. cbn [app] in E1. change (zlen (@nil Z)) with 0 in E1. rewrite E1. cbn [bind].
  destruct (fillindex_count_spec [] (alloc (zlen vs + zlen vs')) (zlen vs)) as (r2 & E2 & L2); [rewrite zlen_alloc by lia; lia|]. cbn [app] in E2. change (zlen (@nil Z)) with 0 in E2. rewrite E2. cbn [bind].
  rewrite zlen_alloc in L1, L2 by lia. set (t1 := map (fun _ : Z => 0) (zseq 0 (zlen vs))). set (i1 := zseq 0 (zlen vs)).
  assert (Z1 : zlen t1 = zlen vs) by (unfold t1; rewrite zlen_map, zlen_zseq; lia). assert (Z2 : zlen i1 = zlen vs) by (unfold i1; rewrite zlen_zseq; lia).
  destruct (filltags_const_spec t1 r1 (zlen vs') 1) as (r3 & E3 & L3); [lia|]. rewrite Z1 in E3. rewrite E3. cbn [bind].
  destruct (fillindex_count_spec i1 r2 (zlen vs')) as (r4 & E4 & L4); [lia|]. rewrite Z2 in E4. rewrite E4. cbn [bind].
  assert (r3 = []) as -> by (apply zlen_0; lia). assert (r4 = []) as -> by (apply zlen_0; lia). rewrite !app_nil_r.
  set (t2 := map (fun _ : Z => 1) (zseq 0 (zlen vs'))). set (i2 := zseq 0 (zlen vs')). assert (Z3 : zlen t2 = zlen vs') by (unfold t2; rewrite zlen_map, zlen_zseq; lia). assert (Z4 : zlen i2 = zlen vs') by (unfold i2; rewrite zlen_zseq; lia).
  unfold mkUnion. rewrite !zlen_app, Z1, Z2, Z3, Z4. rewrite Z.ltb_irrefl. eexists; split; [reflexivity|].
  cbn [den omap]. rewrite Hc, Ho, !zlen_app, Z1, Z2, Z3, Z4. rewrite Z.leb_refl. change (1 <=? zlen [c; o]) with true. cbn [andb].
  rewrite combine_app by lia. apply omap_F_app.
  - apply omap_F. unfold t1, i1. apply F2_of_nthZ; [rewrite zlen_combine_le by (rewrite zlen_map; lia); rewrite zlen_map, zlen_zseq; lia|].
    intros i [t j] v Hi Hv. rewrite nthZ_combine, nthZ_map in Hi. destruct (nthZ (zseq 0 (zlen vs)) i) as [z|] eqn:EZ; [|discriminate]. injection Hi as <- <-. apply nthZ_Some in Hv as Hb. rewrite nthZ_zseq in EZ by lia. injection EZ as <-. exact Hv.
  - apply omap_F. unfold t2, i2. apply F2_of_nthZ; [rewrite zlen_combine_le by (rewrite zlen_map; lia); rewrite zlen_map, zlen_zseq; lia|].
    intros i [t j] v Hi Hv. rewrite nthZ_combine, nthZ_map in Hi. destruct (nthZ (zseq 0 (zlen vs')) i) as [z|] eqn:EZ; [|discriminate]. injection Hi as <- <-. apply nthZ_Some in Hv as Hb. rewrite nthZ_zseq in EZ by lia. injection EZ as <-. exact Hv.
Qed.
Print Assumptions C14_merge_as_union.

(** The hypotheses hold of an array of records with booleans and lists, followed by one with integers and lists of reals and the
    fields in another order, and one that is an option of the same. *)
Definition ex1 : content := Record (Some ["x"; "y"]) 2 [Numpy DBool [1; 0]; ListOffset [0; 2; 3] (Numpy DInt [1; 2; 3])].
Definition ex2 : content := Record (Some ["y"; "x"]) 1 [Regular 1 1 (Numpy DReal [50]); Numpy DInt [7]].
Definition ex3 : content := IndexedOption [-1; 0] (Record (Some ["x"; "y"]) 1 [Numpy DInt [9]; ListA [1] [1] (Numpy DInt [4])]).
Example C14_example_hyp : mergeable_arrays true [ex1; ex2; ex3].
Proof.
  split; [|split].
  - repeat constructor; simpl; intuition discriminate.
  - repeat constructor.
  - left. repeat constructor.
Qed.
Example C14_example : (let* c := mergemany (fun n => 10 * n) (fun _ => false) 20 ex1 [ex2; ex3] in Ok (den c)) =
  Ok (Some [VRec [("x", VInt 1); ("y", VList [VReal 10; VReal 20])]; VRec [("x", VInt 0); ("y", VList [VReal 30])];
            VRec [("x", VInt 7); ("y", VList [VReal 50])]; VNone; VRec [("x", VInt 9); ("y", VList [])]]).
Proof. vm_compute. reflexivity. Qed.
Example C14_union_example : (let* c := mergemany (fun n => n) (fun _ => false) 20 (Numpy DInt [1; 2]) [Union [0; 1] [0; 0] [Numpy DInt [5]; ListOffset [0; 1] (Numpy DInt [6])]; ListOffset [0; 0] Empty] in Ok (den c)) =
  Ok (Some [VInt 1; VInt 2; VInt 5; VList [VInt 6]; VList []]).
Proof. vm_compute. reflexivity. Qed.

(** Without the last hypothesis it is false: after an option-type array, an IndexedArray makes IndexedArray::mergemany forget that
    the result has an option type (IndexedArray.cpp:1848-1958 assigns is_option for every array), and the missing value becomes an
    invalid index. *)
Theorem C14_option_then_indexed_refuted :
  let self := IndexedOption [0; -1] (Numpy DInt [1]) in let other := Indexed [0] (Numpy DInt [2]) in
  den self = Some [VInt 1; VNone] /\ den other = Some [VInt 2] /\ mergeable true self other = true /\
  exists c', mergemany (fun n => n) (fun _ => false) 20 self [other] = Ok c' /\ den c' = None.
Proof. repeat split. eexists. split; vm_compute; reflexivity. Qed.
Print Assumptions C14_option_then_indexed_refuted.

(** Fields longer than the record array (which every slice of a RecordArray has room for) shift the values of the following
    arrays: RecordArray.cpp:1275-1290 trims the first array's fields and then uses the untrimmed ones. *)
Theorem C14_untrimmed_record_refuted :
  let self := Record (Some ["x"]) 1 [Numpy DInt [1; 99]] in let other := Record (Some ["x"]) 1 [Numpy DInt [2]] in
  den self = Some [VRec [("x", VInt 1)]] /\ den other = Some [VRec [("x", VInt 2)]] /\ mergeable true self other = true /\
  exists c', mergemany (fun n => n) (fun _ => false) 20 self [other] = Ok c' /\ den c' = Some [VRec [("x", VInt 1)]; VRec [("x", VInt 99)]; VRec [("x", VInt 2)]].
Proof. repeat split. eexists. split; vm_compute; reflexivity. Qed.
Print Assumptions C14_untrimmed_record_refuted.

(** Records without fields lose their length (RecordArray.cpp:1355-1366): the result has length -1. *)
Theorem C14_fieldless_record_refuted :
  let self := Record None 2 [] in let other := Record None 3 [] in
  den self = Some [VTuple []; VTuple []] /\ den other = Some [VTuple []; VTuple []; VTuple []] /\ mergeable true self other = true /\
  exists c', mergemany (fun n => n) (fun _ => false) 20 self [other] = Ok c' /\ length_ c' = -1.
Proof. repeat split. eexists. split; vm_compute; reflexivity. Qed.
Print Assumptions C14_fieldless_record_refuted.

(** A narrow index: a non-option array followed by an IndexedOptionArray32 raises "unrecognized IndexedArray specialization"
    although the arrays are mergeable (IndexedArray.cpp:1760-1782). *)
Theorem C14_narrow_index_refuted :
  let self := Numpy DInt [1] in let other := IndexedOption [0; -1] (Numpy DInt [2]) in
  mergeable true self other = true /\ exists m, mergemany (fun n => n) (fun c => match c with IndexedOption _ _ => true | _ => false end) 20 self [other] = Err m.
Proof. split; [reflexivity|]. eexists. vm_compute. reflexivity. Qed.
Print Assumptions C14_narrow_index_refuted.
