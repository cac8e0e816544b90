(** Proofs about reading any JSON and about comparing Forms. *)
From Coq Require Import String Sorted Lia.
From Verif Require Import Base BaseLemmas Forms SpecForms PForms.
Local Open Scope Z_scope.
Local Open Scope list_scope.
Local Open Scope string_scope.

(** ** Reading *)
Lemma find_In : forall A k (l : list (string * A)) x, find k l = Some x -> In (k, x) l.
Proof.
  induction l as [|[k' y] l IH]; intros x H; [discriminate|]. cbn in H. destruct (k =? k') eqn:E; [|right; now apply IH].
  apply String.eqb_eq in E. injection H as <-. subst. now left.
Qed.
Lemma from_name_defined : forall s, from_name s <> UB.
Proof. intros s. unfold from_name. destruct (name_to_dtype (cstr s)); discriminate. Qed.
Lemma all_ok_defined : forall A (l : list (res A)), Forall (fun x => x <> UB) l -> all_ok l <> UB.
Proof. induction l as [|x l IH]; intros H; [discriminate|]. inversion H; subst. cbn. destruct x; [|discriminate|congruence]. cbn. specialize (IH H3). destruct (all_ok l); [discriminate|discriminate|congruence]. Qed.
Lemma all_members_defined : forall l, Forall (fun x => snd x <> UB) l -> all_members l <> UB.
Proof. induction l as [|[k x] l IH]; intros H; [discriminate|]. inversion H; subst. cbn in *. destruct x; [|discriminate|congruence]. cbn. specialize (IH H3). destruct (all_members l); [discriminate|discriminate|congruence]. Qed.
Lemma bind_defined : forall A B (e : res A) (k : A -> res B), e <> UB -> (forall a, e = Ok a -> k a <> UB) -> bind e k <> UB.
Proof. intros A B [a|s|] k H K; cbn; [now apply K|discriminate|congruence]. Qed.
Lemma str2form_defined : forall s, str2form s <> UB.
Proof. intros s. unfold str2form. repeat match goal with |- (if ?b then _ else _) <> _ => destruct b end; discriminate. Qed.

Section Reading.
Variable l : list (string * json).
Hypothesis parts_defined : Forall (fun kx => self (decode (snd kx)) <> UB /\ Forall (fun x => x <> UB) (elems (decode (snd kx)))
                                             /\ Forall (fun x => snd x <> UB) (members (decode (snd kx)))) l.
Lemma part_defined : forall k d, part (parts l) k = Some d -> self d <> UB /\ Forall (fun x => x <> UB) (elems d) /\ Forall (fun x => snd x <> UB) (members d).
Proof.
  intros k d H. rewrite part_parts in H. destruct (find k l) as [x|] eqn:E; [|discriminate]. cbn in H. injection H as <-.
  apply find_In in E. rewrite Forall_forall in parts_defined. exact (parts_defined _ E).
Qed.
Lemma width_defined : forall k w, read_width (parts l) k w <> UB.
Proof.
  intros k w. unfold read_width. apply bind_defined.
  - destruct (get (parts l) k) as [[]|]; try discriminate. apply bind_defined; [apply str2form_defined|]. intros a _. destruct w; [destruct iform_beq|]; discriminate.
  - intros [a|] _; discriminate.
Qed.
Lemma content_defined : forall k, read_content (parts l) k <> UB.
Proof. intros k. unfold read_content. destruct (part (parts l) k) eqn:E; [|discriminate]. now apply part_defined in E. Qed.
Lemma bool_defined : forall k, read_bool (parts l) k <> UB.
Proof. intros k. unfold read_bool. destruct (get (parts l) k) as [[]|]; discriminate. Qed.
Lemma meta_defined : read_meta (parts l) <> UB.
Proof.
  unfold read_meta. apply bind_defined; [destruct (get (parts l) "has_identities") as [[]|]; discriminate|intros h _].
  apply bind_defined; [destruct (get (parts l) "parameters") as [[]|]; discriminate|intros p _].
  apply bind_defined; [destruct (get (parts l) "form_key") as [[]|]; discriminate|intros f _]. discriminate.
Qed.
Lemma object_defined : ~ generic_list (JObject l) -> from_object (parts l) <> UB.
Proof.
  intros G. unfold from_object. destruct (get (parts l) "class") as [[]|] eqn:Ec; try discriminate.
  rewrite get_parts in Ec. apply bind_defined; [apply meta_defined|intros m _].
  destruct (cstr s =? "NumpyArray").
  { apply bind_defined.
    - destruct (get (parts l) "primitive") as [[]|];
        try (destruct (get (parts l) "format") as [[]|]; try discriminate; destruct (get (parts l) "itemsize") as [[]|]; try discriminate; destruct isint; discriminate).
      unfold from_name. destruct (name_to_dtype (cstr s0)); discriminate.
    - intros [f i] _. apply bind_defined; [|intros; discriminate].
      destruct (get (parts l) "inner_shape") as [[]|]; try discriminate. apply all_ok_defined. rewrite Forall_forall. intros x Hx.
      apply in_map_iff in Hx. destruct Hx as (y & <- & _). destruct y; try discriminate. destruct isint; discriminate. }
  destruct (cstr s =? "RecordArray").
  { destruct (get (parts l) "contents") as [[]|]; try discriminate; destruct (part (parts l) "contents") as [d|] eqn:Ep; try discriminate; apply part_defined in Ep.
    - apply bind_defined; [apply all_ok_defined; tauto|]. intros; discriminate.
    - apply bind_defined; [apply all_members_defined; tauto|]. intros; discriminate. }
  destruct (cstr s =? "ListOffsetArray") eqn:El.
  { exfalso. apply G. exists l, s. split; [reflexivity|]. split; [exact Ec|]. now apply String.eqb_eq. }
  repeat match goal with
  | |- (if _ then _ else _) <> UB => match goal with |- (if ?b then _ else _) <> UB => destruct b end
  | |- bind (read_width _ _ _) _ <> UB => apply bind_defined; [apply width_defined|intros ? _]
  | |- bind (read_content _ _) _ <> UB => apply bind_defined; [apply content_defined|intros ? _]
  | |- bind (read_bool _ _) _ <> UB => apply bind_defined; [apply bool_defined|intros ? _]
  | |- Ok _ <> UB => discriminate
  | |- Err _ <> UB => discriminate
  end.
  - destruct (get (parts l) "size") as [[]|]; try discriminate. destruct isint; discriminate.
  - destruct (get (parts l) "contents") as [[]|]; try discriminate. destruct (part (parts l) "contents") as [d|] eqn:Ep; try discriminate. apply part_defined in Ep.
    apply bind_defined; [apply all_ok_defined; tauto|]. intros; discriminate.
  - apply bind_defined.
    + destruct (get (parts l) "form") as [[]|]; try discriminate; (apply bind_defined; [apply content_defined|intros; discriminate]).
    + intros i _. apply bind_defined; [apply bool_defined|intros; discriminate].
Qed.
End Reading.

Lemma reading_defined : forall j, (forall j', inside j' j -> ~ generic_list j') ->
  self (decode j) <> UB /\ Forall (fun x => x <> UB) (elems (decode j)) /\ Forall (fun x => snd x <> UB) (members (decode j)).
Proof.
  induction j as [| | | |s|l IH|l IH] using json_ind'; intros G; try (split; [discriminate|split; constructor]).
  - split; [apply from_name_defined|split; constructor].
  - split; [discriminate|]. split; [|constructor]. rewrite elems_array. rewrite Forall_forall in *. intros x Hx. apply in_map_iff in Hx. destruct Hx as (y & <- & Hy).
    apply IH; [assumption|]. intros j' Hj. apply G. eapply inside_array; eauto.
  - assert (D : Forall (fun kx => self (decode (snd kx)) <> UB /\ Forall (fun x => x <> UB) (elems (decode (snd kx)))
                                             /\ Forall (fun x => snd x <> UB) (members (decode (snd kx)))) l).
    { rewrite Forall_forall in *. intros [k x] Hx. apply (IH _ Hx). intros j' Hj. apply G. eapply inside_object; eauto. }
    rewrite decode_object, members_object. split; [|split; [constructor|]].
    + apply object_defined; [exact D|]. apply G. constructor.
    + rewrite Forall_forall in *. intros x Hx. apply in_map_iff in Hx. destruct Hx as (y & <- & Hy). unfold parts in Hy. apply in_map_iff in Hy.
      destruct Hy as (z & <- & Hz). cbn. now apply D.
Qed.

(** ** Comparing *)
Lemma iform_beq_true : forall a b, iform_beq a b = true <-> a = b.
Proof. intros a b; split; [apply internal_iform_dec_bl|apply internal_iform_dec_lb]. Qed.
Lemma shape_equal_true : forall a b, shape_equal a b = true <-> a = b.
Proof. intros. unfold shape_equal. destruct list_eq_dec; split; congruence. Qed.

Lemma field_position_some : forall k keys i j, field_position k keys i = Some j -> (i <= j)%Z /\ nthZ keys (j - i) = Some k.
Proof.
  induction keys as [|k' keys IH]; intros i j H; [discriminate|]. cbn in H. destruct (k =? k') eqn:E.
  - injection H as <-. apply String.eqb_eq in E. subst. split; [lia|]. rewrite Z.sub_diag. reflexivity.
  - destruct (IH _ _ H) as [A B]. split; [lia|]. rewrite nthZ_cons. destruct (Z.eqb_spec (j - i) 0); [lia|]. rewrite <- B. f_equal. lia.
Qed.
Lemma field_position_in : forall k keys i, In k keys -> exists j, field_position k keys i = Some j.
Proof.
  induction keys as [|k' keys IH]; intros i H; [contradiction|destruct H as [H|H]]; cbn.
  - subst. rewrite String.eqb_refl. eauto.
  - destruct (k =? k'); [eauto|]. now apply IH.
Qed.
Lemma combine_nth : forall A B (a : list A) (b : list B) j x y, nthZ a j = Some x -> nthZ b j = Some y -> In (x, y) (combine a b).
Proof.
  induction a as [|a0 a IH]; intros [|b0 b] j x y Ha Hb.
  - rewrite nthZ_nil in Ha; discriminate.
  - rewrite nthZ_nil in Ha; discriminate.
  - rewrite nthZ_nil in Hb; discriminate.
  - rewrite nthZ_cons in Ha. rewrite nthZ_cons in Hb. destruct (j =? 0)%Z; cbn; [left; congruence|right; eauto].
Qed.
Lemma combine_unique : forall A B (a : list A) (b : list B) k x y, NoDup a -> In (k, x) (combine a b) -> In (k, y) (combine a b) -> x = y.
Proof.
  induction a as [|a0 a IH]; intros [|b0 b] k x y N Hx Hy; cbn in *; try contradiction. inversion N; subst.
  destruct Hx as [Hx|Hx], Hy as [Hy|Hy]; try congruence.
  - injection Hx as -> ->. exfalso. apply H1. eapply in_combine_l; eauto.
  - injection Hy as -> ->. exfalso. apply H1. eapply in_combine_l; eauto.
  - eauto.
Qed.
Lemma combine_in : forall A B (a : list A) (b : list B) k, length a = length b -> In k a -> exists x, In (k, x) (combine a b).
Proof.
  induction a as [|a0 a IH]; intros [|b0 b] k L H; try discriminate; cbn in *; [contradiction|]. destruct H as [->|H]; [eauto|].
  destruct (IH b k) as (x & Hx); [lia|assumption|]. eauto.
Qed.

Section Equality.
Variable jeq : json -> json -> bool.
Variables ci cp ck : bool.
Let eqf := form_equal jeq ci cp ck.

Definition each := fix each (l l' : list form) : bool :=
    match l, l' with [], [] => true | x :: l, x' :: l' => eqf x x' && each l l' | _, _ => false end.
Lemma each_Forall2 : forall l l', each l l' = true <-> Forall2 (fun x y => eqf x y = true) l l'.
Proof.
  induction l as [|x l IH]; intros [|y l']; cbn; split; intros H; try discriminate; try constructor; try (now inversion H).
  - apply andb_prop in H. tauto.
  - apply andb_prop in H. now apply IH.
  - inversion H; subst. apply andb_true_intro. split; [assumption|]. now apply IH.
Qed.

Definition fields (keys' : list string) (l' : list form) := fix fields (keys : list string) (l : list form) {struct l} : bool :=
        match keys, l with
        | [], _ => true
        | k :: keys, x :: l =>
            match field_position k keys' 0 with
            | Some j => match nthZ l' j with Some y => eqf x y | None => false end && fields keys l
            | None => false
            end
        | _ :: _, [] => false
        end.
Lemma fields_spec : forall keys' l', NoDup keys' -> length keys' = length l' -> forall keys l, length keys = length l ->
  (fields keys' l' keys l = true <-> forall k x, In (k, x) (combine keys l) -> exists y, In (k, y) (combine keys' l') /\ eqf x y = true).
Proof.
  intros keys' l' N L. induction keys as [|k keys IH]; intros [|x l] E; try discriminate; cbn.
  - split; [intros _ k x []|reflexivity].
  - injection E as E. specialize (IH l E). split.
    + intros H. destruct (field_position k keys' 0) as [j|] eqn:Ej; [|discriminate]. apply andb_prop in H. destruct H as [H1 H2].
      destruct (nthZ l' j) as [y|] eqn:Ey; [|discriminate]. apply field_position_some in Ej. rewrite Z.sub_0_r in Ej.
      intros k0 x0 [H|H].
      * injection H as <- <-. exists y. split; [|assumption]. eapply combine_nth; [apply Ej|exact Ey].
      * exact (proj1 IH H2 _ _ H).
    + intros H. destruct (H k x (or_introl eq_refl)) as (y & Hy & Hxy). destruct (field_position_in k keys' 0 (in_combine_l _ _ _ _ Hy)) as [j Ej]. rewrite Ej.
      apply field_position_some in Ej. rewrite Z.sub_0_r in Ej. destruct Ej as [_ Ej]. pose proof (nthZ_Some _ _ _ Ej) as B.
      destruct (nthZ_lt l' j) as [y' Ey]; [unfold zlen in *; lia|]. rewrite Ey.
      rewrite (combine_unique _ _ _ _ _ _ _ N (combine_nth _ _ _ _ _ _ _ Ej Ey) Hy), Hxy. cbn. apply IH. intros k0 x0 H0. apply H. now right.
Qed.

(** the comparison, case by case *)
Inductive equal_shape : form -> form -> Prop :=
| e_numpy m n s i i' f d d' : meta_equal jeq ci cp ck m n = true -> equal_shape (FNumpy m s i f d) (FNumpy n s i' f d')
| e_tuple m n l l' : meta_equal jeq ci cp ck m n = true -> Forall2 (fun x y => eqf x y = true) l l' -> equal_shape (FRecord m None l) (FRecord n None l')
| e_record m n keys l keys' l' : meta_equal jeq ci cp ck m n = true -> length keys = length keys' -> fields keys' l' keys l = true ->
    equal_shape (FRecord m (Some keys) l) (FRecord n (Some keys') l')
| e_listoffset m n w c c' : meta_equal jeq ci cp ck m n = true -> eqf c c' = true -> equal_shape (FListOffset m w c) (FListOffset n w c')
| e_list m n w v c c' : meta_equal jeq ci cp ck m n = true -> eqf c c' = true -> equal_shape (FList m w v c) (FList n w v c')
| e_regular m n c c' size : meta_equal jeq ci cp ck m n = true -> eqf c c' = true -> equal_shape (FRegular m c size) (FRegular n c' size)
| e_indexedoption m n w c c' : meta_equal jeq ci cp ck m n = true -> eqf c c' = true -> equal_shape (FIndexedOption m w c) (FIndexedOption n w c')
| e_indexed m n w c c' : meta_equal jeq ci cp ck m n = true -> eqf c c' = true -> equal_shape (FIndexed m w c) (FIndexed n w c')
| e_bytemasked m n w c c' v : meta_equal jeq ci cp ck m n = true -> eqf c c' = true -> equal_shape (FByteMasked m w c v) (FByteMasked n w c' v)
| e_bitmasked m n w c c' v lsb : meta_equal jeq ci cp ck m n = true -> eqf c c' = true -> equal_shape (FBitMasked m w c v lsb) (FBitMasked n w c' v lsb)
| e_unmasked m n c c' : meta_equal jeq ci cp ck m n = true -> eqf c c' = true -> equal_shape (FUnmasked m c) (FUnmasked n c')
| e_union m n t w l l' : meta_equal jeq ci cp ck m n = true -> Forall2 (fun x y => eqf x y = true) l l' -> equal_shape (FUnion m t w l) (FUnion n t w l')
| e_empty m n : meta_equal jeq ci cp ck m n = true -> equal_shape (FEmpty m) (FEmpty n)
| e_virtual_none m n k : meta_equal jeq ci cp ck m n = true -> equal_shape (FVirtual m None k) (FVirtual n None k)
| e_virtual m n c c' k : meta_equal jeq ci cp ck m n = true -> eqf c c' = true -> equal_shape (FVirtual m (Some c) k) (FVirtual n (Some c') k).

Ltac split_and := repeat match goal with H : (_ && _)%bool = true |- _ => apply andb_prop in H; destruct H end.
Ltac eqs := repeat match goal with
  | H : iform_beq _ _ = true |- _ => apply iform_beq_true in H
  | H : shape_equal _ _ = true |- _ => apply shape_equal_true in H
  | H : Bool.eqb _ _ = true |- _ => apply Bool.eqb_prop in H
  | H : (_ =? _)%Z = true |- _ => apply Z.eqb_eq in H
  | H : (_ =? _) = true |- _ => apply String.eqb_eq in H
  end.
Lemma equal_iff : forall a b, eqf a b = true <-> equal_shape a b.
Proof.
  intros a b. split.
  - intros H. destruct a as [? ? ? ? ?|? [|] ?| | | | | | | | | | |? [|] ?], b as [? ? ? ? ?|? [|] ?| | | | | | | | | | |? [|] ?];
      cbn -[meta_equal] in H; split_and; try discriminate; eqs; subst; constructor; try assumption.
    + unfold zlen in *. lia.
    + apply each_Forall2. assumption.
    + apply each_Forall2. assumption.
  - intros H. destruct H; cbn -[meta_equal]; rewrite H; cbn [andb]; repeat change (form_equal jeq ci cp ck) with eqf;
      rewrite ?(proj2 (shape_equal_true _ _) eq_refl), ?String.eqb_refl, ?(proj2 (iform_beq_true _ _) eq_refl), ?Bool.eqb_reflx, ?Z.eqb_refl; cbn [andb];
      rewrite ?andb_true_r; try reflexivity; try assumption.
    + now apply each_Forall2.
    + replace (zlen keys =? zlen keys')%Z with true by (symmetry; apply Z.eqb_eq; unfold zlen; lia). exact H1.
    + now apply each_Forall2.
Qed.

Hypothesis jrefl : forall a, jeq a a = true.
Hypothesis jsym : forall a b, jeq a b = true -> jeq b a = true.
Hypothesis jtrans : forall a b c, jeq a b = true -> jeq b c = true -> jeq a c = true.

Lemma form_key_equals_true : forall a b, form_key_equals a b = true <-> a = b.
Proof.
  intros [a|] [b|]; cbn; split; intros H; try discriminate; try reflexivity.
  - apply String.eqb_eq in H. congruence.
  - injection H as ->. apply String.eqb_refl.
Qed.
Lemma meta_refl : forall m, meta_equal jeq ci cp ck m m = true.
Proof.
  intros m. unfold meta_equal, parameters_equal. rewrite Bool.eqb_reflx, !jrefl, (proj2 (form_key_equals_true _ _) eq_refl). now rewrite !orb_true_r.
Qed.
Lemma meta_equal_iff : forall m n, meta_equal jeq ci cp ck m n = true <->
  (ci = true -> has_identities m = has_identities n) /\ (cp = true -> jeq (value_of "__array__" m) (value_of "__array__" n) = true /\ jeq (value_of "__record__" m) (value_of "__record__" n) = true)
  /\ (ck = true -> form_key m = form_key n).
Proof.
  intros m n. unfold meta_equal, parameters_equal. fold (value_of "__array__" m) (value_of "__record__" m) (value_of "__array__" n) (value_of "__record__" n).
  rewrite !andb_true_iff, !orb_true_iff, !andb_true_iff, !negb_true_iff, Bool.eqb_true_iff, form_key_equals_true.
  unfold parameter, value_of. destruct ci, cp, ck; intuition congruence.
Qed.
Lemma meta_sym : forall m n, meta_equal jeq ci cp ck m n = true -> meta_equal jeq ci cp ck n m = true.
Proof. intros m n. rewrite !meta_equal_iff. intuition. Qed.
Lemma meta_trans : forall m n o, meta_equal jeq ci cp ck m n = true -> meta_equal jeq ci cp ck n o = true -> meta_equal jeq ci cp ck m o = true.
Proof.
  intros m n o. rewrite !meta_equal_iff. intros (A & B & C) (A' & B' & C'). split; [|split]; intros E.
  - rewrite A, A'; auto.
  - specialize (B E); specialize (B' E). destruct B, B'. split; eapply jtrans; eauto.
  - rewrite C, C'; auto.
Qed.

Lemma equal_refl : forall a, distinct a -> eqf a a = true.
Proof.
  induction a as [|m k l IH| | | | | | | | | | | |] using form_ind'; intros D; apply equal_iff; inversion D; subst; constructor; try apply meta_refl; try (now auto).
  - clear D. induction l as [|x l IHl]; [constructor|]. inversion IH; inversion H0; subst. constructor; auto.
  - apply fields_spec; try assumption. intros k x Hk. exists x. split; [assumption|]. apply in_combine_r in Hk. rewrite Forall_forall in *. auto.
  - clear D. induction l as [|x l IHl]; [constructor|]. inversion H; inversion H1; subst. constructor; auto.
Qed.
Lemma Forall2_sym : forall l l', Forall (fun a => forall b, distinct a -> distinct b -> eqf a b = true -> eqf b a = true) l ->
  Forall distinct l -> Forall distinct l' -> Forall2 (fun x y => eqf x y = true) l l' -> Forall2 (fun x y => eqf x y = true) l' l.
Proof. intros l l' A D D' H. induction H; [constructor|]. inversion A; inversion D; inversion D'; subst. constructor; auto. Qed.
Lemma equal_sym : forall a b, distinct a -> distinct b -> eqf a b = true -> eqf b a = true.
Proof.
  induction a as [|m k l IH| | | | | | | | | | | |] using form_ind'; intros b D D' E; apply equal_iff in E; apply equal_iff; inversion E; subst; inversion D; inversion D'; subst;
    constructor; try (now apply meta_sym); try (now auto).
  - eapply Forall2_sym; eauto.
  - rename H6 into L. rename H12 into L'. rename H3 into N. rename H11 into N'. rename H7 into Dl. rename H13 into Dl'.
    assert (F : forall k x, In (k, x) (combine keys l) -> exists y, In (k, y) (combine keys' l') /\ eqf x y = true) by (apply fields_spec; assumption).
    apply fields_spec; try assumption. intros k y Hy.
    assert (Hk : In k keys).
    { apply (NoDup_length_incl N (l' := keys')); [lia| |eapply in_combine_l; eauto]. intros k0 Hk0. destruct (combine_in _ _ keys l k0 L Hk0) as (x & Hx).
      destruct (F _ _ Hx) as (y0 & Hy0 & _). eapply in_combine_l; eauto. }
    destruct (combine_in _ _ keys l k L Hk) as (x & Hx). destruct (F _ _ Hx) as (y' & Hy' & Exy). rewrite (combine_unique _ _ _ _ _ _ _ N' Hy Hy').
    exists x. split; [assumption|]. apply in_combine_r in Hx, Hy'. rewrite Forall_forall in *. apply IH; auto.
  - eapply Forall2_sym; eauto.
Qed.
Lemma Forall2_trans : forall l l' l'', Forall (fun a => forall b c, distinct a -> distinct b -> distinct c -> eqf a b = true -> eqf b c = true -> eqf a c = true) l ->
  Forall distinct l -> Forall distinct l' -> Forall distinct l'' ->
  Forall2 (fun x y => eqf x y = true) l l' -> Forall2 (fun x y => eqf x y = true) l' l'' -> Forall2 (fun x y => eqf x y = true) l l''.
Proof.
  intros l l' l'' A D D' D'' H. revert l'' D''. induction H; intros l'' D'' H'; inversion H'; subst; [constructor|].
  inversion A; inversion D; inversion D'; inversion D''; subst. constructor; eauto.
Qed.
Lemma equal_trans : forall a b c, distinct a -> distinct b -> distinct c -> eqf a b = true -> eqf b c = true -> eqf a c = true.
Proof.
  induction a as [|m k l IH| | | | | | | | | | | |] using form_ind'; intros b c' D D' D'' E E'; apply equal_iff in E; apply equal_iff; inversion E; subst;
    apply equal_iff in E'; inversion E'; subst; inversion D; inversion D'; inversion D''; subst; constructor; try (eapply meta_trans; eassumption); try (now eauto); try congruence.
  - match goal with A : Forall2 _ ?l ?l', B : Forall2 _ ?l' ?l'' |- _ => apply (Forall2_trans l l' l''); assumption end.
  - assert (F : forall k x, In (k, x) (combine keys l) -> exists y, In (k, y) (combine keys' l') /\ eqf x y = true) by (apply fields_spec; assumption).
    assert (F' : forall k x, In (k, x) (combine keys' l') -> exists y, In (k, y) (combine keys'0 l'0) /\ eqf x y = true) by (apply fields_spec; assumption).
    apply fields_spec; try assumption. intros k x Hx. destruct (F _ _ Hx) as (y & Hy & Exy). destruct (F' _ _ Hy) as (z & Hz & Eyz). exists z. split; [assumption|].
    apply in_combine_r in Hx, Hy, Hz. rewrite Forall_forall in *. eapply (IH x Hx y); eauto.
  - match goal with A : Forall2 _ ?l ?l', B : Forall2 _ ?l' ?l'' |- _ => apply (Forall2_trans l l' l''); assumption end.
Qed.
End Equality.

(** the comparison of Python's == *)
Lemma meta_same : forall jeq m n, meta_equal jeq true true true m n = true <-> same_meta jeq m n.
Proof. intros. rewrite meta_equal_iff. unfold same_meta. intuition. Qed.
Lemma Forall2_same : forall jeq l l', Forall (fun a => forall b, distinct a -> distinct b -> (form_equal jeq true true true a b = true <-> same jeq a b)) l ->
  Forall distinct l -> Forall distinct l' -> (Forall2 (fun x y => form_equal jeq true true true x y = true) l l' <-> Forall2 (same jeq) l l').
Proof.
  intros jeq l l' A D D'. split; intros H.
  - induction H; [constructor|]. inversion A; inversion D; inversion D'; subst. constructor; [now apply H3|auto].
  - induction H; [constructor|]. inversion A; inversion D; inversion D'; subst. constructor; [now apply H3|auto].
Qed.
Lemma equal_same : forall jeq a b, distinct a -> distinct b -> (form_equal jeq true true true a b = true <-> same jeq a b).
Proof.
  intros jeq. induction a as [|m k l IH| | | | | | | | | | | |] using form_ind'; intros b D D'; rewrite equal_iff; split; intros E; inversion E; subst; inversion D; inversion D'; subst;
    constructor; try (now apply meta_same); try assumption; try (now apply IHa).
  - eapply Forall2_same; eauto.
  - rename H6 into L. rename H12 into L'. rename H3 into N. rename H11 into N'. rename H7 into Dl. rename H13 into Dl'.
    assert (F : forall k x, In (k, x) (combine keys l) -> exists y, In (k, y) (combine keys' l') /\ form_equal jeq true true true x y = true) by (apply fields_spec; assumption).
    intros k x Hx. destruct (F _ _ Hx) as (y & Hy & Exy). exists y. split; [assumption|]. apply in_combine_r in Hx, Hy. rewrite Forall_forall in *. apply IH; auto.
  - eapply Forall2_same; eauto.
  - apply fields_spec; try assumption. intros k x Hx. destruct (H5 _ _ Hx) as (y & Hy & Exy). exists y. split; [assumption|].
    apply in_combine_r in Hx, Hy. rewrite Forall_forall in *. apply IH; auto.
  - eapply Forall2_same; eauto.
  - eapply Forall2_same; eauto.
Qed.
