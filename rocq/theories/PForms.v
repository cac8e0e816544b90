(** Proofs about Forms and JSON. *)
From Coq Require Import String Sorted Lia.
From Verif Require Import Base BaseLemmas Forms SpecForms.
Local Open Scope Z_scope.
Local Open Scope list_scope.
Local Open Scope string_scope.

Section Induction.
Variable P : form -> Prop.
Hypothesis Hnumpy : forall m s i f d, P (FNumpy m s i f d).
Hypothesis Hrecord : forall m k l, Forall P l -> P (FRecord m k l).
Hypothesis Hlistoffset : forall m w c, P c -> P (FListOffset m w c).
Hypothesis Hlist : forall m w v c, P c -> P (FList m w v c).
Hypothesis Hregular : forall m c n, P c -> P (FRegular m c n).
Hypothesis Hindexedoption : forall m w c, P c -> P (FIndexedOption m w c).
Hypothesis Hindexed : forall m w c, P c -> P (FIndexed m w c).
Hypothesis Hbytemasked : forall m w c v, P c -> P (FByteMasked m w c v).
Hypothesis Hbitmasked : forall m w c v lsb, P c -> P (FBitMasked m w c v lsb).
Hypothesis Hunmasked : forall m c, P c -> P (FUnmasked m c).
Hypothesis Hunion : forall m t w l, Forall P l -> P (FUnion m t w l).
Hypothesis Hempty : forall m, P (FEmpty m).
Hypothesis Hvirtual_none : forall m n, P (FVirtual m None n).
Hypothesis Hvirtual : forall m c n, P c -> P (FVirtual m (Some c) n).
Fixpoint form_ind' (f : form) : P f :=
  let each := fix each (l : list form) : Forall P l := match l with [] => Forall_nil _ | x :: l => Forall_cons _ (form_ind' x) (each l) end in
  match f with
  | FNumpy m s i f d => Hnumpy m s i f d
  | FRecord m k l => Hrecord m k l (each l)
  | FListOffset m w c => Hlistoffset m w c (form_ind' c)
  | FList m w v c => Hlist m w v c (form_ind' c)
  | FRegular m c n => Hregular m c n (form_ind' c)
  | FIndexedOption m w c => Hindexedoption m w c (form_ind' c)
  | FIndexed m w c => Hindexed m w c (form_ind' c)
  | FByteMasked m w c v => Hbytemasked m w c v (form_ind' c)
  | FBitMasked m w c v lsb => Hbitmasked m w c v lsb (form_ind' c)
  | FUnmasked m c => Hunmasked m c (form_ind' c)
  | FUnion m t w l => Hunion m t w l (each l)
  | FEmpty m => Hempty m
  | FVirtual m None n => Hvirtual_none m n
  | FVirtual m (Some c) n => Hvirtual m c n (form_ind' c)
  end.
End Induction.

Section JsonInduction.
Variable P : json -> Prop.
Hypothesis Hnull : P JNull.
Hypothesis Hbool : forall b, P (JBool b).
Hypothesis Hint : forall z, P (JInt z).
Hypothesis Hreal : forall x, P (JReal x).
Hypothesis Hstring : forall s, P (JString s).
Hypothesis Harray : forall l, Forall P l -> P (JArray l).
Hypothesis Hobject : forall l, Forall (fun kx => P (snd kx)) l -> P (JObject l).
Fixpoint json_ind' (j : json) : P j :=
  match j with
  | JNull => Hnull | JBool b => Hbool b | JInt z => Hint z | JReal x => Hreal x | JString s => Hstring s
  | JArray l => Harray l ((fix each (l : list json) : Forall P l := match l with [] => Forall_nil _ | x :: l => Forall_cons _ (json_ind' x) (each l) end) l)
  | JObject l => Hobject l ((fix each (l : list (string * json)) : Forall (fun kx => P (snd kx)) l :=
      match l with [] => Forall_nil _ | x :: l => Forall_cons _ (json_ind' (snd x)) (each l) end) l)
  end.
End JsonInduction.

Lemma cstr_free : forall s, nul_free s -> cstr s = s.
Proof.
  induction s as [|c s IH]; intros H; [reflexivity|]. cbn. unfold nul_free in H. cbn in H.
  destruct (Ascii.eqb c Ascii.zero) eqn:E.
  - apply Ascii.eqb_eq in E. subst. exfalso. apply H. now left.
  - rewrite IH; [reflexivity|]. intros K. apply H. now right.
Qed.

Lemma find_app : forall A k (a b : list (string * A)), find k (a ++ b)%list = match find k a with Some x => Some x | None => find k b end.
Proof. induction a as [|[k' x] a IH]; intros b; [reflexivity|]. cbn. destruct (k =? k'); [reflexivity|apply IH]. Qed.
Lemma find_map : forall A B (g : A -> B) k l, find k (map (fun kx => (fst kx, g (snd kx))) l) = option_map g (find k l).
Proof. induction l as [|[k' x] l IH]; [reflexivity|]. cbn. destruct (k =? k'); [reflexivity|apply IH]. Qed.

Definition parts (l : list (string * json)) := map (fun kx => (fst kx, (snd kx, decode (snd kx)))) l.
Lemma get_parts : forall k l, get (parts l) k = find k l.
Proof. intros. unfold get, parts. rewrite (find_map _ _ (fun x => (x, decode x))). destruct (find k l); reflexivity. Qed.
Lemma part_parts : forall k l, part (parts l) k = option_map decode (find k l).
Proof. intros. unfold part, parts. rewrite (find_map _ _ (fun x => (x, decode x))). destruct (find k l); reflexivity. Qed.

Section RoundTrip.
Variable truncate : Z -> option Z.

Lemma isint_true : forall z, (- 2 ^ 31 <= z < 2 ^ 31)%Z -> isint z = true.
Proof. intros z H. unfold isint. apply andb_true_intro. split; [apply Z.leb_le|apply Z.ltb_lt]; lia. Qed.

Lemma copy_plain : forall j, plain j -> copyjson truncate j = Ok j.
Proof.
  induction j as [| | | | |l IH|l IH] using json_ind'; intros H; inversion H; subst; cbn.
  - reflexivity.
  - reflexivity.
  - now rewrite isint_true.
  - now rewrite cstr_free.
  - match goal with |- context [bind ?f _] => enough (E : f = Ok l) by (rewrite E; reflexivity) end.
    clear H. rename H1 into Hp. induction l as [|x l IHl]; [reflexivity|]. inversion IH as [|? ? A B]; inversion Hp as [|? ? C D]; subst.
    rewrite (A C). cbn [bind]. rewrite (IHl B D). reflexivity.
  - match goal with |- context [bind ?f _] => enough (E : f = Ok l) by (rewrite E; reflexivity) end.
    clear H. rename H1 into Hp. induction l as [|[k x] l IHl]; [reflexivity|]. inversion IH as [|? ? A B]; inversion Hp as [|? ? [C0 C] D]; subst. cbn in A, C, C0.
    rewrite (A C). cbn [bind]. rewrite (IHl B D). cbn. now rewrite cstr_free.
Qed.

Lemma copy_members : forall l, Forall (fun kx => nul_free (fst kx) /\ plain (snd kx)) l ->
  (fix each (l : list (string * json)) : res (list (string * json)) :=
      match l with [] => Ok [] | (k, x) :: l => let* x := copyjson truncate x in let* l := each l in Ok ((cstr k, x) :: l) end) l = Ok l.
Proof.
  induction l as [|[k x] l IH]; intros H; [reflexivity|]. inversion H as [|? ? [A B] C]; subst. cbn in *.
  rewrite copy_plain by assumption. cbn. rewrite IH by assumption. cbn. now rewrite cstr_free.
Qed.

(** reading a map whose keys come in order *)
Lemma map_set_last : forall p k x, Forall (fun a => String.compare (fst a) k = Lt) p -> map_set k x p = (p ++ [(k, x)])%list.
Proof.
  induction p as [|[k' x'] p IH]; intros k x H; [reflexivity|]. inversion H; subst. cbn in *.
  rewrite String.compare_antisym, H2. cbn. now rewrite IH.
Qed.
Lemma read_map : forall l p, Forall (fun kx => nul_free (fst kx)) l ->
  StronglySorted (fun a b : string * json => String.compare (fst a) (fst b) = Lt) l ->
  Forall (fun a => Forall (fun b : string * json => String.compare (fst b) (fst a) = Lt) p) l ->
  fold_left (fun p kv => map_set (cstr (fst kv)) (snd kv) p) l p = (p ++ l)%list.
Proof.
  induction l as [|[k x] l IH]; intros p N Hs Hp; cbn; [now rewrite app_nil_r|].
  inversion N; subst. inversion Hs; subst. inversion Hp; subst. cbn in *.
  rewrite cstr_free by assumption. rewrite map_set_last by assumption. rewrite IH; [now rewrite <- app_assoc|assumption|assumption|].
  rewrite Forall_forall in *. intros a Ha. rewrite Forall_forall. intros b Hb. apply in_app_or in Hb. destruct Hb as [Hb|[<-|[]]].
  - specialize (H6 a Ha). rewrite Forall_forall in H6. now apply H6.
  - cbn. now apply H4.
Qed.

(** the last three members *)
Definition tail (m : meta) (verbose : bool) : list (string * json) :=
  (identities_tojson m verbose ++ (if verbose || negb (zlen (parameters m) =? 0)%Z then [("parameters", JObject (parameters m))] else [])
   ++ form_key_tojson m verbose)%list.
Lemma finish_tail : forall m verbose fields, proper_meta m -> finish truncate m verbose fields = Ok (JObject (fields ++ tail m verbose)%list).
Proof.
  intros m verbose fields (_ & P & _). unfold finish, parameters_tojson, tail.
  destruct (verbose || negb (zlen (parameters m) =? 0)%Z) eqn:E; [|reflexivity].
  rewrite copy_members by assumption. reflexivity.
Qed.
Lemma find_tail : forall k m verbose, k <> "has_identities" -> k <> "parameters" -> k <> "form_key" -> find k (tail m verbose) = None.
Proof.
  intros k m verbose A B C. apply String.eqb_neq in A, B, C. unfold tail, identities_tojson, form_key_tojson.
  rewrite !find_app. destruct (verbose || has_identities m); destruct (verbose || negb (zlen (parameters m) =? 0)%Z); destruct (form_key m); destruct verbose;
    cbn -[String.eqb]; rewrite ?A, ?B, ?C; reflexivity.
Qed.
Lemma find_fields : forall k m verbose fields, k <> "has_identities" -> k <> "parameters" -> k <> "form_key" ->
  find k (fields ++ tail m verbose)%list = find k fields.
Proof. intros. rewrite find_app, find_tail by assumption. now destruct (find k fields). Qed.

Lemma zlen_nil_inv : forall A (l : list A), (zlen l =? 0)%Z = true -> l = [].
Proof. intros A [|x l] H; [reflexivity|]. apply Z.eqb_eq in H. pose proof (zlen_nonneg l). rewrite zlen_cons in H. lia. Qed.

Lemma read_meta_tail : forall m verbose fields, proper_meta m ->
  find "has_identities" fields = None -> find "parameters" fields = None -> find "form_key" fields = None ->
  read_meta (parts (fields ++ tail m verbose)%list) = Ok m.
Proof.
  intros m verbose fields (Hs & Hp & Hk) A B C. unfold read_meta. rewrite !get_parts.
  rewrite (find_app _ "has_identities"), (find_app _ "parameters"), (find_app _ "form_key"), A, B, C.
  assert (E1 : find "has_identities" (tail m verbose) = if verbose || has_identities m then Some (JBool (has_identities m)) else None).
  { unfold tail, identities_tojson, form_key_tojson. rewrite !find_app.
    destruct (verbose || has_identities m); [reflexivity|]. cbn. destruct (verbose || negb (zlen (parameters m) =? 0)%Z); cbn; destruct (form_key m); destruct verbose; reflexivity. }
  assert (E2 : find "parameters" (tail m verbose) = if verbose || negb (zlen (parameters m) =? 0)%Z then Some (JObject (parameters m)) else None).
  { unfold tail, identities_tojson, form_key_tojson. rewrite !find_app.
    destruct (verbose || has_identities m); cbn; destruct (verbose || negb (zlen (parameters m) =? 0)%Z); cbn; destruct (form_key m); destruct verbose; reflexivity. }
  assert (E3 : find "form_key" (tail m verbose) = match form_key m with Some k => Some (JString k) | None => if verbose then Some JNull else None end).
  { unfold tail, identities_tojson, form_key_tojson. rewrite !find_app.
    destruct (verbose || has_identities m); cbn; destruct (verbose || negb (zlen (parameters m) =? 0)%Z); cbn; destruct (form_key m); destruct verbose; reflexivity. }
  rewrite E1, E2, E3. destruct m as [h p f]. cbn [has_identities parameters form_key] in *.
  assert (R : fold_left (fun p kv => map_set (cstr (fst kv)) (snd kv) p) p [] = p).
  { rewrite read_map; [reflexivity| |assumption|].
    - eapply Forall_impl; [|exact Hp]. cbn. tauto.
    - rewrite Forall_forall. intros. constructor. }
  destruct (verbose || h) eqn:Eh.
  - cbn [bind]. destruct (verbose || negb (zlen p =? 0)%Z) eqn:Ep.
    + rewrite R. destruct f as [k|]; cbn [bind]; [now rewrite cstr_free|]. destruct verbose; reflexivity.
    + apply Bool.orb_false_iff in Ep. destruct Ep as [-> Ep]. apply Bool.negb_false_iff in Ep. apply zlen_nil_inv in Ep. subst p.
      destruct f as [k|]; cbn [bind]; [now rewrite cstr_free|]. reflexivity.
  - apply Bool.orb_false_iff in Eh. destruct Eh as [-> ->]. cbn [bind orb]. destruct (negb (zlen p =? 0)%Z) eqn:Ep.
    + rewrite R. destruct f as [k|]; cbn [bind]; [now rewrite cstr_free|]. reflexivity.
    + apply Bool.negb_false_iff in Ep. apply zlen_nil_inv in Ep. subst p.
      destruct f as [k|]; cbn [bind]; [now rewrite cstr_free|]. reflexivity.
Qed.

(** an object that was written *)
Lemma decode_object : forall l, self (decode (JObject l)) = from_object (parts l).
Proof. reflexivity. Qed.

Lemma elems_array : forall l, elems (decode (JArray l)) = map (fun x => self (decode x)) l.
Proof. reflexivity. Qed.
Lemma members_object : forall l, members (decode (JObject l)) = map (fun kd => (fst kd, self (snd (snd kd)))) (parts l).
Proof. reflexivity. Qed.

Lemma width_ok : forall w, str2form (cstr (form2str w)) = Ok w.
Proof. destruct w; reflexivity. Qed.

Ltac neq := let H := fresh in intro H; discriminate H.
Ltac start verbose :=
  rewrite finish_tail by assumption; eexists; split; [reflexivity|]; rewrite decode_object; unfold from_object;
  rewrite read_meta_tail by (reflexivity || assumption);
  rewrite ?get_parts, ?part_parts, ?find_fields by neq; cbn [find String.eqb Ascii.eqb Bool.eqb app].
Ltac fields := unfold read_width, read_content, read_bool; rewrite ?get_parts, ?part_parts, ?find_fields by neq; cbn -[decode tail parts from_object];
  repeat match goal with H : self (decode _) = Ok _ |- _ => rewrite H; cbn -[decode tail parts from_object] end; try reflexivity.

Lemma ints_ok : forall s, Forall (fun z => (- 2 ^ 31 <= z < 2 ^ 31)%Z) s ->
  all_ok (map (fun x => match x with JInt z => if isint z then Ok z else Err "NumpyForm 'inner_shape' must only contain integers"
                                     | _ => Err "NumpyForm 'inner_shape' must only contain integers" end) (map JInt s)) = Ok s.
Proof.
  induction s as [|z s IH]; intros H; [reflexivity|]. inversion H; subst. cbn. rewrite isint_true by assumption. cbn. now rewrite IH.
Qed.

Lemma numpy_round : forall m s dt verbose top, proper_meta m -> Forall (fun z => (- 2 ^ 31 <= z < 2 ^ 31)%Z) s -> dt <> NOT_PRIMITIVE ->
  exists j, numpy_tojson truncate m s (dtype_to_itemsize dt) (dtype_to_format dt) dt verbose top = Ok j
            /\ self (decode j) = Ok (FNumpy m s (dtype_to_itemsize dt) (dtype_to_format dt) dt).
Proof.
  intros m s dt verbose top Hm Hs Hd. unfold numpy_tojson.
  assert (Np : (dtype_to_name dt =? "") = false) by (destruct dt; reflexivity). rewrite Np.
  match goal with |- context [if ?b then _ else _] => destruct b eqn:E end.
  - rewrite finish_tail by assumption. eexists; split; [reflexivity|]. rewrite decode_object. unfold from_object.
    assert (R : read_meta (parts ((([("class", JString "NumpyArray")] ++ (if verbose || negb (zlen s =? 0)%Z then [("inner_shape", JArray (map JInt s))] else [])
       ++ [("itemsize", JInt (dtype_to_itemsize dt)); ("format", JString (dtype_to_format dt))] ++ [("primitive", JString (dtype_to_name dt))]) ++ tail m verbose)%list)) = Ok m).
    { apply read_meta_tail; [assumption| | |]; destruct (verbose || negb (zlen s =? 0)%Z); reflexivity. }
    cbn [negb]. rewrite R. rewrite !get_parts, !find_fields by neq. rewrite !find_app.
    change (find "class" [("class", JString "NumpyArray")]) with (Some (JString "NumpyArray")). cbn [find].
    assert (Hr : from_name (dtype_to_name dt) = Ok (FNumpy no_meta [] (dtype_to_itemsize dt) (dtype_to_format dt) dt)) by (destruct dt; (congruence || reflexivity)).
    destruct (verbose || negb (zlen s =? 0)%Z) eqn:Ev.
    + cbn -[from_name tail parts isint]. rewrite Hr. cbn -[isint]. rewrite ints_ok by assumption. cbn. f_equal. f_equal. destruct dt; (congruence || reflexivity).
    + cbn -[from_name tail parts isint]. rewrite Hr. cbn. apply Bool.orb_false_iff in Ev. destruct Ev as [_ Ev]. apply Bool.negb_false_iff in Ev. apply zlen_nil_inv in Ev. subst s.
      f_equal. f_equal. destruct dt; (congruence || reflexivity).
  - repeat (apply Bool.orb_false_iff in E; destruct E as [E ?]). eexists; split; [reflexivity|].
    destruct m as [h p f]. cbn in *. destruct f; [discriminate|]. subst h.
    repeat match goal with H : negb _ = false |- _ => apply Bool.negb_false_iff in H; apply zlen_nil_inv in H end. subst.
    destruct dt; (congruence || reflexivity).
Qed.

Lemma each_round : forall verbose l,
  Forall (fun f => proper f -> exists j, tojson_part truncate verbose f = Ok j /\ self (decode j) = Ok f) l -> Forall proper l ->
  exists js, (fix each (l : list form) := match l with [] => Ok [] | x :: l => let* x := tojson_part truncate verbose x in let* l := each l in Ok (x :: l) end) l = Ok js
             /\ all_ok (map (fun x => self (decode x)) js) = Ok l.
Proof.
  intros verbose. induction l as [|f l IH]; intros H P; [exists []; split; reflexivity|].
  inversion H; inversion P; subst. destruct (H2 H6) as (j & E & D). destruct (IH H3 H7) as (js & Es & Ds).
  exists (j :: js). rewrite E. cbn [bind]. rewrite Es. cbn. split; [reflexivity|]. rewrite D. cbn. rewrite Ds. reflexivity.
Qed.
Lemma keys_round : forall verbose l keys,
  Forall (fun f => proper f -> exists j, tojson_part truncate verbose f = Ok j /\ self (decode j) = Ok f) l -> Forall proper l ->
  length keys = length l -> Forall nul_free keys ->
  exists js, (fix each (l : list form) (keys : list string) :=
        match keys, l with
        | [], _ => Ok []
        | _ :: _, [] => UB
        | k :: keys, x :: l => let* x := tojson_part truncate verbose x in let* l := each l keys in Ok ((cstr k, x) :: l)
        end) l keys = Ok js
    /\ all_members (map (fun kd => (fst kd, self (snd (snd kd)))) (parts js)) = Ok (combine keys l).
Proof.
  intros verbose. induction l as [|f l IH]; intros [|k keys] H P L N; try discriminate; [exists []; split; reflexivity|].
  inversion H; inversion P; inversion N; subst. injection L as L. destruct (H2 H6) as (j & E & D). destruct (IH keys H3 H7 L H11) as (js & Es & Ds).
  exists ((k, j) :: js). rewrite E. cbn [bind]. rewrite Es. cbn [bind]. rewrite cstr_free by assumption. split; [reflexivity|].
  change (parts ((k, j) :: js)) with ((k, (j, decode j)) :: parts js). cbn [map fst snd all_members]. rewrite D. cbn [bind]. rewrite Ds. cbn. now rewrite cstr_free.
Qed.
Lemma combine_fst : forall A B (a : list A) (b : list B), length a = length b -> map fst (combine a b) = a /\ map snd (combine a b) = b.
Proof. induction a as [|x a IH]; intros [|y b] H; try discriminate; [split; reflexivity|]. cbn. destruct (IH b) as [-> ->]; [now injection H|]. split; reflexivity. Qed.

Ltac step IH j D := match goal with H : proper _ |- _ => destruct (IH H) as (j & -> & D) end.
Ltac widths := match goal with H : In _ _ |- _ => cbn in H; repeat (destruct H as [<-|H]); try contradiction end.
Lemma part_round : forall verbose f, proper f -> exists j, tojson_part truncate verbose f = Ok j /\ self (decode j) = Ok f.
Proof.
  intros verbose. induction f as [m s i fm d|m k l IH|m w c IH|m w v c IH|m c n IH|m w c IH|m w c IH|m w c v IH|m w c v lsb IH|m c IH|m t w l IH|m|m n|m c n IH] using form_ind';
    intros P; inversion P; subst; clear P; cbn [tojson_part].
  - now apply numpy_round.
  - destruct (each_round verbose l IH) as (js & -> & D); [assumption|]. cbn [bind]. start verbose. fields. rewrite elems_array, D. reflexivity.
  - destruct (keys_round verbose l keys IH) as (js & -> & D); try assumption. cbn [bind]. start verbose. fields. rewrite members_object, D. cbn.
    destruct (combine_fst _ _ keys l H3) as [-> ->]. reflexivity.
  - step IH j D. cbn [bind]. widths; start verbose; fields.
  - step IH j D. cbn [bind]. widths; start verbose; fields.
  - step IH j D. cbn [bind]. start verbose; fields. rewrite isint_true by assumption. reflexivity.
  - step IH j D. cbn [bind]. widths; start verbose; fields.
  - step IH j D. cbn [bind]. widths; start verbose; fields.
  - step IH j D. cbn [bind]. start verbose; fields. destruct w; fields.
  - step IH j D. cbn [bind]. start verbose; fields. destruct w; fields.
  - step IH j D. cbn [bind]. start verbose; fields.
  - destruct (each_round verbose l IH) as (js & -> & D); [assumption|]. cbn [bind]. widths; start verbose; fields; rewrite elems_array, D; reflexivity.
  - start verbose; fields.
  - cbn [bind]. start verbose; fields.
  - step IH j D. cbn [bind]. start verbose. destruct j; try discriminate D; fields.
Qed.
Lemma round : forall verbose f, proper f -> exists j, tojson truncate verbose f = Ok j /\ fromjson j = Ok f.
Proof.
  intros verbose f P. destruct f; try (now apply part_round). inversion P; subst. now apply numpy_round.
Qed.
End RoundTrip.
