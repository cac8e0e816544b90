(** What the compiler makes of the words a LayoutBuilder writes *)
From Coq Require Import String.
From Verif Require Import Base BaseLemmas Forth ForthParse LayoutBuild PLayoutToken.
Local Open Scope string_scope.
Local Open Scope list_scope.
Local Open Scope Z_scope.

(** the tokens [ts] compile to [c] and turn [p] into [p'], whatever follows them *)
Definition goes (defn : string) (ed : Z) (ts : list string) (c : list Z) (p p' : pst) : Prop :=
  forall rest code K, (forall f, (Datatypes.S (List.length rest) <= f)%nat -> parse f defn rest (code ++ c) ed 0 p' = Ok K) ->
  forall f, (S (List.length (ts ++ rest)) <= f)%nat -> parse f defn (ts ++ rest) code ed 0 p = Ok K.

Lemma goes_nil : forall d ed p, goes d ed [] [] p p.
Proof. intros d ed p rest code K H f Hf. cbn [app] in *. rewrite app_nil_r in H. apply H. lia. Qed.
Lemma goes_app : forall d ed a ca p p1 b cb p2, goes d ed a ca p p1 -> goes d ed b cb p1 p2 -> goes d ed (a ++ b) (ca ++ cb) p p2.
Proof.
  intros d ed a ca p p1 b cb p2 A B rest code K H f Hf. rewrite <- app_assoc in *. apply A; [ | exact Hf ]. intros f1 Hf1. apply B; [ | exact Hf1 ]. intros f2 Hf2. rewrite <- app_assoc. apply H. exact Hf2.
Qed.
Lemma goes_parse : forall d ed ts c p p', goes d ed ts c p p' -> forall f, (S (List.length ts) <= f)%nat -> parse f d ts [] ed 0 p = Ok (c, p').
Proof.
  intros d ed ts c p p' G f Hf. rewrite <- (app_nil_r ts). apply G; [ | rewrite app_nil_r; exact Hf ]. intros f1 H1. destruct f1 as [ | f1 ]; [ cbn in H1; lia | ]. reflexivity.
Qed.
(** one trip of the parser *)
Lemma goes_step : forall d ed ts c p p', (forall f rest code, parse (S f) d (ts ++ rest) code ed 0 p = parse f d rest (code ++ c) ed 0 p') -> (0 < List.length ts)%nat -> goes d ed ts c p p'.
Proof. intros d ed ts c p p' H L rest code K HK f Hf. destruct f as [ | f ]; [ lia | ]. rewrite H. apply HK. rewrite app_length in Hf. lia. Qed.

Ltac trip := apply goes_step; [ intros; cbn [app parse String.eqb Ascii.eqb Bool.eqb] | cbn [List.length]; lia ].

Lemma g_nl : forall d ed p, goes d ed [nl] [] p p.
Proof. intros. trip. change (String.eqb nl "(") with false. change (String.eqb nl (String backslash "")) with false. change (String.eqb nl newline) with true. cbv iota. rewrite app_nil_r. reflexivity. Qed.

Definition plain_out (x : string) : Prop := String.prefix "part0-" x = true.
Lemma not_out : forall w (l : list string) i, Forall plain_out l -> String.prefix "part0-" w = false -> index_of w l i = None.
Proof.
  intros w l i H Hw. revert i. induction H as [ | x l Hx _ IH ]; intros i; [ reflexivity | ]. cbn [index_of]. destruct (String.eqb_spec x w) as [ -> | ]; [ unfold plain_out in Hx; congruence | apply IH ].
Qed.

Lemma upd_mid : forall (a : list (list Z)) x y b, upd (a ++ x :: b) (List.length a) y = a ++ y :: b.
Proof. induction a as [ | z a IH ]; intros x y b; [ reflexivity | ]. cbn [app List.length upd]. rewrite IH. reflexivity. Qed.

Section Names.
Variable O : list (string * odtype).
Variable ST : list string.
Hypothesis HO : Forall plain_out (map fst O).
Definition E (D : list (string * Z)) (S : list (list Z)) : pst := mkPst ["err"] ["data"] O D ST S.

Lemma g_halt : forall d ed D S, goes d ed ["halt"] [CODE_HALT] (E D S) (E D S).
Proof. intros. trip. reflexivity. Qed.
Lemma g_pause : forall d ed D S, goes d ed ["pause"] [CODE_PAUSE] (E D S) (E D S).
Proof. intros. trip. reflexivity. Qed.
Lemma g_exit : forall d ed D S, goes d ed ["exit"] [CODE_EXIT; wrapS 32 ed] (E D S) (E D S).
Proof. intros. trip. reflexivity. Qed.
Lemma g_put : forall d ed D S, goes d ed ["err"; "!"] [CODE_PUT; 0] (E D S) (E D S).
Proof. intros. trip. reflexivity. Qed.
Lemma g_get : forall d ed D S, goes d ed ["err"; "@"] [CODE_GET; 0] (E D S) (E D S).
Proof. intros. trip. reflexivity. Qed.
Lemma g_seek : forall d ed D S, goes d ed ["data"; "seek"] [CODE_SEEK; 0] (E D S) (E D S).
Proof. intros. trip. reflexivity. Qed.

(** words without meaning in the language *)
Definition free (w : string) : Prop := is_reserved w = Ok false /\ is_integer w = Ok None.
Lemma free_mem : forall w, free w -> mem w reserved_words = false /\ mem w input_parser_words = false /\ mem w (map fst output_dtype_words) = false /\ mem w (map fst generic_builtin_words) = false.
Proof.
  intros w [ H _ ]. unfold is_reserved in H. destruct (is_nbit (la w)) as [ [ z | ] | | ]; cbn [bind] in H; try discriminate. injection H as H.
  apply orb_false_iff in H. destruct H as [ H H4 ]. apply orb_false_iff in H. destruct H as [ H H3 ]. apply orb_false_iff in H. destruct H as [ H1 H2 ]. auto.
Qed.
Lemma mem_eqb : forall w l x, mem w l = false -> In x l -> String.eqb w x = false.
Proof.
  intros w l x H HI. destruct (String.eqb w x) eqn:EQ; [ | reflexivity ]. exfalso. unfold mem in H. assert (X : existsb (String.eqb w) l = true) by (apply existsb_exists; exists x; split; assumption). congruence.
Qed.
Lemma assoc_mem : forall {A} w (l : list (string * A)), mem w (map fst l) = false -> assoc w l = None.
Proof.
  intros A w l. induction l as [ | [ k v ] l IH ]; intros H; [ reflexivity | ]. cbn [map fst mem existsb] in H. unfold mem in H. cbn [existsb] in H. apply orb_false_iff in H. destruct H as [ H1 H2 ]. cbn [assoc]. rewrite String.eqb_sym, H1. apply IH. exact H2.
Qed.

Lemma index_not : forall w l i, mem w l = false -> index_of w l i = None.
Proof. intros w l. induction l as [ | x l IH ]; intros i H; [ reflexivity | ]. unfold mem in H. cbn [existsb] in H. apply orb_false_iff in H. destruct H as [ H1 H2 ]. cbn [index_of]. rewrite String.eqb_sym, H1. apply IH. exact H2. Qed.
Lemma index_at : forall w l i n, NoDup l -> nthZ l n = Some w -> index_of w l i = Some (i + n).
Proof.
  intros w l. induction l as [ | x l IH ]; intros i n ND H; [ rewrite nthZ_nil in H; discriminate | ]. inversion ND as [ | ? ? NI ND' ]; subst. cbn [index_of]. rewrite nthZ_cons in H. destruct (Z.eqb_spec n 0) as [ -> | ].
  - injection H as ->. rewrite String.eqb_refl. f_equal. lia.
  - destruct (String.eqb_spec x w) as [ -> | ]; [ exfalso; apply NI; eapply nthZ_In; exact H | ]. rewrite (IH _ (n - 1)) by assumption. f_equal. lia.
Qed.

Ltac unkey w M := repeat match goal with |- context [ String.eqb w ?x ] => rewrite (mem_eqb w reserved_words x M) by (cbn; tauto) end.

(** a word that has been defined *)
Lemma g_call : forall d ed D S w b, free w -> String.eqb w "err" = false -> String.eqb w "data" = false -> String.prefix "part0-" w = false -> assoc w D = Some b -> goes d ed [w] [b] (E D S) (E D S).
Proof.
  intros d ed D S w b F N1 N2 N3 A. destruct (free_mem _ F) as (M1 & _ & _ & M4). apply goes_step; [ | cbn; lia ]. intros f rest code. cbn [app parse].
  unkey w M1. cbv iota. change (p_vars (E D S)) with ["err"]. change (p_ins (E D S)) with ["data"]. cbn [index_of]. rewrite (String.eqb_sym "err"), N1. rewrite (String.eqb_sym "data"), N2.
  change (p_outs (E D S)) with O. rewrite (not_out _ _ 0 HO N3). rewrite (assoc_mem _ _ M4). change (p_dict (E D S)) with D. rewrite A. reflexivity.
Qed.

(** an integer *)
Definition number (w : string) (v : Z) : Prop := mem w reserved_words = false /\ mem w (map fst generic_builtin_words) = false /\ String.eqb w "err" = false /\ String.eqb w "data" = false /\ String.prefix "part0-" w = false
  /\ is_integer w = Ok (Some v).
Definition D_free (D : list (string * Z)) : Prop := Forall (fun kv => is_integer (fst kv) = Ok None) D.
Lemma D_assoc : forall D w v, D_free D -> is_integer w = Ok (Some v) -> assoc w D = None.
Proof. intros D w v H I1. induction H as [ | [ k x ] D Hk _ IH ]; [ reflexivity | ]. cbn [assoc fst] in *. destruct (String.eqb_spec k w) as [ -> | ]; [ congruence | exact IH ]. Qed.
Lemma g_int : forall d ed D S w v, number w v -> D_free D -> goes d ed [w] [CODE_LITERAL; wrapS 32 v] (E D S) (E D S).
Proof.
  intros d ed D S w v (M1 & M4 & N1 & N2 & N3 & HI) F. apply goes_step; [ | cbn; lia ]. intros f rest code. cbn [app parse].
  unkey w M1. cbv iota. change (p_vars (E D S)) with ["err"]. change (p_ins (E D S)) with ["data"]. cbn [index_of]. rewrite (String.eqb_sym "err"), N1. rewrite (String.eqb_sym "data"), N2.
  change (p_outs (E D S)) with O. rewrite (not_out _ _ 0 HO N3). rewrite (assoc_mem _ _ M4). change (p_dict (E D S)) with D. rewrite (D_assoc _ _ _ F HI), HI. reflexivity.
Qed.

(** a builtin word *)
Lemma g_builtin : forall d ed D S w b, In (w, b) [("dup", 32); ("drop", 33); ("=", 51); ("<>", 52); ("1+", 46)] -> goes d ed [w] [b] (E D S) (E D S).
Proof.
  intros d ed D S w b H. cbn [In] in H. repeat (destruct H as [ H | H ]; [ injection H as <- <-; trip; change (p_vars (E D S)) with ["err"]; change (p_ins (E D S)) with ["data"]; change (p_outs (E D S)) with O;
    cbn [index_of String.eqb Ascii.eqb Bool.eqb]; rewrite (not_out _ _ 0 HO) by reflexivity; reflexivity | ]). contradiction.
Qed.

(** outputs *)
Hypothesis HN : NoDup (map fst O).
Hypothesis HF : Forall free (map fst O).
Lemma g_out : forall d ed D S w k op c, nthZ (map fst O) k = Some w -> String.eqb w "err" = false -> String.eqb w "data" = false -> In (op, c) [("<-", CODE_WRITE); ("+<-", CODE_WRITE_ADD)] ->
  goes d ed [w; op; "stack"] [c; k] (E D S) (E D S).
Proof.
  intros d ed D S w k op c N N1 N2 HC. assert (F : free w) by (rewrite Forall_forall in HF; apply HF; eapply nthZ_In; exact N). destruct (free_mem _ F) as (M1 & _ & _ & M4). apply goes_step; [ | cbn; lia ]. intros f rest code. cbn [app parse].
  unkey w M1. cbv iota. change (p_vars (E D S)) with ["err"]. change (p_ins (E D S)) with ["data"]. cbn [index_of]. rewrite (String.eqb_sym "err"), N1. rewrite (String.eqb_sym "data"), N2.
  change (p_outs (E D S)) with O. rewrite (index_at _ _ 0 k HN N). rewrite Z.add_0_l. destruct HC as [ HC | [ HC | [ ] ] ]; injection HC as <- <-; reflexivity.
Qed.
Lemma g_read : forall d ed D S w k a c, nthZ (map fst O) k = Some w -> In (a, c) [("?->", 8); ("q->", 40); ("d->", 104)] -> String.eqb w "stack" = false ->
  goes d ed ["data"; a; w] [Z.lnot (c + 1); 0; k] (E D S) (E D S).
Proof.
  intros d ed D S w k a c N HC NS. apply goes_step; [ | cbn; lia ]. intros f rest code. cbn [app parse String.eqb Ascii.eqb Bool.eqb]. change (p_vars (E D S)) with ["err"]. change (p_ins (E D S)) with ["data"]. cbn [index_of String.eqb Ascii.eqb Bool.eqb].
  change (p_outs (E D S)) with O. destruct HC as [ HC | [ HC | [ HC | [ ] ] ] ]; injection HC as <- <-; cbn [String.eqb Ascii.eqb Bool.eqb];
  match goal with |- context [ parser_word ?x ] => let r := eval vm_compute in (parser_word x) in change (parser_word x) with r end; cbn [bind]; cbv iota; rewrite NS, (index_at _ _ 0 k HN N); rewrite Z.add_0_l; reflexivity.
Qed.

(** ** Branches, loops and definitions *)
Definition unbranched (b : list string) : Prop := forall w, In w b -> String.eqb w "if" = false /\ String.eqb w "then" = false /\ String.eqb w "else" = false.
Lemma scan_if_over : forall b t i s, unbranched b -> scan_if (b ++ t) i 1 s = scan_if t (i + List.length b) 1 s.
Proof.
  induction b as [ | w b IH ]; intros t i s H; [ cbn; rewrite Nat.add_0_r; reflexivity | ]. destruct (H w (or_introl eq_refl)) as (H1 & H2 & H3). cbn [app scan_if List.length]. rewrite H1, H2, H3. cbn [andb]. rewrite IH by (intros x Hx; apply H; right; exact Hx). f_equal. lia.
Qed.
Lemma firstn_here : forall {A} (a b : list A), firstn (List.length a) (a ++ b) = a.
Proof. intros. rewrite firstn_app, firstn_all, Nat.sub_diag. cbn. apply app_nil_r. Qed.
Lemma skipn_here : forall {A} (a b : list A), skipn (List.length a) (a ++ b) = b.
Proof. intros. rewrite skipn_app, skipn_all, Nat.sub_diag. reflexivity. Qed.
Lemma skipn_past : forall {A} (a : list A) x b, skipn (S (List.length a)) (a ++ x :: b) = b.
Proof. intros. replace (a ++ x :: b) with ((a ++ [x]) ++ b) by (rewrite <- app_assoc; reflexivity). replace (S (List.length a)) with (List.length (a ++ [x])) by (rewrite app_length; cbn; lia). apply skipn_here. Qed.

Lemma set_E : forall D S S', set_segs S' (E D S) = E D S'. Proof. reflexivity. Qed.

Lemma g_if : forall d ed D S b c, unbranched b -> (forall S', goes d (ed + 1) b c (E D S') (E D S')) ->
  goes d ed ("if" :: b ++ ["then"]) [CODE_IF; zlen S + 66] (E D S) (E D (S ++ [c])).
Proof.
  intros d ed D S b c U G rest code K HK f Hf. destruct f as [ | f ]; [ cbn in Hf; lia | ]. cbn [app parse String.eqb Ascii.eqb Bool.eqb]. rewrite <- app_assoc. cbn [app].
  rewrite (scan_if_over _ _ _ _ U). cbn [scan_if String.eqb Ascii.eqb Bool.eqb Nat.pred]. rewrite !Nat.add_0_l. rewrite firstn_here, skipn_past. change (p_segs (E D S)) with S. rewrite set_E.
  rewrite (goes_parse _ _ _ _ _ _ (G _)) by (cbn [List.length app] in Hf; rewrite !app_length in Hf; cbn [List.length] in Hf; lia). cbn [bind fst snd]. change (p_segs (E D (S ++ [[]]))) with (S ++ [[]]). rewrite upd_mid, set_E.
  apply HK. cbn [List.length app] in Hf. rewrite !app_length in Hf. lia.
Qed.
Lemma g_if_else : forall d ed D S b1 c1 b2 c2, unbranched b1 -> unbranched b2 -> (forall S', goes d (ed + 1) b1 c1 (E D S') (E D S')) -> (forall S', goes d (ed + 1) b2 c2 (E D S') (E D S')) ->
  goes d ed ("if" :: b1 ++ "else" :: b2 ++ ["then"]) [CODE_IF_ELSE; zlen S + 66; zlen S + 1 + 66] (E D S) (E D (S ++ [c1; c2])).
Proof.
  intros d ed D S b1 c1 b2 c2 U1 U2 G1 G2 rest code K HK f Hf. destruct f as [ | f ]; [ cbn in Hf; lia | ]. cbn [app parse String.eqb Ascii.eqb Bool.eqb]. rewrite <- app_assoc. cbn [app]. rewrite <- app_assoc. cbn [app].
  rewrite (scan_if_over _ _ _ _ U1). cbn [scan_if String.eqb Ascii.eqb Bool.eqb Nat.eqb andb]. rewrite (scan_if_over _ _ _ _ U2). cbn [scan_if String.eqb Ascii.eqb Bool.eqb Nat.pred]. rewrite !Nat.add_0_l.
  rewrite firstn_here, skipn_past. replace (Datatypes.S (List.length b1) + List.length b2 - Datatypes.S (List.length b1))%nat with (List.length b2) by lia. rewrite firstn_here.
  change (p_segs (E D S)) with S. rewrite set_E. cbn [List.length app] in Hf. rewrite !app_length in Hf. cbn [List.length] in Hf. rewrite !app_length in Hf. cbn [List.length] in Hf.
  rewrite (goes_parse _ _ _ _ _ _ (G1 _)) by lia. cbn [bind fst snd]. change (p_segs (E D (S ++ [[]]))) with (S ++ [[]]). rewrite upd_mid, set_E.
  change (p_segs (E D (S ++ [c1]))) with (S ++ [c1]). rewrite set_E. rewrite (goes_parse _ _ _ _ _ _ (G2 _)) by lia. cbn [bind fst snd]. change (p_segs (E D ((S ++ [c1]) ++ [[]]))) with ((S ++ [c1]) ++ [[]]). rewrite upd_mid, set_E.
  replace (skipn (Datatypes.S (Datatypes.S (List.length b1) + List.length b2)) (b1 ++ "else" :: b2 ++ "then" :: rest)) with rest.
  - replace ((S ++ [c1]) ++ [c2]) with (S ++ [c1; c2]) by (rewrite <- app_assoc; reflexivity). replace (Z.of_nat (List.length (S ++ [c1])) + BOUND_DICTIONARY) with (zlen S + 1 + 66) by (rewrite app_length; unfold zlen, BOUND_DICTIONARY; cbn [List.length]; lia).
    apply HK. lia.
  - replace (b1 ++ "else" :: b2 ++ "then" :: rest) with ((b1 ++ "else" :: b2) ++ "then" :: rest) by (rewrite <- app_assoc; reflexivity). replace (Datatypes.S (List.length b1) + List.length b2)%nat with (List.length (b1 ++ "else" :: b2)) by (rewrite app_length; cbn [List.length]; lia). rewrite skipn_past. reflexivity.
Qed.

Definition unlooped (b : list string) : Prop := forall w, In w b -> String.eqb w "begin" = false /\ String.eqb w "until" = false /\ String.eqb w "again" = false /\ String.eqb w "while" = false.
Lemma scan_begin_over : forall b t i a s, unlooped b -> scan_begin (b ++ t) i 1 0 a s = scan_begin t (i + List.length b) 1 0 a s.
Proof.
  induction b as [ | w b IH ]; intros t i a s H; [ cbn; rewrite Nat.add_0_r; reflexivity | ]. destruct (H w (or_introl eq_refl)) as (H1 & H2 & H3 & H4). cbn [app scan_begin List.length]. rewrite H1, H2, H3, H4. rewrite IH by (intros x Hx; apply H; right; exact Hx). f_equal. lia.
Qed.
Lemma g_begin : forall d ed D S b c X, unlooped b -> (forall S', zlen S' = zlen S + 1 -> goes d (ed + 1) b c (E D S') (E D (S' ++ X))) ->
  goes d ed ("begin" :: b ++ ["again"]) [zlen S + 66; CODE_AGAIN] (E D S) (E D (S ++ c :: X)).
Proof.
  intros d ed D S b c X U G rest code K HK f Hf. destruct f as [ | f ]; [ cbn in Hf; lia | ]. cbn [app parse String.eqb Ascii.eqb Bool.eqb]. rewrite <- app_assoc. cbn [app].
  rewrite (scan_begin_over _ _ _ _ _ U). cbn [scan_begin String.eqb Ascii.eqb Bool.eqb Nat.eqb Nat.pred]. rewrite !Nat.add_0_l. rewrite firstn_here, skipn_past. change (p_segs (E D S)) with S. rewrite set_E.
  rewrite (goes_parse _ _ _ _ _ _ (G (S ++ [[]]) ltac:(rewrite zlen_app; reflexivity))) by (cbn [List.length app] in Hf; rewrite !app_length in Hf; cbn [List.length] in Hf; lia). cbn [bind fst snd].
  change (p_segs (E D ((S ++ [[]]) ++ X))) with ((S ++ [[]]) ++ X). rewrite <- app_assoc. cbn [app]. rewrite upd_mid, set_E.
  apply HK. cbn [List.length app] in Hf. rewrite !app_length in Hf. lia.
Qed.

Definition undefined (b : list string) : Prop := forall w, In w b -> String.eqb w ":" = false /\ String.eqb w ";" = false.
Lemma scan_colon_over : forall b t i, undefined b -> scan_colon (b ++ t) i 1 = scan_colon t (i + List.length b) 1.
Proof.
  induction b as [ | w b IH ]; intros t i H; [ cbn; rewrite Nat.add_0_r; reflexivity | ]. destruct (H w (or_introl eq_refl)) as (H1 & H2). cbn [app scan_colon List.length]. rewrite H1, H2. rewrite IH by (intros x Hx; apply H; right; exact Hx). f_equal. lia.
Qed.
Lemma g_colon : forall D S name b c X, undefined b -> free name -> String.eqb name "err" = false -> String.eqb name "data" = false -> String.prefix "part0-" name = false -> mem name (map fst D) = false ->
  (forall S', zlen S' = zlen S + 1 -> goes name 0 b c (E (D ++ [(name, zlen S + 66)]) S') (E (D ++ [(name, zlen S + 66)]) (S' ++ X))) ->
  goes "" 0 (":" :: name :: b ++ [";"]) [] (E D S) (E (D ++ [(name, zlen S + 66)]) (S ++ c :: X)).
Proof.
  intros D S name b c X U F N1 N2 N3 N4 G rest code K HK f Hf. destruct f as [ | f ]; [ cbn in Hf; lia | ]. cbn [app parse String.eqb Ascii.eqb Bool.eqb]. rewrite <- app_assoc. cbn [app].
  destruct (free_mem _ F) as (M1 & _). change (match name with "" => false | _ => _ end) with (String.eqb name ";") in *.
  rewrite (mem_eqb name reserved_words ";" M1) by (cbn; tauto).
  assert (T : name_taken (E D S) name = Ok false).
  { unfold name_taken. change (p_ins (E D S)) with ["data"]. change (p_outs (E D S)) with O. change (p_vars (E D S)) with ["err"]. change (p_dict (E D S)) with D. rewrite N4.
    assert (MO : mem name (map fst O) = false).
    { destruct (mem name (map fst O)) eqn:EM; [ | reflexivity ]. exfalso. unfold mem in EM. apply existsb_exists in EM. destruct EM as (x & Hx & Ex). apply String.eqb_eq in Ex. subst x. rewrite Forall_forall in HO. specialize (HO _ Hx). unfold plain_out in HO. congruence. }
    rewrite MO. unfold mem. cbn [existsb]. rewrite N1, N2. cbn [orb]. destruct F as [ -> -> ]. reflexivity. }
  rewrite T. cbn [bind]. rewrite (scan_colon_over _ _ _ U). cbn [scan_colon String.eqb Ascii.eqb Bool.eqb Nat.pred]. rewrite !Nat.add_0_l. rewrite firstn_here, skipn_past. change (p_segs (E D S)) with S.
  change (set_segs (S ++ [[]]) (add_dict name (Z.of_nat (List.length S) + BOUND_DICTIONARY) (E D S))) with (E (D ++ [(name, zlen S + 66)]) (S ++ [[]])).
  rewrite (goes_parse _ _ _ _ _ _ (G (S ++ [[]]) ltac:(rewrite zlen_app; reflexivity))) by (cbn [List.length app] in Hf; rewrite !app_length in Hf; cbn [List.length] in Hf; lia). cbn [bind fst snd].
  match goal with |- context [ p_segs (E ?DD ?SS) ] => change (p_segs (E DD SS)) with SS end. rewrite <- app_assoc. cbn [app]. rewrite upd_mid, set_E.
  rewrite app_nil_r in HK. apply HK. cbn [List.length app] in Hf. rewrite !app_length in Hf. lia.
Qed.
End Names.
