(** The names a LayoutBuilder makes from plain keys: words of the language, distinct and without another meaning *)
From Coq Require Import String.
From Verif Require Import Base BaseLemmas Forth ForthParse LayoutBuild SpecLayout PLayoutToken PLayoutParse.
Local Open Scope string_scope.
Local Open Scope list_scope.
Local Open Scope Z_scope.

Definition stem (k : string) : bool := match k with String c _ => letter c && forallb key_char (la k) | _ => false end.
Lemma plain_stem : forall k, plain_key k = true -> stem k = true /\ String.prefix "part0" k = false.
Proof. intros [ | c k ] H; [ discriminate | ]. unfold plain_key in H. apply andb_true_iff in H. destruct H as [ H1 H2 ]. split; [ exact H1 | apply negb_true_iff; exact H2 ]. Qed.
Lemma stem_part0 : forall k, stem k = true -> stem ("part0-" +++ k) = true.
Proof.
  intros [ | c k ] H; [ discriminate | ]. unfold stem in *. apply andb_true_iff in H. destruct H as [ H1 H2 ]. change ("part0-" +++ String c k) with (String "p" ("art0-" +++ String c k)). change (letter "p") with true. cbn [andb].
  change (String "p" ("art0-" +++ String c k)) with ("part0-" +++ String c k). rewrite la_app, forallb_app, H2. reflexivity.
Qed.
Lemma stem_cons : forall k, stem k = true -> exists c l, la k = c :: l /\ letter c = true /\ forallb key_char (la k) = true.
Proof. intros [ | c k ] H; [ discriminate | ]. apply andb_true_iff in H. destruct H. exists c, (la k). auto. Qed.

Definition suffixes : list string := ["-data"; "-offsets"; "-int64"; "-float64"; "-bool"; "record"].
Lemma suffix_chars : forall suf, In suf suffixes -> forallb key_char (la suf) = true.
Proof. intros suf H. repeat (destruct H as [ <- | H ]; [ reflexivity | ]). contradiction. Qed.

Lemma strip_suffix_app : forall suf cs r, strip_suffix suf cs = Some r -> cs = r ++ suf.
Proof.
  intros suf. induction cs as [ | c cs IH ]; intros r H; cbn [strip_suffix] in H.
  - destruct (list_eq_dec ascii_dec [] suf) as [ <- | ]; [ injection H as <-; reflexivity | discriminate ].
  - destruct (list_eq_dec ascii_dec (c :: cs) suf) as [ <- | ]; [ injection H as <-; reflexivity | ]. destruct (strip_suffix suf cs) as [ r0 | ]; [ | discriminate ]. injection H as <-. rewrite (IH _ eq_refl). reflexivity.
Qed.
Lemma strip_suffix_has : forall suf x, strip_suffix suf (x ++ suf) <> None.
Proof.
  intros suf. induction x as [ | c x IH ].
  - cbn [app]. destruct suf as [ | a suf ]; cbn [strip_suffix]; destruct (list_eq_dec ascii_dec _ _); congruence.
  - cbn [app strip_suffix]. destruct (list_eq_dec ascii_dec (c :: x ++ suf) suf); [ discriminate | ]. destruct (strip_suffix suf (x ++ suf)); [ discriminate | congruence ].
Qed.
Definition ends (suf r : string) : bool := match strip_suffix (la suf) (la r) with Some _ => true | None => false end.
Lemma not_ending : forall suf k r, ends suf r = false -> String.eqb (k +++ suf) r = false.
Proof.
  intros suf k r H. apply String.eqb_neq. intros <-. unfold ends in H. rewrite la_app in H. pose proof (strip_suffix_has (la suf) (la k)). destruct (strip_suffix (la suf) (la k ++ la suf)); congruence.
Qed.
Lemma not_listed : forall suf k L, forallb (fun r => negb (ends suf r)) L = true -> mem (k +++ suf) L = false.
Proof.
  intros suf k L H. induction L as [ | r L IH ]; [ reflexivity | ]. cbn [forallb] in H. apply andb_true_iff in H. destruct H as [ H1 H2 ]. unfold mem in *. cbn [existsb]. rewrite (not_ending suf k r) by (apply negb_true_iff; exact H1). apply IH. exact H2.
Qed.

Lemma letter_facts : forall a, letter a = true -> Ascii.eqb a "0" = false /\ Ascii.eqb a "-" = false /\ Ascii.eqb a "+" = false /\ Ascii.eqb a "#" = false /\ Ascii.eqb a "!" = false /\ digit 10 a = None.
Proof. intros [ [ ] [ ] [ ] [ ] [ ] [ ] [ ] [ ] ] H; try (vm_compute in H; discriminate H); vm_compute; auto 10. Qed.
Lemma key_wordc : forall a, key_char a = true -> wordc a = true.
Proof. intros [ [ ] [ ] [ ] [ ] [ ] [ ] [ ] [ ] ] H; try (vm_compute in H; discriminate H); reflexivity. Qed.
Lemma key_textc : forall a, key_char a = true -> textc a = true.
Proof. intros [ [ ] [ ] [ ] [ ] [ ] [ ] [ ] [ ] ] H; try (vm_compute in H; discriminate H); reflexivity. Qed.

Lemma name_chars : forall k suf, stem k = true -> In suf suffixes -> forallb key_char (la (k +++ suf)) = true.
Proof. intros k suf H Hs. destruct (stem_cons _ H) as (c & l & _ & _ & F). rewrite la_app, forallb_app, F. apply suffix_chars, Hs. Qed.
Lemma name_wordy : forall k suf, stem k = true -> In suf suffixes -> wordy (k +++ suf) = true /\ k +++ suf <> "".
Proof.
  intros k suf H Hs. split; [ unfold wordy; rewrite forallb_forall; intros x Hx; apply key_wordc; pose proof (name_chars _ _ H Hs) as F; rewrite forallb_forall in F; apply F; exact Hx | destruct k; [ discriminate | discriminate ] ].
Qed.
Lemma name_free : forall k suf, stem k = true -> In suf suffixes -> free (k +++ suf).
Proof.
  intros k suf H Hs. pose proof (name_chars _ _ H Hs) as FC. destruct (stem_cons _ H) as (c & l & EL & LC & _). destruct (letter_facts _ LC) as (L0 & L1 & L2 & L3 & L4 & L5).
  assert (EC : la (k +++ suf) = c :: (l ++ la suf)) by (rewrite la_app, EL; reflexivity). split.
  - unfold is_reserved. assert (NB : is_nbit (la (k +++ suf)) = Ok None).
    { unfold is_nbit. rewrite EC. cbn [strip_char]. rewrite L3. cbn [strip_char]. rewrite L4. destruct (strip_suffix (la "bit->") (c :: l ++ la suf)) as [ r | ] eqn:ES; [ | reflexivity ]. exfalso. apply strip_suffix_app in ES.
      rewrite EC, ES, forallb_app in FC. apply andb_true_iff in FC. destruct FC as [ _ FC ]. vm_compute in FC. discriminate. }
    rewrite NB. cbn [bind]. f_equal. rewrite !not_listed; [ reflexivity | .. ]; repeat (destruct Hs as [ <- | Hs ]; [ vm_compute; reflexivity | ]); contradiction.
  - unfold is_integer. rewrite EC. assert (ST : stoul 10 (c :: l ++ la suf) = Ok None).
    { unfold stoul, magnitude, strip_sign. rewrite L1, L2. assert (X : forall cs, strip_0x 10 cs = cs) by (intros [ | ? [ | ? [ | ? ? ] ] ]; reflexivity). rewrite X, L5. reflexivity. }
    destruct (l ++ la suf) as [ | b t ]; [ rewrite ST; reflexivity | ]. rewrite L0. cbn [andb]. rewrite ST. reflexivity.
Qed.
Lemma name_kw : forall k suf, In suf suffixes -> String.eqb (k +++ suf) "err" = false /\ String.eqb (k +++ suf) "data" = false /\ String.eqb (k +++ suf) "stack" = false.
Proof. intros k suf Hs. repeat split; apply not_ending; repeat (destruct Hs as [ <- | Hs ]; [ reflexivity | ]); contradiction. Qed.
Lemma name_part0 : forall k suf, plain_key k = true -> In suf suffixes -> String.prefix "part0-" (k +++ suf) = false.
Proof.
  intros k suf H Hs. destruct (plain_stem _ H) as [ ST NP ]. destruct (String.prefix "part0-" (k +++ suf)) eqn:E; [ exfalso | reflexivity ].
  destruct k as [ | c0 [ | c1 [ | c2 [ | c3 [ | c4 k ] ] ] ] ]; [ discriminate ST | .. ];
  cbn [String.append String.prefix] in E, NP; repeat match type of E with context [ ascii_dec ?a ?b ] => destruct (ascii_dec a b); try discriminate E; subst end;
  try (repeat (destruct Hs as [ <- | Hs ]; [ vm_compute in E; discriminate E | ]); contradiction).
  destruct k; discriminate NP.
Qed.
Lemma name_inj : forall k suf k' suf', In suf suffixes -> In suf' suffixes -> k +++ suf = k' +++ suf' -> suf = suf' /\ k = k'.
Proof.
  intros k suf k' suf' Hs Hs' H. apply (f_equal la) in H. rewrite !la_app in H.
  assert (SE : suf = suf').
  { apply (f_equal (@rev ascii)) in H. rewrite !rev_app_distr in H. repeat (destruct Hs as [ <- | Hs ]; [ repeat (destruct Hs' as [ <- | Hs' ]; [ first [ reflexivity | cbn in H; discriminate H ] | ]); contradiction | ]). contradiction. }
  split; [ exact SE | ]. subst suf'. apply app_inv_tail in H. apply la_inj. exact H.
Qed.
Lemma part0_inj : forall k k', "part0-" +++ k = "part0-" +++ k' -> k = k'.
Proof. intros k k' H. cbn in H. congruence. Qed.
Lemma part0_out : forall k, plain_out ("part0-" +++ k).
Proof. intros k. unfold plain_out. cbn. destruct k; reflexivity. Qed.

(** the numbers of the errors *)
Definition numberb (w : string) : bool := wordy w && negb (String.eqb w "") && negb (mem w reserved_words) && negb (mem w (map fst generic_builtin_words)) && negb (String.eqb w "err") && negb (String.eqb w "data") && negb (String.prefix "part0-" w)
  && match is_integer w with Ok (Some _) => true | _ => false end.
Lemma numberb_ok : forall w, numberb w = true -> wordy w = true /\ w <> "" /\ exists v, number w v.
Proof.
  intros w H. unfold numberb in H. repeat (apply andb_true_iff in H; let A := fresh "A" in destruct H as [ H A ]). rewrite negb_true_iff in *. split; [ exact H | ]. split; [ intros ->; discriminate | ].
  destruct (is_integer w) as [ [ v | ] | | ] eqn:EI; try discriminate. exists v. unfold number. auto 10.
Qed.
Lemma small_numbers : forall e, (e <= 300)%nat -> wordy (to_string e) = true /\ to_string e <> "" /\ exists v, number (to_string e) v.
Proof.
  intros e He. apply numberb_ok. assert (X : forallb (fun e => numberb (to_string e)) (seq 0 301) = true) by (vm_compute; reflexivity). rewrite forallb_forall in X. apply X. apply in_seq. lia.
Qed.
