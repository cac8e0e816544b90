(** The tokens of a text made of words, blanks and quoted strings *)
From Coq Require Import String.
From Verif Require Import Base BaseLemmas Forth ForthParse LayoutBuild.
Local Open Scope string_scope.
Local Open Scope list_scope.

Notation la := list_ascii_of_string.
Lemma la_app : forall a b, la (a +++ b) = la a ++ la b.
Proof. induction a as [ | c a IH ]; intros b; cbn; [ reflexivity | rewrite IH; reflexivity ]. Qed.
Lemma of_la : forall a, of_chars (la a) = a.
Proof. induction a as [ | c a IH ]; cbn; [ reflexivity | rewrite IH; reflexivity ]. Qed.
Lemma la_inj : forall a b, la a = la b -> a = b.
Proof. intros a b H. rewrite <- (of_la a), H. apply of_la. Qed.
Lemma app_assoc_s : forall a b c, (a +++ b) +++ c = a +++ (b +++ c).
Proof. induction a as [ | x a IH ]; intros b c; cbn; [ reflexivity | rewrite IH; reflexivity ]. Qed.
Lemma app_nil_s : forall a, a +++ "" = a.
Proof. induction a as [ | x a IH ]; cbn; [ reflexivity | rewrite IH; reflexivity ]. Qed.

Definition wordc (c : ascii) : bool := negb (is_blank c) && negb (is_newline c) && negb (Ascii.eqb c quote) && negb (Ascii.eqb c backslash).
Definition wordy (w : string) : bool := forallb wordc (la w).
Definition nq (w : string) : Prop := String.eqb w dot_quote = false /\ String.eqb w s_quote = false.
Lemma wordy_app : forall a b, wordy (a +++ b) = wordy a && wordy b.
Proof. intros. unfold wordy. rewrite la_app, forallb_app. reflexivity. Qed.
Lemma wordy_nq : forall w, wordy w = true -> nq w.
Proof. intros w H. split; apply String.eqb_neq; intros ->; vm_compute in H; discriminate. Qed.

(** reading [s] after the beginning [w] of a word gives the tokens [ts] and leaves the beginning [w'] of a word *)
Definition reads (w s : string) (ts : list string) (w' : string) : Prop :=
  forall rest lastt, nq lastt -> exists lastt', nq lastt' /\
    forall K, (forall fuel, (List.length rest <= fuel)%nat -> tokenize fuel rest (rev (la w')) lastt' = Ok K) ->
    forall fuel, (List.length (la s ++ rest) <= fuel)%nat -> tokenize fuel (la s ++ rest) (rev (la w)) lastt = Ok (ts ++ K).

Lemma reads_app : forall w a ta w1 b tb w2, reads w a ta w1 -> reads w1 b tb w2 -> reads w (a +++ b) (ta ++ tb) w2.
Proof.
  intros w a ta w1 b tb w2 A B rest lastt Q. destruct (A (la b ++ rest) lastt Q) as (l1 & Q1 & E1). destruct (B rest l1 Q1) as (l2 & Q2 & E2). exists l2. split; [ exact Q2 | ].
  intros K HK fuel Hf. rewrite la_app, <- app_assoc in Hf |- *. rewrite <- app_assoc. apply E1; [ | exact Hf ]. intros f2 Hf2. apply E2; [ exact HK | exact Hf2 ].
Qed.
Lemma reads_nil : forall w, reads w "" [] w.
Proof. intros w rest lastt Q. exists lastt. split; [ exact Q | ]. intros K HK fuel Hf. cbn in *. apply HK. lia. Qed.

Lemma last_nq : forall l, nq l -> last_is_quote [] l = false.
Proof. intros l [ A B ]. unfold last_is_quote. cbn. rewrite A, B. reflexivity. Qed.

Lemma reads_char : forall w c, wordc c = true -> reads w (String c "") [] (w +++ String c "").
Proof.
  intros w c Hc rest lastt Q. exists lastt. split; [ exact Q | ]. intros K HK fuel Hf. cbn [la app List.length] in *. destruct fuel as [ | f ]; [ lia | ]. cbn [tokenize].
  unfold wordc in Hc. apply andb_true_iff in Hc. destruct Hc as [ Hc _ ]. apply andb_true_iff in Hc. destruct Hc as [ Hc _ ]. apply andb_true_iff in Hc. destruct Hc as [ H1 H2 ]. apply negb_true_iff in H1, H2. rewrite H1, H2.
  rewrite (last_nq _ Q). cbn [List.last]. rewrite la_app, rev_app_distr in HK. cbn [rev la app] in HK. rewrite HK by lia. reflexivity.
Qed.
Lemma reads_word : forall v w, wordy v = true -> reads w v [] (w +++ v).
Proof.
  induction v as [ | c v IH ]; intros w H; [ rewrite app_nil_s; apply reads_nil | ]. unfold wordy in H. cbn [la forallb] in H. apply andb_true_iff in H. destruct H as [ Hc Hv ].
  change (String c v) with (String c "" +++ v). rewrite <- app_assoc_s. change (@nil string) with (@nil string ++ @nil string). eapply reads_app; [ apply reads_char; exact Hc | apply IH; exact Hv ].
Qed.

Lemma flush_rev : forall w, w <> "" -> flush (rev (la w)) = [w].
Proof.
  intros w H. unfold flush. destruct (rev (la w)) as [ | c l ] eqn:E.
  - apply (f_equal (@rev ascii)) in E. rewrite rev_involutive in E. destruct w; [ congruence | discriminate ].
  - rewrite <- E, rev_involutive, of_la. reflexivity.
Qed.
Lemma nq_newline : nq newline. Proof. split; reflexivity. Qed.

Lemma reads_blank : forall w, w <> "" -> wordy w = true -> reads w " " [w] "".
Proof.
  intros w H Hw rest lastt Q. exists w. split; [ apply wordy_nq; exact Hw | ]. intros K HK fuel Hf. cbn [la app List.length] in *. destruct fuel as [ | f ]; [ lia | ]. cbn [tokenize]. change (is_blank " ") with true. cbv iota.
  rewrite (flush_rev _ H). unfold last_is_quote. cbn [List.last]. destruct (wordy_nq _ Hw) as [ A B ]. rewrite A, B. cbn [orb]. rewrite HK by lia. reflexivity.
Qed.
Lemma reads_space : reads "" " " [] "".
Proof. intros rest lastt Q. exists lastt. split; [ exact Q | ]. intros K HK fuel Hf. cbn [la app List.length] in *. destruct fuel as [ | f ]; [ lia | ]. cbn [tokenize]. change (is_blank " ") with true. cbv iota. cbn [la rev flush]. rewrite (last_nq _ Q). cbn [List.last]. rewrite HK by lia. reflexivity. Qed.
Lemma reads_eol : forall w, w <> "" -> wordy w = true -> reads w nl [w; nl] "".
Proof.
  intros w H Hw rest lastt Q. exists newline. split; [ apply nq_newline | ]. intros K HK fuel Hf. cbn [la app List.length nl newline] in *. destruct fuel as [ | f ]; [ cbn in Hf; lia | ]. cbn [tokenize]. change (is_blank (ascii_of_nat 10)) with false. change (is_newline (ascii_of_nat 10)) with true. cbv iota.
  rewrite (flush_rev _ H). unfold last_is_quote. cbn [List.last app]. change (String.eqb newline dot_quote) with false. change (String.eqb newline s_quote) with false. cbn [orb]. rewrite HK by (cbn in Hf; lia). reflexivity.
Qed.
Lemma reads_empty_line : reads "" nl [nl] "".
Proof.
  intros rest lastt Q. exists newline. split; [ apply nq_newline | ]. intros K HK fuel Hf. cbn [la app List.length nl newline] in *. destruct fuel as [ | f ]; [ cbn in Hf; lia | ]. cbn [tokenize]. change (is_blank (ascii_of_nat 10)) with false. change (is_newline (ascii_of_nat 10)) with true. cbv iota.
  cbn [la rev flush app]. unfold last_is_quote. cbn [List.last app]. change (String.eqb newline dot_quote) with false. change (String.eqb newline s_quote) with false. cbn [orb]. rewrite HK by (cbn in Hf; lia). reflexivity.
Qed.

(** a text without names *)
Fixpoint known (w s : string) : option (list string * string) :=
  match s with
  | "" => Some ([], w)
  | String c s =>
      if wordc c then known (w +++ String c "") s
      else if Ascii.eqb c " " then match known "" s with Some (ts, w') => Some (match w with "" => ts | _ => w :: ts end, w') | None => None end
      else if Ascii.eqb c (ascii_of_nat 10) then match known "" s with Some (ts, w') => Some (match w with "" => nl :: ts | _ => w :: nl :: ts end, w') | None => None end
      else None
  end%string.
Lemma known_ok : forall s w ts w', wordy w = true -> known w s = Some (ts, w') -> reads w s ts w'.
Proof.
  induction s as [ | c s IH ]; intros w ts w' Hw H; cbn [known] in H; [ injection H as <- <-; apply reads_nil | ]. change (String c s) with (String c "" +++ s).
  destruct (wordc c) eqn:Hc.
  - change ts with ([] ++ ts). eapply reads_app; [ apply reads_char; exact Hc | ]. apply IH; [ | exact H ]. rewrite wordy_app, Hw. unfold wordy. cbn. rewrite Hc. reflexivity.
  - destruct (Ascii.eqb_spec c " ") as [ -> | _ ]; [ | destruct (Ascii.eqb_spec c (ascii_of_nat 10)) as [ -> | _ ]; [ | discriminate ] ]; destruct (known "" s) as [ [ ts0 w0 ] | ] eqn:E; try discriminate; injection H as <- <-; specialize (IH ""%string ts0 w0 eq_refl E).
    + destruct w as [ | a w ]; [ change ts0 with ([] ++ ts0); eapply reads_app; [ apply reads_space | exact IH ] | ]. change (String a w :: ts0) with ([String a w] ++ ts0). eapply reads_app; [ apply reads_blank; [ discriminate | exact Hw ] | exact IH ].
    + destruct w as [ | a w ]; [ change (nl :: ts0) with ([nl] ++ ts0); eapply reads_app; [ apply reads_empty_line | exact IH ] | ]. change (String a w :: nl :: ts0) with ([String a w; nl] ++ ts0). eapply reads_app; [ apply reads_eol; [ discriminate | exact Hw ] | exact IH ].
Qed.

(** s" text" *)
Definition textc (c : ascii) : bool := negb (Ascii.eqb c quote) && negb (Ascii.eqb c backslash).
Lemma take_ok : forall t prev acc rest, forallb textc t = true -> Ascii.eqb prev backslash = false -> take_string (t ++ quote :: rest) prev acc = Some (of_chars (rev acc ++ t), rest).
Proof.
  induction t as [ | c t IH ]; intros prev acc rest H Hp; cbn [app take_string].
  - change (Ascii.eqb quote quote) with true. cbn [orb]. rewrite app_nil_r. reflexivity.
  - cbn [forallb] in H. apply andb_true_iff in H. destruct H as [ Hc Ht ]. unfold textc in Hc. apply andb_true_iff in Hc. destruct Hc as [ H1 H2 ]. apply negb_true_iff in H1, H2. rewrite H1, Hp. cbn [orb]. rewrite IH by assumption. cbn [rev]. rewrite <- app_assoc. reflexivity.
Qed.
Lemma reads_quoted : forall c t, textc c = true -> is_blank c = false -> is_newline c = false -> forallb textc (la t) = true ->
  reads "" ("s" +++ qt +++ " " +++ String c t +++ qt) [s_quote; String c t] "".
Proof.
  intros c t H1 H2 H3 H4 rest lastt Q. exists (String c t). split.
  { split; apply String.eqb_neq; intros E; injection E as -> ->; vm_compute in H4; discriminate. }
  intros K HK fuel Hf. rewrite !la_app in Hf |- *. cbn [la app qt] in Hf |- *. rewrite <- app_assoc in Hf |- *. cbn [app] in Hf |- *.
  destruct fuel as [ | [ | [ | f ] ] ]; try (cbn [List.length] in Hf; lia). cbn [tokenize]. change (is_blank "s") with false. change (is_newline "s") with false. change (is_blank quote) with false. change (is_newline quote) with false. change (is_blank " ") with true. cbv iota.
  rewrite (last_nq _ Q). cbn [List.last]. rewrite (last_nq _ Q). cbn [List.last].
  change (last_is_quote (flush [quote; "s"%char]) lastt) with true. cbv iota. cbn [skip_blank]. rewrite H2, H3. cbn [orb].
  change (c :: la t ++ quote :: rest) with ((c :: la t) ++ quote :: rest). rewrite (take_ok (c :: la t)%list) by (try reflexivity; cbn [forallb]; rewrite H1, H4; reflexivity). cbn [rev app of_chars]. rewrite of_la.
  rewrite HK; [ reflexivity | ]. cbn [List.length] in Hf. rewrite app_length in Hf. cbn [List.length] in Hf. lia.
Qed.

Lemma tokens_ok : forall s ts, reads "" s ts "" -> tokens s = Ok ts.
Proof.
  intros s ts R. destruct (R [] ""%string (conj eq_refl eq_refl)) as (l & _ & E). unfold tokens. specialize (E []). rewrite !app_nil_r in E. apply E; [ | lia ]. intros fuel _. destruct fuel; reflexivity.
Qed.
