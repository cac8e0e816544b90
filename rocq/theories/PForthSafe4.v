(** Lemmas for C27: the parser makes programs out of groups of codes *)
From Verif Require Import Base BaseLemmas Forth ForthParse SpecForth SpecForthRun SpecForthSafe PForthRead2 PForthSafe1 PForthSafe2.
Local Open Scope string_scope.
Local Open Scope list_scope.
Local Open Scope Z_scope.

(** the risky words a source may have *)
Record feats := mkFeats { fe : bool; fd : bool; fw : bool; fr : bool }.
Definition allowed (F : feats) (w : string) : Prop :=
  (w = "exit" -> fe F = true) /\ (w = "do" -> fd F = true) /\ (w = "rewind" -> fw F = true) /\ (begins_with_hash w -> fr F = true).

Definition envp (F : feats) (p : pst) (T : list seg) : env :=
  mkEnv (zlen (p_vars p)) (zlen (p_ins p)) (zlen (p_outs p)) (zlen (p_strings p)) (map sig T) (fe F) (fd F) (fw F) (fr F).

Definition le (A B : env) : Prop :=
  nv A <= nv B /\ ni A <= ni B /\ no A <= no B /\ ns A <= ns B /\ (exists r, sigs B = sigs A ++ r)
  /\ f_exit B = f_exit A /\ f_do B = f_do A /\ f_rewind B = f_rewind A /\ f_rep B = f_rep A.
Lemma le_refl : forall A, le A A.
Proof. intros A. unfold le. repeat (split; [ lia | ]). split; [ exists []; rewrite app_nil_r; reflexivity | auto ]. Qed.
Lemma le_trans : forall A B C, le A B -> le B C -> le A C.
Proof.
  intros A B C (H1 & H2 & H3 & H4 & (r & H5) & H6 & H7 & H8 & H9) (K1 & K2 & K3 & K4 & (r' & K5) & K6 & K7 & K8 & K9).
  unfold le. repeat (split; [ lia | ]). split; [ exists (r ++ r'); rewrite K5, H5, app_assoc; reflexivity | ]. repeat split; congruence.
Qed.
Lemma sub_le : forall A B b l d, le A B -> sub A b l d -> sub B b l d.
Proof.
  intros A B b l d (_ & _ & _ & _ & (r & H) & _) Hs. unfold sub in *. rewrite H, nthZ_app. pose proof (nthZ_Some _ _ _ Hs).
  destruct (Z.ltb_spec b (zlen (sigs A))); [ exact Hs | lia ].
Qed.
Lemma grp_le : forall A B l d g, le A B -> grp_ok A l d g -> grp_ok B l d g.
Proof.
  intros A B l d g H Hg. pose proof (fun b x y => sub_le A B b x y H) as Hsub. destruct H as (H1 & H2 & H3 & H4 & _ & H6 & H7 & H8 & H9).
  destruct g; cbn [grp_ok] in *; try (apply Hsub; exact Hg); try exact Hg.
  - destruct Hg as [Hop Hw]. split; [ unfold operand_in in *; lia | ]. rewrite H8. exact Hw.
  - destruct Hg as (G1 & G2 & G3 & G4). split; [ exact G1 | ]. split; [ lia | ]. split; [ intros e; specialize (G3 e); lia | ]. rewrite H9. exact G4.
  - destruct Hg. split; apply Hsub; assumption.
  - destruct Hg as [Hg Hd]. split; [ apply Hsub; exact Hg | rewrite H7; exact Hd ].
  - destruct Hg. split; apply Hsub; assumption.
  - rewrite H6. exact Hg.
Qed.
Lemma grps_le : forall A B l d gs, le A B -> Forall (grp_ok A l d) gs -> Forall (grp_ok B l d) gs.
Proof. intros A B l d gs H Hg. eapply Forall_impl; [ | exact Hg ]. intros g. apply grp_le. exact H. Qed.

(** what the parser has built *)
Record tbl (F : feats) (p : pst) (T : list seg) : Prop := mkTbl {
  y_segs : p_segs p = map (fun s => code (body s)) T;
  y_ok : Forall (seg_ok (envp F p T)) T;
  y_dict : Forall (fun kc => exists b, snd kc = b + 66 /\ sub (envp F p T) b 0 0) (p_dict p)
}.

Lemma seg_le : forall A B s, le A B -> seg_ok A s -> seg_ok B s.
Proof. intros A B s H (H1 & H2 & H3). split; [ exact H1 | ]. split; [ exact H2 | ]. eapply grps_le; eauto. Qed.
Lemma segs_le : forall A B T, le A B -> Forall (seg_ok A) T -> Forall (seg_ok B) T.
Proof. intros A B T H HT. eapply Forall_impl; [ | exact HT ]. intros s. apply seg_le. exact H. Qed.
Lemma dict_le : forall A B (l : list (string * Z)), le A B -> Forall (fun kc => exists b, snd kc = b + 66 /\ sub A b 0 0) l ->
  Forall (fun kc => exists b, snd kc = b + 66 /\ sub B b 0 0) l.
Proof. intros A B l H HT. eapply Forall_impl; [ | exact HT ]. intros kc (b & E & Hb). exists b. split; [ exact E | eapply sub_le; eauto ]. Qed.

(** more names *)
Lemma tbl_names : forall F p p' T, tbl F p T -> p_segs p' = p_segs p -> p_dict p' = p_dict p -> le (envp F p T) (envp F p' T) -> tbl F p' T.
Proof. intros F p p' T [H1 H2 H3] E1 E2 Hle. split; [ congruence | eapply segs_le; eauto | rewrite E2; eapply dict_le; eauto ]. Qed.

(** one more segment, empty *)
Lemma tbl_placeholder : forall F p T l d, tbl F p T -> 0 <= l -> 0 <= d ->
  let p' := set_segs (p_segs p ++ [[]]) p in let T' := T ++ [mkSeg l d []] in
  tbl F p' T' /\ le (envp F p T) (envp F p' T') /\ sub (envp F p' T') (Z.of_nat (List.length (p_segs p))) l d.
Proof.
  intros F p T l d [H1 H2 H3] Hl Hd p' T'. assert (Hle : le (envp F p T) (envp F p' T')).
  { unfold le, envp. cbn. repeat (split; [ lia | ]). split; [ exists [(l, d)]; unfold T'; rewrite map_app; reflexivity | auto ]. }
  split; [ | split; [ exact Hle | ] ].
  - split.
    + cbn. unfold T'. rewrite map_app, H1. reflexivity.
    + unfold T'. apply Forall_app. split; [ eapply segs_le; [ exact Hle | exact H2 ] | ]. constructor; [ | constructor ]. split; [ exact Hl | split; [ exact Hd | constructor ] ].
    + cbn [p_dict set_segs]. eapply dict_le; [ exact Hle | exact H3 ].
  - unfold sub. cbn. unfold T'. rewrite H1, map_length, map_app, nthZ_app, zlen_map. unfold zlen at 1. rewrite Z.ltb_irrefl.
    unfold zlen. rewrite Z.sub_diag. reflexivity.
Qed.

(** storing the code of a segment *)
Lemma map_upd_ : forall {A B} (f : A -> B) l n x, map f (upd l n x) = upd (map f l) n (f x).
Proof. induction l as [|a l IH]; intros [|n] x; cbn; try reflexivity. rewrite IH. reflexivity. Qed.
Lemma upd_same_ : forall {A} (l : list A) n x, nthZ l (Z.of_nat n) = Some x -> upd l n x = l.
Proof.
  induction l as [|a l IH]; intros [|n] x H; cbn; try reflexivity.
  - unfold nthZ in H. cbn in H. inversion H. reflexivity.
  - f_equal. apply IH. replace (Z.of_nat (S n)) with (Z.of_nat n + 1) in H by lia. rewrite nthZ_cons in H.
    destruct (Z.eqb_spec (Z.of_nat n + 1) 0); [ lia | ]. replace (Z.of_nat n + 1 - 1) with (Z.of_nat n) in H by lia. exact H.
Qed.
Lemma upd_sig : forall T n l d gs, nthZ (map sig T) (Z.of_nat n) = Some (l, d) -> map sig (upd T n (mkSeg l d gs)) = map sig T.
Proof. intros T n l d gs H. rewrite map_upd_. apply upd_same_. exact H. Qed.

Lemma tbl_store : forall F p T n l d gs, tbl F p T -> sub (envp F p T) (Z.of_nat n) l d -> 0 <= l -> 0 <= d -> Forall (grp_ok (envp F p T) l d) gs ->
  exists T', envp F (set_segs (upd (p_segs p) n (code gs)) p) T' = envp F p T /\ tbl F (set_segs (upd (p_segs p) n (code gs)) p) T'.
Proof.
  intros F p T n l d gs [H1 H2 H3] Hs Hl Hd Hg. exists (upd T n (mkSeg l d gs)).
  assert (He : envp F (set_segs (upd (p_segs p) n (code gs)) p) (upd T n (mkSeg l d gs)) = envp F p T).
  { unfold envp. cbn. rewrite (upd_sig _ _ _ _ _ Hs). reflexivity. }
  split; [ exact He | ]. split.
  - cbn [p_segs set_segs]. rewrite map_upd_, H1. reflexivity.
  - rewrite He. apply Forall_upd; [ exact H2 | ]. split; [ exact Hl | split; [ exact Hd | exact Hg ] ].
  - rewrite He. exact H3.
Qed.

(** ** Words *)
Lemma index_range : forall w l i n, index_of w l i = Some n -> i <= n < i + zlen l.
Proof.
  induction l as [|k l IH]; intros i n H; cbn [index_of] in H; [ discriminate | ]. rewrite zlen_cons. pose proof (zlen_nonneg l).
  destruct (String.eqb k w); [ inversion H; lia | ]. apply IH in H. lia.
Qed.
Lemma builtin_code : forall w b, assoc w generic_builtin_words = Some b -> 26 <= b <= 65 /\ (b = 29 -> w = "i") /\ (b = 30 -> w = "j") /\ (b = 31 -> w = "k").
Proof.
  intros w b H. unfold generic_builtin_words in H. cbn [assoc] in H.
  repeat (match type of H with (if String.eqb ?k ?x then _ else _) = _ => destruct (String.eqb_spec k x) as [Ew|_]; [ inversion H; subst; repeat split; intros; try lia; reflexivity | ] end).
  discriminate.
Qed.
Lemma loop_ok : forall w d, loop_index_ok w d = true -> (w = "i" -> 1 <= d) /\ (w = "j" -> 2 <= d) /\ (w = "k" -> 3 <= d).
Proof.
  intros w d H. unfold loop_index_ok in H. apply Bool.negb_true_iff in H. apply Bool.orb_false_iff in H. destruct H as [H H3]. apply Bool.orb_false_iff in H. destruct H as [H1 H2].
  repeat split; intros ->; cbn in *; lia.
Qed.
Lemma assoc_in : forall {A} w (l : list (string * A)) v, assoc w l = Some v -> In (w, v) l.
Proof.
  induction l as [|[k x] l IH]; intros v H; cbn [assoc] in H; [ discriminate | ]. destruct (String.eqb_spec k w); [ inversion H; subst; left; reflexivity | right; auto ].
Qed.
Lemma defs_in : forall w l c, In c (all_defs w l) -> In c (map snd l).
Proof.
  induction l as [|[k x] l IH]; intros c H; cbn [all_defs] in H; [ destruct H | ]. destruct (String.eqb k w); [ destruct H as [H|H]; [ left; exact H | right; auto ] | right; auto ].
Qed.

Lemma is_nbit_pos : forall cs n, is_nbit cs = Ok (Some n) -> 0 < n.
Proof.
  intros cs n H. unfold is_nbit in H. destruct (strip_suffix _ _) as [[|a t]|]; try discriminate.
  destruct (stoi (a :: t)) as [[v|]|e|]; cbn [bind] in H; try discriminate.
  destruct ((0 <? v) && (v <=? 64))%bool eqn:E; inversion H. subst. apply andb_prop in E. lia.
Qed.

Lemma parser_word_ok : forall w bc nb, parser_word w = Ok (Some (bc, nb)) ->
  exists rep be format, bc = read_flags false rep be format /\ In format formats /\ (0 <? nb) = (format =? READ_NBIT) /\ (rep = true -> begins_with_hash w).
Proof.
  intros w bc nb H. unfold parser_word in H. cbv zeta in H.
  assert (Hh : starts_with "#" (list_ascii_of_string w) = true -> begins_with_hash w).
  { destruct w as [|c w]; cbn; [ discriminate | ]. intros E. apply Ascii.eqb_eq in E. exact E. }
  set (rep := starts_with "#" (list_ascii_of_string w)) in *. set (cs1 := strip_char "#" (list_ascii_of_string w)) in *.
  set (be := starts_with "!" cs1) in *. set (cs := strip_char "!" cs1) in *. clearbody rep be cs. clear cs1.
  assert (Hf : forall format, (if rep then 2 else 0) + (if be then 4 else 0) + format = read_flags false rep be format) by (intros; unfold read_flags; destruct rep, be; cbn; lia).
  destruct cs as [|c t]; [ discriminate | ].
  destruct (String.eqb (of_chars (c :: t)) "varint->").
  { inversion H. rewrite Hf. exists rep, be, READ_VARINT. split; [ reflexivity | ]. split; [ unfold formats, READ_VARINT; cbn; tauto | ]. split; [ reflexivity | exact Hh ]. }
  destruct (String.eqb (of_chars (c :: t)) "zigzag->").
  { inversion H. rewrite Hf. exists rep, be, READ_ZIGZAG. split; [ reflexivity | ]. split; [ unfold formats, READ_ZIGZAG; cbn; tauto | ]. split; [ reflexivity | exact Hh ]. }
  destruct (is_nbit (c :: t)) as [[n|]|e|] eqn:En; cbn [bind] in H; try discriminate.
  - inversion H. rewrite Hf. subst. exists rep, be, READ_NBIT. split; [ reflexivity | ]. split; [ unfold formats, READ_NBIT; cbn; tauto | ].
    split; [ | exact Hh ]. apply is_nbit_pos in En. apply Z.ltb_lt in En. rewrite En. reflexivity.
  - destruct (fixed_format c) as [f|] eqn:Ef; [ | discriminate ]. destruct (String.eqb (of_chars t) "->"); [ | discriminate ]. inversion H. rewrite Hf. subst.
    assert (Hfm : In f formats /\ f <> READ_NBIT).
    { unfold fixed_format in Ef. destruct c as [[] [] [] [] [] [] [] []]; try discriminate; inversion Ef; subst; (split; [ unfold formats; cbn; tauto | discriminate ]). }
    exists rep, be, f. split; [ reflexivity | ]. split; [ apply Hfm | ]. split; [ | exact Hh ]. destruct (Z.eqb_spec f READ_NBIT); [ destruct Hfm; congruence | reflexivity ].
Qed.

(** ** Parts of the text *)
Lemma Forall_firstn : forall {A} (P : A -> Prop) n l, Forall P l -> Forall P (firstn n l).
Proof. intros A P n l. revert n. induction l as [|a l IH]; intros [|n] H; cbn; try constructor; inversion H; subst; auto. Qed.
Lemma Forall_skipn : forall {A} (P : A -> Prop) n l, Forall P l -> Forall P (skipn n l).
Proof. intros A P n l. revert n. induction l as [|a l IH]; intros [|n] H; cbn; try assumption; try constructor. inversion H; subst; auto. Qed.
Lemma Forall_skip_line : forall (P : string -> Prop) l, Forall P l -> Forall P (skip_line l).
Proof. induction l as [|a l IH]; intros H; cbn; [ constructor | ]. inversion H; subst. destruct (String.eqb a newline); auto. Qed.
Lemma zlen_firstn_le : forall {A} n (l : list A), zlen (firstn n l) <= zlen l.
Proof. intros. unfold zlen. rewrite firstn_length. lia. Qed.
Lemma zlen_skipn_le : forall {A} n (l : list A), zlen (skipn n l) <= zlen l.
Proof. intros. unfold zlen. rewrite skipn_length. lia. Qed.
Lemma zlen_skip_line_le : forall l, zlen (skip_line l) <= zlen l.
Proof. induction l as [|a l IH]; cbn; [ lia | ]. rewrite zlen_cons. destruct (String.eqb a newline); lia. Qed.

(** ** The parser *)
Definition good_res (F : feats) (l d : Z) (p : pst) (T : list seg) (r : res (list Z * pst)) : Prop :=
  match r with
  | Ok (c', p') => exists gs' T', c' = code gs' /\ tbl F p' T' /\ Forall (grp_ok (envp F p' T') l d) gs' /\ le (envp F p T) (envp F p' T')
  | _ => True
  end.
Lemma good_le : forall F l d p T p1 T1 r, le (envp F p T) (envp F p1 T1) -> good_res F l d p1 T1 r -> good_res F l d p T r.
Proof.
  intros F l d p T p1 T1 r Hle H. destruct r as [[c' p']|e|]; try exact I. destruct H as (gs' & T' & H1 & H2 & H3 & H4).
  exists gs', T'. repeat (split; [ assumption | ]). eapply le_trans; eauto.
Qed.
Lemma code_snoc : forall gs g, code (gs ++ [g]) = code gs ++ flat g.
Proof. intros. rewrite code_app, code_cons, app_nil_r. reflexivity. Qed.

Definition parses (F : feats) (f : nat) : Prop := forall defn ts gs l d p T, tbl F p T -> Forall (grp_ok (envp F p T) l d) gs -> 0 <= l -> 0 <= d ->
  l + zlen ts < 2 ^ 31 -> Forall (allowed F) ts -> good_res F l d p T (parse f defn ts (code gs) l d p).

Section Step.
Variable F : feats.
Variable f : nat.
Hypothesis IH : parses F f.

Lemma go_on : forall defn ts gs g l d p T, tbl F p T -> Forall (grp_ok (envp F p T) l d) gs -> grp_ok (envp F p T) l d g -> 0 <= l -> 0 <= d ->
  l + zlen ts < 2 ^ 31 -> Forall (allowed F) ts -> good_res F l d p T (parse f defn ts (code gs ++ flat g) l d p).
Proof.
  intros. rewrite <- code_snoc. apply IH; try assumption. apply Forall_app. split; [ assumption | constructor; [ assumption | constructor ] ].
Qed.

(** a segment inside a word *)
Lemma new_segment : forall defn bd l d l' d' p T k, tbl F p T -> 0 <= l -> 0 <= d -> 0 <= l' -> 0 <= d' -> l' + zlen bd < 2 ^ 31 -> Forall (allowed F) bd ->
  (forall p1 T1, tbl F p1 T1 -> le (envp F p T) (envp F p1 T1) -> sub (envp F p1 T1) (Z.of_nat (List.length (p_segs p))) l' d' ->
     good_res F l d p1 T1 (k p1)) ->
  good_res F l d p T
    (let* r := parse f defn bd [] l' d' (set_segs (p_segs p ++ [[]]) p) in k (set_segs (upd (p_segs (snd r)) (List.length (p_segs p)) (fst r)) (snd r))).
Proof.
  intros defn bd l d l' d' p T k Ht Hl Hd Hl' Hd' Hb Ha Hk.
  destruct (tbl_placeholder F p T l' d' Ht Hl' Hd') as (Q1 & Q2 & Q3).
  pose proof (IH defn bd [] l' d' _ _ Q1 (Forall_nil _) Hl' Hd' Hb Ha) as HI. change (code []) with (@nil Z) in HI.
  destruct (parse f defn bd [] l' d' (set_segs (p_segs p ++ [[]]) p)) as [[c1 p1]|e|]; cbn [bind]; try exact I.
  destruct HI as (gs1 & T1 & E1 & R1 & R2 & R3). cbn [fst snd]. subst c1.
  pose proof (sub_le _ _ _ _ _ R3 Q3) as Q4.
  destruct (tbl_store F p1 T1 (List.length (p_segs p)) l' d' gs1 R1 Q4 Hl' Hd' R2) as (T2 & S1 & S2).
  eapply good_le; [ | apply Hk; [ exact S2 | | ] ]; rewrite S1; [ eapply le_trans; eauto | eapply le_trans; eauto | exact Q4 ].
Qed.

(** the definition of a word *)
Lemma new_word : forall name bd l d p T k, tbl F p T -> 0 <= l -> 0 <= d -> zlen bd < 2 ^ 31 -> Forall (allowed F) bd ->
  (forall p1 T1, tbl F p1 T1 -> le (envp F p T) (envp F p1 T1) -> good_res F l d p1 T1 (k p1)) ->
  good_res F l d p T
    (let* r := parse f name bd [] 0 0 (set_segs (p_segs p ++ [[]]) (add_dict name (Z.of_nat (List.length (p_segs p)) + BOUND_DICTIONARY) p)) in
     k (set_segs (upd (p_segs (snd r)) (List.length (p_segs p)) (fst r)) (snd r))).
Proof.
  intros name bd l d p T k Ht Hl Hd Hb Ha Hk.
  destruct (tbl_placeholder F p T 0 0 Ht ltac:(lia) ltac:(lia)) as (Q1 & Q2 & Q3).
  set (q := set_segs (p_segs p ++ [[]]) (add_dict name (Z.of_nat (List.length (p_segs p)) + BOUND_DICTIONARY) p)).
  assert (Q5 : tbl F q (T ++ [mkSeg 0 0 []])).
  { destruct Q1 as [Y1 Y2 Y3]. split; [ exact Y1 | exact Y2 | ]. cbn [p_dict set_segs add_dict q] in *. apply Forall_app. split; [ exact Y3 | ].
    constructor; [ | constructor ]. eexists. split; [ reflexivity | exact Q3 ]. }
  pose proof (IH name bd [] 0 0 q _ Q5 (Forall_nil _) ltac:(lia) ltac:(lia) ltac:(lia) Ha) as HI. change (code []) with (@nil Z) in HI.
  destruct (parse f name bd [] 0 0 q) as [[c1 p1]|e|]; cbn [bind]; try exact I.
  destruct HI as (gs1 & T1 & E1 & R1 & R2 & R3). cbn [fst snd]. subst c1.
  pose proof (sub_le _ _ _ _ _ R3 Q3) as Q4.
  destruct (tbl_store F p1 T1 (List.length (p_segs p)) 0 0 gs1 R1 Q4 ltac:(lia) ltac:(lia) R2) as (T2 & S1 & S2).
  eapply good_le; [ | apply Hk; [ exact S2 | ] ]; rewrite S1; eapply le_trans; eauto.
Qed.

(** more names *)
Lemma with_names : forall p p' T l d r, tbl F p T -> p_segs p' = p_segs p -> p_dict p' = p_dict p -> le (envp F p T) (envp F p' T) ->
  (tbl F p' T -> good_res F l d p' T r) -> good_res F l d p T r.
Proof. intros p p' T l d r Ht E1 E2 Hle H. eapply good_le; [ exact Hle | ]. apply H. eapply tbl_names; eauto. Qed.
End Step.

Lemma le_var : forall F p T w, le (envp F p T) (envp F (add_var w p) T).
Proof. intros. unfold le, envp. cbn. rewrite zlen_app, zlen_cons, zlen_nil. repeat (split; [ lia | ]). split; [ exists []; rewrite app_nil_r; reflexivity | auto ]. Qed.
Lemma le_in : forall F p T w, le (envp F p T) (envp F (add_in w p) T).
Proof. intros. unfold le, envp. cbn. rewrite zlen_app, zlen_cons, zlen_nil. repeat (split; [ lia | ]). split; [ exists []; rewrite app_nil_r; reflexivity | auto ]. Qed.
Lemma le_out : forall F p T w t, le (envp F p T) (envp F (add_out w t p) T).
Proof. intros. unfold le, envp. cbn. rewrite zlen_app, zlen_cons, zlen_nil. repeat (split; [ lia | ]). split; [ exists []; rewrite app_nil_r; reflexivity | auto ]. Qed.
Lemma le_string : forall F p T w, le (envp F p T) (envp F (add_string w p) T).
Proof. intros. unfold le, envp. cbn. rewrite zlen_app, zlen_cons, zlen_nil. repeat (split; [ lia | ]). split; [ exists []; rewrite app_nil_r; reflexivity | auto ]. Qed.

Ltac part := repeat first [ apply Forall_firstn | apply Forall_skipn | apply Forall_skip_line ]; assumption.
Ltac short := repeat match goal with
  | |- context [zlen (firstn ?n ?l)] => lazymatch goal with H : zlen (firstn n l) <= zlen l |- _ => fail | _ => pose proof (zlen_firstn_le n l) end
  | H : context [zlen (skipn ?n ?l)] |- _ => lazymatch goal with H : zlen (skipn n l) <= zlen l |- _ => fail | _ => pose proof (zlen_skipn_le n l) end
  | |- context [zlen (skipn ?n ?l)] => lazymatch goal with H : zlen (skipn n l) <= zlen l |- _ => fail | _ => pose proof (zlen_skipn_le n l) end
  | |- context [zlen (skip_line ?l)] => lazymatch goal with H : zlen (skip_line l) <= zlen l |- _ => fail | _ => pose proof (zlen_skip_line_le l) end
  end; lia.

Lemma parse_ok : forall F f, parses F f.
Proof.
  intros F f. induction f as [|f IH]; [ intros defn ts gs l d p T _ _ _ _ _ _; exact I | ].
  intros defn ts gs l d p T Ht Hg Hl Hd Hb Ha. destruct ts as [|w t].
  { cbn [parse good_res]. exists gs, T. split; [ reflexivity | ]. split; [ exact Ht | ]. split; [ exact Hg | apply le_refl ]. }
  inversion Ha as [|? ? Hw Ha' E1]. subst. rewrite zlen_cons in Hb. destruct Hw as (Fe & Fd & Fw & Fr).
  pose proof (zlen_nonneg t) as Hn.
  cbn [parse]. cbv zeta beta.
  destruct (String.eqb w "(").
  { destruct (scan_paren t 0 1); [ | exact I ]. apply IH; auto; [ short | part ]. }
  destruct (String.eqb w (String backslash "")).
  { apply IH; auto; [ short | part ]. }
  destruct (String.eqb w newline).
  { apply IH; auto; short. }
  destruct (String.eqb w "").
  { apply IH; auto; short. }
  destruct (String.eqb w ":").
  { destruct t as [|name t']; [ exact I | ]. inversion Ha' as [|? ? _ Ha2 E1]. subst. rewrite zlen_cons in Hb. pose proof (zlen_nonneg t').
    destruct (String.eqb name ";"); [ exact I | ]. destruct (name_taken p name) as [[]|e|]; cbn [bind]; try exact I.
    destruct (scan_colon t' 0 1) as [i|]; [ | exact I ].
    apply (new_word F f IH name (firstn i t') l d p T (fun p1 => parse f defn (skipn (S i) t') (code gs) l d p1)); auto; [ short | part | ].
    intros p1 T1 Ht1 Hle. apply IH; auto; [ eapply grps_le; eauto | short | part ]. }
  destruct (String.eqb w "recurse").
  { destruct (String.eqb defn ""); [ exact I | ].
    assert (Hds : exists gd, all_defs defn (p_dict p) = code gd /\ Forall (grp_ok (envp F p T) l d) gd).
    { pose proof (y_dict _ _ _ Ht) as Hdict. assert (Hall : Forall (fun c => exists b, c = b + 66 /\ sub (envp F p T) b 0 0) (all_defs defn (p_dict p))).
      { apply Forall_forall. intros c Hc. apply defs_in in Hc. apply in_map_iff in Hc. destruct Hc as (kc & <- & Hkc). rewrite Forall_forall in Hdict. auto. }
      induction Hall as [|c cs (b & -> & Hb2) _ (gd & -> & IHg)]; [ exists []; split; [ reflexivity | constructor ] | ].
      exists (GCall b :: gd). split; [ reflexivity | constructor; [ exact Hb2 | exact IHg ] ]. }
    destruct Hds as (gd & -> & Hgd). rewrite <- code_app. apply IH; auto; [ apply Forall_app; split; assumption | short ]. }
  destruct (String.eqb w "variable").
  { destruct t as [|name t']; [ exact I | ]. inversion Ha' as [|? ? _ Ha2 E1]. subst. rewrite zlen_cons in Hb.
    destruct (name_taken p name) as [[]|e|]; cbn [bind]; try exact I.
    apply (with_names F p (add_var name p) T); auto; [ apply le_var | ]. intros Ht1. apply IH; auto; [ eapply grps_le; [ apply le_var | exact Hg ] | lia ]. }
  destruct (String.eqb w "input").
  { destruct t as [|name t']; [ exact I | ]. inversion Ha' as [|? ? _ Ha2 E1]. subst. rewrite zlen_cons in Hb.
    destruct (name_taken p name) as [[]|e|]; cbn [bind]; try exact I.
    apply (with_names F p (add_in name p) T); auto; [ apply le_in | ]. intros Ht1. apply IH; auto; [ eapply grps_le; [ apply le_in | exact Hg ] | lia ]. }
  destruct (String.eqb w "output").
  { destruct t as [|name [|dt t']]; try exact I. inversion Ha' as [|? ? _ Ha2 E1]. subst. inversion Ha2 as [|? ? _ Ha3 E1]. subst. rewrite !zlen_cons in Hb.
    destruct (name_taken p name) as [[]|e|]; cbn [bind]; try exact I. destruct (assoc dt output_dtype_words) as [ty|]; [ | exact I ].
    apply (with_names F p (add_out name ty p) T); auto; [ apply le_out | ]. intros Ht1. apply IH; auto; [ eapply grps_le; [ apply le_out | exact Hg ] | lia ]. }
  destruct (String.eqb w "halt").
  { apply (go_on F f IH defn t gs (G0 1)); auto; [ left; reflexivity | lia ]. }
  destruct (String.eqb w "pause").
  { apply (go_on F f IH defn t gs (G0 2)); auto; [ right; left; reflexivity | lia ]. }
  destruct (String.eqb w "if").
  { destruct (scan_if t 0 1 None) as [[i [j|]]|]; [ | | exact I ].
    - apply (new_segment F f IH defn (firstn j t) l d (l + 1) d p T (fun p1 =>
         let* r := parse f defn (firstn (i - S j) (skipn (S j) t)) [] (l + 1) d (set_segs (p_segs p1 ++ [[]]) p1) in
         parse f defn (skipn (S i) t) (code gs ++ flat (GIfElse (Z.of_nat (List.length (p_segs p))) (Z.of_nat (List.length (p_segs p1))))) l d
           (set_segs (upd (p_segs (snd r)) (List.length (p_segs p1)) (fst r)) (snd r)))); auto; try lia; [ short | part | ].
      intros p1 T1 Ht1 Hle1 Hs1.
      apply (new_segment F f IH defn (firstn (i - S j) (skipn (S j) t)) l d (l + 1) d p1 T1 (fun p2 =>
         parse f defn (skipn (S i) t) (code gs ++ flat (GIfElse (Z.of_nat (List.length (p_segs p))) (Z.of_nat (List.length (p_segs p1))))) l d p2)); auto; try lia; [ short | part | ].
      intros p2 T2 Ht2 Hle2 Hs2. apply (go_on F f IH); auto; [ eapply grps_le; [ exact (le_trans _ _ _ Hle1 Hle2) | exact Hg ] | split; [ eapply sub_le; eauto | exact Hs2 ] | short | part ].
    - apply (new_segment F f IH defn (firstn i t) l d (l + 1) d p T (fun p1 =>
         parse f defn (skipn (S i) t) (code gs ++ flat (GIf (Z.of_nat (List.length (p_segs p))))) l d p1)); auto; try lia; [ short | part | ].
      intros p1 T1 Ht1 Hle1 Hs1. apply (go_on F f IH); auto; [ eapply grps_le; eauto | short | part ]. }
  destruct (String.eqb_spec w "do") as [Ew|_].
  { destruct (scan_do t 0 1) as [[i st]|]; [ | exact I ].
    apply (new_segment F f IH defn (firstn i t) l d (l + 1) (d + 1) p T (fun p1 =>
       parse f defn (skipn (S i) t) (code gs ++ flat (GDo st (Z.of_nat (List.length (p_segs p))))) l d p1)); auto; try lia; [ short | part | ].
    intros p1 T1 Ht1 Hle1 Hs1. apply (go_on F f IH); auto; [ eapply grps_le; eauto | split; [ exact Hs1 | exact (Fd Ew) ] | short | part ]. }
  destruct (String.eqb w "begin").
  { destruct (scan_begin t 0 1 0 false None) as [[[i again] sw]|]; [ | exact I ]. destruct again; [ | destruct sw as [j|] ].
    - apply (new_segment F f IH defn (firstn i t) l d (l + 1) d p T (fun p1 =>
         parse f defn (skipn (S i) t) (code gs ++ flat (GAgain (Z.of_nat (List.length (p_segs p))))) l d p1)); auto; try lia; [ short | part | ].
      intros p1 T1 Ht1 Hle1 Hs1. apply (go_on F f IH); auto; [ eapply grps_le; eauto | short | part ].
    - apply (new_segment F f IH defn (firstn j t) l d (l + 1) d p T (fun p1 =>
         let* r := parse f defn (firstn (i - S j) (skipn (S j) t)) [] (l + 1) d (set_segs (p_segs p1 ++ [[]]) p1) in
         parse f defn (skipn (S i) t) (code gs ++ flat (GWhile (Z.of_nat (List.length (p_segs p))) (Z.of_nat (List.length (p_segs p1))))) l d
           (set_segs (upd (p_segs (snd r)) (List.length (p_segs p1)) (fst r)) (snd r)))); auto; try lia; [ short | part | ].
      intros p1 T1 Ht1 Hle1 Hs1.
      apply (new_segment F f IH defn (firstn (i - S j) (skipn (S j) t)) l d (l + 1) d p1 T1 (fun p2 =>
         parse f defn (skipn (S i) t) (code gs ++ flat (GWhile (Z.of_nat (List.length (p_segs p))) (Z.of_nat (List.length (p_segs p1))))) l d p2)); auto; try lia; [ short | part | ].
      intros p2 T2 Ht2 Hle2 Hs2. apply (go_on F f IH); auto; [ eapply grps_le; [ exact (le_trans _ _ _ Hle1 Hle2) | exact Hg ] | split; [ eapply sub_le; eauto | exact Hs2 ] | short | part ].
    - apply (new_segment F f IH defn (firstn i t) l d (l + 1) d p T (fun p1 =>
         parse f defn (skipn (S i) t) (code gs ++ flat (GUntil (Z.of_nat (List.length (p_segs p))))) l d p1)); auto; try lia; [ short | part | ].
      intros p1 T1 Ht1 Hle1 Hs1. apply (go_on F f IH); auto; [ eapply grps_le; eauto | short | part ]. }
  destruct (String.eqb_spec w "exit") as [Ew|_].
  { replace (wrapS 32 l) with l by (unfold wrapS; rewrite Z.mod_small by lia; lia).
    apply (go_on F f IH defn t gs (GExit l)); auto; [ split; [ reflexivity | exact (Fe Ew) ] | lia ]. }
  destruct (index_of w (p_vars p) 0) as [n|] eqn:Ev.
  { apply index_range in Ev. destruct t as [|a t']; [ exact I | ]. inversion Ha' as [|? ? _ Ha2 E1]. subst. rewrite zlen_cons in Hb.
    assert (Hc : forall c, 11 <= c <= 13 -> good_res F l d p T (parse f defn t' (code gs ++ [c; n]) l d p)).
    { intros c Hc. apply (go_on F f IH defn t' gs (G1 c n)); auto; [ | lia ]. split; [ unfold operand_in, envp; cbn; lia | lia ]. }
    repeat (match goal with |- context [String.eqb a ?k] => destruct (String.eqb a k); [ apply Hc; unfold CODE_PUT, CODE_INC, CODE_GET; lia | ] end). exact I. }
  destruct (index_of w (p_ins p) 0) as [n|] eqn:Ei.
  { apply index_range in Ei. destruct t as [|a t']; [ exact I | ]. inversion Ha' as [|? ? Haa Ha2 E1]. subst. rewrite zlen_cons in Hb.
    assert (Hc : forall c, 14 <= c <= 18 -> good_res F l d p T (parse f defn t' (code gs ++ [c; n]) l d p)).
    { intros c Hc. apply (go_on F f IH defn t' gs (G1 c n)); auto; [ | lia ]. split; [ unfold operand_in, envp; cbn; lia | lia ]. }
    repeat (match goal with |- context [String.eqb a ?k] => destruct (String.eqb a k); [ apply Hc; unfold CODE_LEN_INPUT, CODE_POS, CODE_END, CODE_SEEK, CODE_SKIP; lia | ] end).
    destruct (parser_word a) as [[[bc nb]|]|e|] eqn:Ep; cbn [bind]; try exact I.
    destruct (parser_word_ok _ _ _ Ep) as (rep & be & format & -> & Hf & Hnb & Hrep). rewrite Hnb.
    destruct t' as [|b t'']; [ exact I | ]. inversion Ha2 as [|? ? _ Ha3 E1]. subst. rewrite zlen_cons in Hb.
    destruct Haa as (_ & _ & _ & Har).
    destruct (String.eqb b "stack").
    - replace (code gs ++ [Z.lnot (read_flags false rep be format); n] ++ (if format =? READ_NBIT then [nb] else []))
        with (code gs ++ flat (GRead false rep be format n nb 0)) by (cbn [flat]; rewrite app_nil_r; reflexivity).
      apply (go_on F f IH); auto; [ | lia ]. split; [ exact Hf | ]. split; [ cbn; lia | ]. split; [ discriminate | ]. intros e. apply Har, Hrep, e.
    - destruct (index_of b (map fst (p_outs p)) 0) as [o|] eqn:Eo; [ | exact I ]. apply index_range in Eo. rewrite zlen_map in Eo.
      replace (read_flags false rep be format + 1) with (read_flags true rep be format) by (unfold read_flags; cbn; lia).
      apply (go_on F f IH defn t'' gs (GRead true rep be format n nb o)); auto; [ | lia ].
      split; [ exact Hf | ]. split; [ cbn; lia | ]. split; [ intros _; cbn; lia | ]. intros e. apply Har, Hrep, e. }
  destruct (index_of w (map fst (p_outs p)) 0) as [n|] eqn:Eo.
  { apply index_range in Eo. rewrite zlen_map in Eo. destruct t as [|a t']; [ exact I | ]. inversion Ha' as [|? ? Haa Ha2 E1]. subst. rewrite zlen_cons in Hb.
    destruct Haa as (_ & _ & Haw & _).
    assert (Hc : forall c ts', 19 <= c <= 23 -> (c = 23 -> a = "rewind") -> l + zlen ts' < 2 ^ 31 -> Forall (allowed F) ts' -> good_res F l d p T (parse f defn ts' (code gs ++ [c; n]) l d p)).
    { intros c ts' Hc Hr Hz Hts. apply (go_on F f IH defn ts' gs (G1 c n)); auto. split; [ unfold operand_in, envp; cbn; lia | ]. intros e. apply Haw, Hr, e. }
    destruct (String.eqb a "<-").
    { destruct t' as [|b t'']; [ exact I | ]. inversion Ha2 as [|? ? _ Ha3 E1]. subst. rewrite zlen_cons in Hb. destruct (String.eqb b "stack"); [ | exact I ]. apply Hc; auto; unfold CODE_WRITE; lia. }
    destruct (String.eqb a "+<-").
    { destruct t' as [|b t'']; [ exact I | ]. inversion Ha2 as [|? ? _ Ha3 E1]. subst. rewrite zlen_cons in Hb. destruct (String.eqb b "stack"); [ | exact I ]. apply Hc; auto; unfold CODE_WRITE_ADD; lia. }
    destruct (String.eqb a "dup"). { apply Hc; auto; unfold CODE_WRITE_DUP; lia. }
    destruct (String.eqb a "len"). { apply Hc; auto; unfold CODE_LEN_OUTPUT; lia. }
    destruct (String.eqb_spec a "rewind"); [ | exact I ]. apply Hc; auto; unfold CODE_REWIND; lia. }
  destruct (String.eqb w s_quote).
  { destruct t as [|a t']; [ exact I | ]. inversion Ha' as [|? ? Haa Ha2 E1]. subst. rewrite zlen_cons in Hb.
    apply (with_names F p (add_string a p) T); auto; [ apply le_string | ]. intros Ht1.
    apply (go_on F f IH defn t' gs (G1 24 (zlen (p_strings p)))); auto; [ eapply grps_le; [ apply le_string | exact Hg ] | | lia ].
    split; [ unfold operand_in; lia | lia ]. }
  destruct (String.eqb w dot_quote).
  { destruct t as [|a t']; [ exact I | ]. inversion Ha' as [|? ? Haa Ha2 E1]. subst. rewrite zlen_cons in Hb.
    apply (with_names F p (add_string a p) T); auto; [ apply le_string | ]. intros Ht1.
    apply (go_on F f IH defn t' gs (G1 25 (zlen (p_strings p)))); auto; [ eapply grps_le; [ apply le_string | exact Hg ] | | lia ].
    split; [ | lia ]. assert (Hz : zlen (p_strings p ++ [a]) = zlen (p_strings p) + 1) by (rewrite zlen_app; reflexivity).
    pose proof (zlen_nonneg (p_strings p)). unfold operand_in, envp. cbn [ns p_strings add_string]. lia. }
  destruct (assoc w generic_builtin_words) as [b|] eqn:Eb.
  { destruct (loop_index_ok w d) eqn:El; [ | exact I ]. apply builtin_code in Eb. destruct Eb as (B0 & B1 & B2 & B3). apply loop_ok in El. destruct El as (L1 & L2 & L3).
    apply (go_on F f IH defn t gs (G0 b)); auto; [ | lia ]. right. right. split; [ exact B0 | ]. split; [ intros e; apply L1, B1, e | ]. split; [ intros e; apply L2, B2, e | intros e; apply L3, B3, e ]. }
  destruct (assoc w (p_dict p)) as [b|] eqn:Ed.
  { apply assoc_in in Ed. pose proof (y_dict _ _ _ Ht) as Hdict. rewrite Forall_forall in Hdict. destruct (Hdict _ Ed) as (k & Ek & Hk). cbn in Ek. subst b.
    apply (go_on F f IH defn t gs (GCall k)); auto. lia. }
  destruct (is_integer w) as [[num|]|e|]; cbn [bind]; try exact I.
  apply (go_on F f IH defn t gs (G1 0 (wrapS 32 num))); auto; [ | lia ]. split; [ left; reflexivity | lia ].
Qed.

(** ** The machine *)
Lemma offsets_first : forall segs s, nthZ (offsets_of segs s) 0 = Some s.
Proof. intros [|c segs] s; reflexivity. Qed.
Lemma offsets_nth : forall segs s b c, nthZ segs b = Some c -> exists a, s <= a /\ nthZ (offsets_of segs s) b = Some a /\ nthZ (offsets_of segs s) (b + 1) = Some (a + zlen c) /\
  forall k x, nthZ c k = Some x -> nthZ (concat segs) (a - s + k) = Some x.
Proof.
  induction segs as [|c0 segs IH]; intros s b c H; [ apply nthZ_Some in H; unfold zlen in H; cbn in H; lia | ].
  pose proof (nthZ_Some _ _ _ H) as Hb. rewrite nthZ_cons in H. cbn [offsets_of concat]. rewrite !nthZ_cons. destruct (Z.eqb_spec b 0) as [->|Hb0].
  - inversion H. subst c0. exists s. split; [ lia | ]. split; [ reflexivity | ]. destruct (Z.eqb_spec (0 + 1) 0); [ lia | ].
    replace (0 + 1 - 1) with 0 by lia. split; [ apply offsets_first | ]. intros k x Hk. replace (s - s + k) with k by lia. rewrite nthZ_app.
    pose proof (nthZ_Some _ _ _ Hk). destruct (Z.ltb_spec k (zlen c)); [ exact Hk | lia ].
  - destruct (IH (s + zlen c0) (b - 1) c H) as (a & A0 & A1 & A2 & A3). pose proof (zlen_nonneg c0). exists a. split; [ lia | ]. split; [ exact A1 | ].
    destruct (Z.eqb_spec (b + 1) 0); [ lia | ]. replace (b + 1 - 1) with (b - 1 + 1) by lia. split; [ exact A2 | ].
    intros k x Hk. pose proof (nthZ_Some _ _ _ Hk). rewrite nthZ_app. destruct (Z.ltb_spec (a - s + k) (zlen c0)); [ lia | ].
    replace (a - s + k - zlen c0) with (a - (s + zlen c0) + k) by lia. apply A3. exact Hk.
Qed.

Lemma compile_tabled : forall F o source ts p m, tokens source = Ok ts -> zlen ts < 2 ^ 31 -> Forall (allowed F) ts -> compile o source = Ok (p, m) ->
  1 <= o_recmax o -> 0 <= o_stackmax o -> exists T, tabled m (envp F p T) T /\ m = machine_of o p.
Proof.
  intros F o source ts p m Hts Hlen Ha Hc Hrec Hst. unfold compile in Hc. rewrite Hts in Hc. cbn [bind] in Hc. unfold compile_tokens in Hc.
  set (p0 := mkPst [] [] [] [] [] [[]]) in *.
  assert (Ht0 : tbl F p0 [mkSeg 0 0 []]).
  { split; [ reflexivity | | constructor ]. constructor; [ | constructor ]. split; [ cbn; lia | split; [ cbn; lia | constructor ] ]. }
  pose proof (parse_ok F (S (List.length ts)) "" ts [] 0 0 p0 _ Ht0 (Forall_nil _) ltac:(lia) ltac:(lia) ltac:(lia) Ha) as HP. change (code []) with (@nil Z) in HP.
  destruct (parse (S (List.length ts)) "" ts [] 0 0 p0) as [[c1 p1]|e|]; cbn [bind] in Hc; try discriminate.
  destruct HP as (gs & T1 & -> & R1 & R2 & R3). inversion Hc. subst p m. cbn [fst snd].
  assert (Hmain : sub (envp F p1 T1) (Z.of_nat 0) 0 0) by (eapply sub_le; [ exact R3 | reflexivity ]).
  destruct (tbl_store F p1 T1 0 0 0 gs R1 Hmain ltac:(lia) ltac:(lia) R2) as (T & S1 & S2).
  set (p := set_segs (upd (p_segs p1) 0 (code gs)) p1) in *. exists T. split; [ | reflexivity ].
  destruct S2 as [Y1 Y2 Y3]. split; try assumption; try reflexivity.
  - intros b sg Hb. assert (Hs : nthZ (p_segs p) b = Some (code (body sg))) by (rewrite Y1, nthZ_map, Hb; reflexivity).
    destruct (offsets_nth _ 0 _ _ Hs) as (a & _ & A1 & A2 & A3). exists a. split; [ split; assumption | ].
    intros k c Hk. cbn [m_code machine_of]. specialize (A3 k c Hk). replace (a - 0 + k) with (a + k) in A3 by lia. exact A3.
  - cbn. rewrite zlen_map. reflexivity.
  - cbn [m_words machine_of]. rewrite Forall_map. eapply Forall_impl; [ | exact Y3 ]. intros kc (b & -> & Hb). replace (b + 66 - 66) with b by lia. exact Hb.
  - rewrite S1. exact Hmain.
Qed.
