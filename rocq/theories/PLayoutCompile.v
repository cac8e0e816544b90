(** The text a LayoutBuilder writes for a Form compiles to the program of the Form's shape *)
From Coq Require Import String.
From Verif Require Import Base BaseLemmas OmapLemmas Content Forms PForms Forth ForthParse PForthSafe4 PForthOut LayoutBuild SpecLayout PLayoutVm PLayoutWord PLayoutTop PLayoutSnap PLayoutMain PLayoutToken PLayoutParse PLayoutNames.
Local Open Scope string_scope.
Local Open Scope list_scope.
Local Open Scope Z_scope.

(** ** Words of the compiled program *)
Definition sg (segs : list (list Z)) (b : Z) (l : list Z) : Prop := 1 <= b /\ nthZ segs b = Some l.
Fixpoint sword (segs : list (list Z)) (s : shape) (b k : Z) : Prop :=
  match s with
  | SNum l => exists b1 b2, sg segs b [0; leaf_state l; 51; 4; 66 + b1; 66 + b2] /\ sg segs b1 [0; 0; 17; 0; Z.lnot (leaf_format l + 1); 0; k]
  | SList _ c => exists b1 b2 b3 b4 cb, (0 <= b2 /\ 0 <= b4 /\ 0 <= cb) /\ sg segs b [0; 2; 52; 3; 66 + b1; 0; 0; 66 + b2; 7]
        /\ sg segs b2 [2; 32; 0; 3; 51; 4; 66 + b3; 66 + b4] /\ sg segs b3 [33; 20; k; 10; 2] /\ sg segs b4 [66 + cb; 46] /\ sword segs c cb (k + 1)
  | SRec _ cs => exists bs, sg segs b (rec_code bs) /\ cs <> [] /\
        (fix go (cs : list shape) (bs : list Z) (k : Z) : Prop :=
           match cs, bs with
           | [], [] => True
           | c :: cs, b :: bs => 0 <= b /\ sword segs c b k /\ go cs bs (k + size c)
           | _, _ => False
           end) cs bs k
  end.
Fixpoint swords (segs : list (list Z)) (cs : list shape) (bs : list Z) (k : Z) : Prop :=
  match cs, bs with
  | [], [] => True
  | c :: cs, b :: bs => 0 <= b /\ sword segs c b k /\ swords segs cs bs (k + size c)
  | _, _ => False
  end.
Lemma sword_rec : forall segs ks cs b k, sword segs (SRec ks cs) b k <-> exists bs, sg segs b (rec_code bs) /\ cs <> [] /\ swords segs cs bs k.
Proof.
  intros segs ks cs b k. cbn [sword].
  assert (E : forall bs k, (fix go (cs : list shape) (bs : list Z) (k : Z) : Prop :=
           match cs, bs with
           | [], [] => True
           | c :: cs, b :: bs => 0 <= b /\ sword segs c b k /\ go cs bs (k + size c)
           | _, _ => False
           end) cs bs k <-> swords segs cs bs k).
  { induction cs as [ | c cs IH ]; intros [ | x bs ] k'; cbn [swords]; try tauto. rewrite IH. tauto. }
  split; intros (bs & A & B & H); exists bs; (split; [ exact A | ]); (split; [ exact B | ]); apply E; exact H.
Qed.

Lemma sg_app : forall S X b l, sg S b l -> sg (S ++ X) b l.
Proof. intros S X b l [ H1 H2 ]. split; [ exact H1 | ]. pose proof (nthZ_Some _ _ _ H2). rewrite nthZ_app. destruct (Z.ltb_spec b (zlen S)); [ exact H2 | lia ]. Qed.
Lemma sword_to : forall S S', (forall b l, sg S b l -> sg S' b l) -> forall s b k, sword S s b k -> sword S' s b k.
Proof.
  intros S S' M. induction s using shape_ind'; intros b k Hw.
  - destruct Hw as (b1 & b2 & A & B). exists b1, b2. auto.
  - destruct Hw as (b1 & b2 & b3 & b4 & cb & P & A & B & C & D & W). exists b1, b2, b3, b4, cb. split; [ exact P | ]. repeat (split; [ apply M; assumption | ]). apply IHs. exact W.
  - rewrite sword_rec in *. destruct Hw as (bs & A & B & W). exists bs. split; [ apply M; exact A | ]. split; [ exact B | ]. clear A B. revert bs k W. induction H as [ | c cs Hc _ IH ]; intros [ | x bs ] k W; cbn [swords] in *; try contradiction; [ exact I | ].
    destruct W as (W0 & W1 & W2). split; [ exact W0 | ]. split; [ apply Hc; exact W1 | apply IH; exact W2 ].
Qed.
Lemma swords_to : forall S S', (forall b l, sg S b l -> sg S' b l) -> forall cs bs k, swords S cs bs k -> swords S' cs bs k.
Proof. intros S S' M. induction cs as [ | c cs IH ]; intros [ | x bs ] k W; cbn [swords] in *; try contradiction; [ exact I | ]. destruct W as (W0 & W1 & W2). split; [ exact W0 | ]. split; [ eapply sword_to; eassumption | apply IH; exact W2 ]. Qed.

Lemma seg_code : forall p b l, nthZ (p_segs p) b = Some l -> code_seg (machine_of vm_options p) b l.
Proof.
  intros p b l H. destruct (offsets_nth _ 0 _ _ H) as (a & _ & A1 & A2 & A3). exists a. split; [ exact A1 | ]. split; [ exact A2 | ]. intros i Hi. destruct (nthZ_lt l i Hi) as (x & Hx). rewrite Hx. specialize (A3 i x Hx). replace (a - 0 + i) with (a + i) in A3 by lia. exact A3.
Qed.
Lemma sword_word : forall p s b k, sword (p_segs p) s b k -> word (machine_of vm_options p) s b k.
Proof.
  intros p. induction s using shape_ind'; intros b k Hw.
  - destruct Hw as (b1 & b2 & [ _ A ] & [ _ B ]). exists b1, b2. split; apply seg_code; assumption.
  - destruct Hw as (b1 & b2 & b3 & b4 & cb & P & [ _ A ] & [ _ B ] & [ _ C ] & [ _ D ] & W). exists b1, b2, b3, b4, cb. split; [ exact P | ]. repeat (split; [ apply seg_code; assumption | ]). apply IHs. exact W.
  - rewrite sword_rec in Hw. rewrite word_rec. destruct Hw as (bs & [ _ A ] & B & W). exists bs. split; [ apply seg_code; exact A | ]. split; [ exact B | ]. clear A B. revert bs k W. induction H as [ | c cs Hc _ IH ]; intros [ | x bs ] k W; cbn [swords words] in *; try contradiction; [ exact I | ].
    destruct W as (W0 & W1 & W2). split; [ exact W0 | ]. split; [ apply Hc; exact W1 | apply IH; exact W2 ].
Qed.

(** ** One builder's text *)
Definition outs_good (O : list (string * odtype)) : Prop := Forall plain_out (map fst O) /\ NoDup (map fst O) /\ Forall free (map fst O).
Definition oname (ks : list string) (x : string) : Prop := exists key suf, In key ks /\ In suf ["-data"; "-offsets"] /\ plain_key key = true /\ x = "part0-" +++ (key +++ suf).
Definition wname (ks : list string) (x : string) : Prop := exists key suf, In key ks /\ In suf suffixes /\ plain_key key = true /\ x = key +++ suf.
Definition D_out (D : list (string * Z)) (ks : list string) : Prop := Forall (fun kv => exists key suf, ~ In key ks /\ In suf suffixes /\ plain_key key = true /\ fst kv = key +++ suf) D.
Definition D_in (D : list (string * Z)) (ks : list string) : Prop := Forall (fun kv => wname ks (fst kv)) D.
Definition strings (ST : list string) (S : list (list Z)) : pst := mkPst ["err"] ["data"] [] [] ST S.
Definition declared (O : list (string * odtype)) (ST : list string) (S : list (list Z)) : pst := mkPst ["err"] ["data"] O [] ST S.
Definition pushes (te : list string) (most : Z) : Prop := forall ST S, exists E txts, zlen E <= most /\ goes "" 0 te (concat (map (fun i => [24; i]) E)) (strings ST S) (strings (ST ++ txts) S).
Definition declares (to : list string) (ks names : list string) (ts : list odtype) : Prop := forall O ST S, Forall (fun x => ~ oname ks x) (map fst O) ->
  goes "" 0 to [] (declared O ST S) (declared (O ++ combine names ts) ST S).
Definition at_outs (O : list (string * odtype)) (k : Z) (names : list string) : Prop := forall i, 0 <= i < zlen names -> nthZ (map fst O) (k + i) = nthZ names i.
Definition defines (tf : list string) (ks names : list string) (name : string) (s : shape) : Prop := forall O ST k D S, outs_good O -> at_outs O k names -> 0 <= k -> D_out D ks -> 1 <= zlen S ->
  exists D' S' b, goes "" 0 tf [] (E O ST D S) (E O ST (D ++ D') (S ++ S')) /\ D_in D' ks /\ assoc name (D ++ D') = Some (66 + b) /\ 0 <= b /\ sword (S ++ S') s b k.
Definition starts (tr : list string) (names : list string) (code : Z -> list Z) : Prop := forall O ST k D S, outs_good O -> at_outs O k names -> 0 <= k -> D_free D -> goes "" 0 tr (code k) (E O ST D S) (E O ST D S).

Record piece (s : shape) (n : node) (t : vmtext) (ks : list string) : Prop := mkPiece {
  pc_looks : looks s n;
  pc_err : exists te, reads "" (v_error t) te "" /\ pushes te (nodes s);
  pc_out : exists to, reads "" (v_output t) to "" /\ declares to ks (node_outs n) (types s);
  pc_names : Forall (oname ks) (node_outs n);
  pc_distinct : NoDup (node_outs n);
  pc_name : wname ks (v_name t);
  pc_func : exists tf, reads "" (v_func t) tf "" /\ defines tf ks (node_outs n) (v_name t) s;
  pc_from : exists tr, reads "" (v_from t) tr "" /\ starts tr (node_outs n) (from_code s) }.

Lemma g_string : forall a ST S, goes "" 0 [s_quote; a] [24; zlen ST] (strings ST S) (strings (ST ++ [a]) S).
Proof. intros. apply goes_step; [ | cbn; lia ]. intros f rest code. reflexivity. Qed.
Lemma reads_error : forall c t, textc c = true -> is_blank c = false -> is_newline c = false -> forallb textc (la t) = true -> reads "" ("s" +++ qt +++ " " +++ String c t +++ qt +++ nl) [s_quote; String c t; nl] "".
Proof.
  intros c t H1 H2 H3 H4. replace ("s" +++ qt +++ " " +++ String c t +++ qt +++ nl) with (("s" +++ qt +++ " " +++ String c t +++ qt) +++ nl) by (rewrite !app_assoc_s; reflexivity).
  change [s_quote; String c t; nl] with ([s_quote; String c t] ++ [nl]). eapply reads_app; [ apply reads_quoted; assumption | apply reads_empty_line ].
Qed.
Lemma pushes_one : forall a m, 1 <= m -> pushes [s_quote; a; nl] m.
Proof.
  intros a m Hm ST S. exists [zlen ST], [a]. split; [ change (zlen [zlen ST]) with 1; lia | ]. change [s_quote; a; nl] with ([s_quote; a] ++ [nl]). change (concat (map (fun i => [24; i]) [zlen ST])) with ([24; zlen ST] ++ []). eapply goes_app; [ apply g_string | apply g_nl ].
Qed.
Lemma pushes_app : forall a b m n, pushes a m -> pushes b n -> pushes (a ++ b) (m + n).
Proof.
  intros a b m n A B ST S. destruct (A ST S) as (E1 & t1 & L1 & G1). destruct (B (ST ++ t1) S) as (E2 & t2 & L2 & G2). exists (E1 ++ E2), (t1 ++ t2). split; [ rewrite zlen_app; lia | ]. rewrite map_app, concat_app, app_assoc. eapply goes_app; eassumption.
Qed.

Lemma two_suffixes : forall suf, In suf ["-data"; "-offsets"] -> In suf suffixes.
Proof. intros suf [ <- | [ <- | [ ] ] ]; cbn; auto. Qed.
Lemma oname_free : forall ks x, oname ks x -> free x /\ plain_out x /\ String.eqb x "err" = false /\ String.eqb x "data" = false /\ String.eqb x "stack" = false /\ wordy x = true /\ x <> "".
Proof.
  intros ks x (key & suf & _ & HS & HP & ->). destruct (plain_stem _ HP) as [ ST _ ]. apply two_suffixes in HS. rewrite <- app_assoc_s. pose proof (stem_part0 _ ST) as ST2. split; [ apply name_free; assumption | ].
  split; [ rewrite app_assoc_s; apply part0_out | ]. destruct (name_kw ("part0-" +++ key) suf HS) as (A & B & C). destruct (name_wordy _ _ ST2 HS). auto.
Qed.
Lemma wname_free : forall ks x, wname ks x -> free x /\ String.prefix "part0-" x = false /\ String.eqb x "err" = false /\ String.eqb x "data" = false /\ wordy x = true /\ x <> "".
Proof.
  intros ks x (key & suf & _ & HS & HP & ->). destruct (plain_stem _ HP) as [ ST _ ]. split; [ apply name_free; assumption | ]. split; [ apply name_part0; assumption | ]. destruct (name_kw key suf HS) as (A & B & C). destruct (name_wordy _ _ ST HS). auto.
Qed.

(** declaring one output *)
Lemma g_output : forall O ST S ks x dt ty, oname ks x -> Forall (fun y => ~ oname ks y) (map fst O) -> assoc dt output_dtype_words = Some ty -> goes "" 0 ["output"; x; dt; nl] [] (declared O ST S) (declared (O ++ [(x, ty)]) ST S).
Proof.
  intros O ST S ks x dt ty HX HO HT. change ["output"; x; dt; nl] with (["output"; x; dt] ++ [nl]). change (@nil Z) with (@nil Z ++ @nil Z). eapply goes_app; [ | apply g_nl ]. apply goes_step; [ | cbn; lia ]. intros f rest code. cbn [app parse String.eqb Ascii.eqb Bool.eqb].
  destruct (oname_free _ _ HX) as (F & _ & N1 & N2 & _).
  assert (T : name_taken (declared O ST S) x = Ok false).
  { unfold name_taken. cbn [p_ins p_outs p_vars p_dict declared map]. assert (MO : mem x (map fst O) = false).
    { destruct (mem x (map fst O)) eqn:EM; [ | reflexivity ]. exfalso. unfold mem in EM. apply existsb_exists in EM. destruct EM as (y & Hy & Ey). apply String.eqb_eq in Ey. subst y. rewrite Forall_forall in HO. apply (HO _ Hy). exact HX. }
    rewrite MO. unfold mem. cbn [existsb]. rewrite N1, N2. cbn [orb]. destruct F as [ -> -> ]. reflexivity. }
  rewrite T. cbn [bind]. rewrite HT. rewrite app_nil_r. reflexivity.
Qed.

Lemma D_free_out : forall D ks, D_out D ks -> D_free D.
Proof. intros D ks H. unfold D_free. eapply Forall_impl; [ | exact H ]. intros kv (key & suf & _ & HS & HP & ->). destruct (plain_stem _ HP) as [ ST _ ]. apply (name_free _ _ ST HS). Qed.
Lemma D_free_in : forall D ks, D_in D ks -> D_free D.
Proof. intros D ks H. unfold D_free. eapply Forall_impl; [ | exact H ]. intros kv HW. apply (wname_free _ _ HW). Qed.
Lemma D_fresh : forall D ks x, D_out D ks -> wname ks x -> mem x (map fst D) = false.
Proof.
  intros D ks x H (key & suf & HI & HS & HP & ->). destruct (mem (key +++ suf) (map fst D)) eqn:EM; [ | reflexivity ]. exfalso. unfold mem in EM. apply existsb_exists in EM. destruct EM as (y & Hy & Ey). apply String.eqb_eq in Ey. subst y.
  apply in_map_iff in Hy. destruct Hy as (kv & E1 & E2). unfold D_out in H. rewrite Forall_forall in H. destruct (H _ E2) as (k2 & s2 & NI & HS2 & _ & E3). rewrite E1 in E3. destruct (name_inj _ _ _ _ HS HS2 E3) as [ _ -> ]. contradiction.
Qed.
Lemma assoc_fresh : forall (D : list (string * Z)) x v, mem x (map fst D) = false -> assoc x (D ++ [(x, v)]) = Some v.
Proof.
  induction D as [ | [ k w ] D IH ]; intros x v H; [ cbn; rewrite String.eqb_refl; reflexivity | ]. unfold mem in H. cbn [map fst existsb] in H. apply orb_false_iff in H. destruct H as [ H1 H2 ]. cbn [app assoc]. rewrite String.eqb_sym, H1. apply IH. exact H2.
Qed.
Lemma assoc_more : forall (D D' : list (string * Z)) x v, assoc x D = Some v -> assoc x (D ++ D') = Some v.
Proof. induction D as [ | [ k w ] D IH ]; intros D' x v H; [ discriminate | ]. cbn [app assoc] in *. destruct (String.eqb k x); [ exact H | apply IH; exact H ]. Qed.
Lemma D_app : forall D D' ks ks', D_out D ks' -> D_in D' ks -> (forall x, In x ks -> ~ In x ks') -> D_out (D ++ D') ks'.
Proof.
  intros D D' ks ks' H1 H2 HD. apply Forall_app. split; [ exact H1 | ]. eapply Forall_impl; [ | exact H2 ]. intros kv (key & suf & A & B & C & F). exists key, suf. auto.
Qed.
Lemma D_out_less : forall D ks ks', D_out D ks -> incl ks' ks -> D_out D ks'.
Proof. intros D ks ks' H HI. eapply Forall_impl; [ | exact H ]. intros kv (key & suf & A & B). exists key, suf. split; [ intros X; apply A, HI, X | exact B ]. Qed.
Lemma D_in_more : forall D ks ks', D_in D ks -> incl ks ks' -> D_in D ks'.
Proof. intros D ks ks' H HI. eapply Forall_impl; [ | exact H ]. intros kv (key & suf & A & B). exists key, suf. split; [ apply HI, A | exact B ]. Qed.
Lemma D_free_app : forall D D', D_free D -> D_free D' -> D_free (D ++ D').
Proof. intros. apply Forall_app. split; assumption. Qed.

Ltac lit := change (wrapS 32 0) with 0; change (wrapS 32 1) with 1; change (wrapS 32 2) with 2; change (wrapS 32 3) with 3; change (wrapS 32 4) with 4.
Lemma n0 : number "0" 0. Proof. repeat split. Qed.
Lemma n1 : number "1" 1. Proof. repeat split. Qed.
Lemma n2 : number "2" 2. Proof. repeat split. Qed.
Lemma n3 : number "3" 3. Proof. repeat split. Qed.
Lemma n4 : number "4" 4. Proof. repeat split. Qed.

(** ** Numbers *)
Lemma goes_to : forall d ed ts c p p' ts' c', goes d ed ts c p p' -> ts = ts' -> c = c' -> goes d ed ts' c' p p'.
Proof. intros; subst; assumption. Qed.
Ltac kn := eapply reads_app; [ apply known_ok; [ reflexivity | match goal with |- known ?w ?s = _ => let r := eval vm_compute in (known w s) in exact (eq_refl r) end ] | ].
Ltac kn_last := apply known_ok; [ reflexivity | match goal with |- known ?w ?s = _ => let r := eval vm_compute in (known w s) in exact (eq_refl r) end ].
Ltac wd H := eapply reads_app; [ apply reads_word; exact H | ].
Ltac eol H1 H2 := eapply reads_app; [ apply reads_eol; [ exact H2 | exact H1 ] | ].
Lemma reads_sp : forall w s ts w', wordy w = true -> w <> "" -> reads "" s ts w' -> reads w (String " " s) (w :: ts) w'.
Proof. intros w s ts w' H1 H2 H. change (String " " s) with (" " +++ s). change (w :: ts) with ([w] ++ ts). eapply reads_app; [ apply reads_blank; assumption | exact H ]. Qed.
Ltac sp H1 H2 := eapply reads_app; [ apply reads_sp; [ exact H1 | exact H2 | kn_last ] | ].
Ltac seqg := eapply goes_app.
Ltac each_token := let w := fresh "w" in let Hw := fresh "Hw" in intros w Hw; cbn [In app] in Hw;
  repeat (destruct Hw as [ Hw | Hw ]; [ subst w; first [ repeat split; reflexivity | repeat split; (eapply mem_eqb; [ eassumption | cbn; tauto ]) ] | ]); contradiction.

Lemma nth_outs : forall O k names i x, at_outs O k names -> nthZ names i = Some x -> nthZ (map fst O) (k + i) = Some x.
Proof. intros O k names i x H N. pose proof (nthZ_Some _ _ _ N). rewrite H by lia. exact N. Qed.
Lemma sg_last : forall S l X, 1 <= zlen S -> sg (S ++ l :: X) (zlen S) l.
Proof. intros S l X H. split; [ exact H | ]. rewrite nthZ_app. destruct (Z.ltb_spec (zlen S) (zlen S)); [ lia | ]. rewrite Z.sub_diag. reflexivity. Qed.
Lemma sg_past : forall S x X i l, 1 <= zlen S -> 0 <= i -> nthZ X i = Some l -> sg (S ++ x :: X) (zlen S + 1 + i) l.
Proof. intros S x X i l H Hi N. split; [ lia | ]. rewrite nthZ_app. destruct (Z.ltb_spec (zlen S + 1 + i) (zlen S)); [ lia | ]. rewrite nthZ_cons. destruct (Z.eqb_spec (zlen S + 1 + i - zlen S) 0); [ lia | ]. replace (zlen S + 1 + i - zlen S - 1) with i by lia. exact N. Qed.

Definition state_word (l : leaf) : string := match l with LInt => "0" | LReal => "1" | LBool => "4" end.
Definition read_word (l : leaf) : string := match l with LInt => "q->" | LReal => "d->" | LBool => "?->" end.
Lemma num_body : forall l d O ST D S out k w v, outs_good O -> nthZ (map fst O) k = Some out -> String.eqb out "stack" = false -> D_free D -> number w v ->
  goes d 0 [nl; state_word l; "="; "if"; nl; "0"; "data"; "seek"; nl; "data"; read_word l; out; nl; "else"; nl; w; "err"; "!"; "err"; "@"; "halt"; nl; "then"; nl]
    [0; leaf_state l; 51; 4; zlen S + 66; zlen S + 1 + 66] (E O ST D S) (E O ST D (S ++ [[0; 0; 17; 0; Z.lnot (leaf_format l + 1); 0; k]; [0; wrapS 32 v; CODE_PUT; 0; CODE_GET; 0; CODE_HALT]])).
Proof.
  intros l d O ST D S out k w v (G1 & G2 & G3) N NS DF HW.
  assert (FO : free out) by (rewrite Forall_forall in G3; apply G3; eapply nthZ_In; exact N). destruct (free_mem _ FO) as (MO & _). pose proof HW as (MW & _).
  eapply goes_to with (ts := [nl] ++ [state_word l] ++ ["="] ++ ("if" :: [nl; "0"; "data"; "seek"; nl; "data"; read_word l; out; nl] ++ "else" :: [nl; w; "err"; "!"; "err"; "@"; "halt"; nl] ++ ["then"]) ++ [nl]); [ | reflexivity | ].
  - seqg; [ apply g_nl | ]. seqg; [ apply (g_int O ST G1 _ _ _ _ _ (leaf_state l)); [ destruct l; [ apply n0 | apply n1 | apply n4 ] | exact DF ] | ]. seqg; [ apply g_builtin; [ exact G1 | cbn; auto ] | ].
    seqg; [ | apply g_nl ]. apply g_if_else.
    + destruct l; each_token.
    + each_token.
    + intros S'. eapply goes_to with (ts := [nl] ++ ["0"] ++ ["data"; "seek"] ++ [nl] ++ ["data"; read_word l; out] ++ [nl]); [ | reflexivity | ].
      * seqg; [ apply g_nl | ]. seqg; [ apply (g_int O ST G1); [ apply n0 | exact DF ] | ]. seqg; [ apply g_seek | ]. seqg; [ apply g_nl | ]. seqg; [ apply (g_read O ST G2 _ _ _ _ _ k _ (leaf_format l)); [ exact N | destruct l; cbn; auto | exact NS ] | apply g_nl ].
      * reflexivity.
    + intros S'. eapply goes_to with (ts := [nl] ++ [w] ++ ["err"; "!"] ++ ["err"; "@"] ++ ["halt"] ++ [nl]); [ | reflexivity | ].
      * seqg; [ apply g_nl | ]. seqg; [ apply (g_int O ST G1); [ exact HW | exact DF ] | ]. seqg; [ apply g_put | ]. seqg; [ apply g_get | ]. seqg; [ apply g_halt | apply g_nl ].
      * cbn [app]. reflexivity.
  - cbn [app]. destruct l; reflexivity.
Qed.

Lemma piece_num : forall l key e st, plain_key key = true -> (e <= 300)%nat -> dtype_to_state (leaf_prim l) = Some st ->
  piece (SNum l) (NNumpy (out_name key "data") (leaf_prim l)) (numpy_text key (leaf_prim l) st e) [key].
Proof.
  intros l key e st HP He HST. destruct (small_numbers e He) as (W1 & W2 & v & NV).
  assert (HO : oname [key] (out_name key "data")) by (exists key, "-data"; split; [ left; reflexivity | ]; split; [ left; reflexivity | ]; split; [ exact HP | reflexivity ]).
  assert (HW : wname [key] (v_name (numpy_text key (leaf_prim l) st e))).
  { exists key, (match l with LInt => "-int64" | LReal => "-float64" | LBool => "-bool" end). split; [ left; reflexivity | ]. split; [ destruct l; cbn; auto 10 | ]. split; [ exact HP | destruct l; reflexivity ]. }
  destruct (oname_free _ _ HO) as (OF & OP & O1 & O2 & O3 & O4 & O5). destruct (wname_free _ _ HW) as (WF & WP & X1 & X2 & X3 & X4).
  split.
  - apply looks_num.
  - destruct l; (eexists; split; [ | apply pushes_one; cbn; lia ]); [ exact (reads_error "N" "umpyForm builder accepts only int64" eq_refl eq_refl eq_refl eq_refl) | exact (reads_error "N" "umpyForm builder accepts only float64" eq_refl eq_refl eq_refl eq_refl) | exact (reads_error "N" "umpyForm builder accepts only bool" eq_refl eq_refl eq_refl eq_refl) ].
  - exists ["output"; out_name key "data"; dtype_to_name (leaf_prim l); nl]. split.
    + change ["output"; out_name key "data"; dtype_to_name (leaf_prim l); nl] with (["output"] ++ [] ++ [out_name key "data"] ++ [dtype_to_name (leaf_prim l); nl]). cbn [v_output numpy_text]. kn. wd O4. eapply reads_app; [ apply reads_blank; [ exact O5 | exact O4 ] | ]. destruct l; kn_last.
    + intros O ST S HF. cbn [node_outs types combine]. apply (g_output O ST S [key]); [ exact HO | exact HF | destruct l; reflexivity ].
  - constructor; [ exact HO | constructor ].
  - constructor; [ intros [ ] | constructor ].
  - exact HW.
  - set (name := v_name (numpy_text key (leaf_prim l) st e)) in *. set (out := out_name key "data") in *.
    exists ([":"; name; nl; state_word l; "="; "if"; nl; "0"; "data"; "seek"; nl; "data"; read_word l; out; nl; "else"; nl; to_string e; "err"; "!"; "err"; "@"; "halt"; nl; "then"; nl; ";"; nl]). split.
    + change (v_func (numpy_text key (leaf_prim l) st e)) with (": " +++ name +++ nl +++ to_string st +++ " = if" +++ nl +++ "0 data seek" +++ nl +++ "data " +++ dtype_to_vm_format (leaf_prim l) +++ "-> " +++ out +++ nl +++ "else" +++ nl
        +++ to_string e +++ " err ! err @ halt" +++ nl +++ "then" +++ nl +++ ";" +++ nl).
      assert (R : exists ts, reads "" (": " +++ name +++ nl +++ to_string st +++ " = if" +++ nl +++ "0 data seek" +++ nl +++ "data " +++ dtype_to_vm_format (leaf_prim l) +++ "-> " +++ out +++ nl +++ "else" +++ nl
        +++ to_string e +++ " err ! err @ halt" +++ nl +++ "then" +++ nl +++ ";" +++ nl) ts "" /\ ts = [":"; name; nl; state_word l; "="; "if"; nl; "0"; "data"; "seek"; nl; "data"; read_word l; out; nl; "else"; nl; to_string e; "err"; "!"; "err"; "@"; "halt"; nl; "then"; nl; ";"; nl]).
      { clearbody name out. destruct l; injection HST as <-; (eexists; split; [ kn; wd X3; eol X3 X4; kn; kn; kn; kn; kn; kn; kn; kn; wd O4; eol O4 O5; kn; kn; wd W1; sp W1 W2; kn; kn; kn; kn; kn_last | reflexivity ]). }
      destruct R as (ts & R & ->). exact R.
    + intros O ST k D S HO1 HA Hk HD HS. pose proof (D_free_out _ _ HD) as DF. cbn [node_outs] in HA.
      assert (N : nthZ (map fst O) k = Some out) by (rewrite <- (Z.add_0_r k); apply (nth_outs _ _ _ 0 _ HA); reflexivity).
      exists [(name, zlen S + 66)], [[0; leaf_state l; 51; 4; zlen S + 1 + 66; zlen S + 1 + 1 + 66]; [0; 0; 17; 0; Z.lnot (leaf_format l + 1); 0; k]; [0; wrapS 32 v; CODE_PUT; 0; CODE_GET; 0; CODE_HALT]], (zlen S).
      split; [ | split; [ constructor; [ exact HW | constructor ] | split; [ rewrite assoc_fresh by (eapply D_fresh; eassumption); f_equal; lia | split; [ lia | ] ] ] ].
      * eapply goes_to with (ts := (":" :: name :: [nl; state_word l; "="; "if"; nl; "0"; "data"; "seek"; nl; "data"; read_word l; out; nl; "else"; nl; to_string e; "err"; "!"; "err"; "@"; "halt"; nl; "then"; nl] ++ [";"]) ++ [nl]) (c := [] ++ []); [ | reflexivity | reflexivity ].
        seqg; [ | apply g_nl ]. pose proof NV as (MW & _). destruct (free_mem _ OF) as (MO & _). apply g_colon; [ apply HO1 | destruct l; each_token | exact WF | exact X1 | exact X2 | exact WP | eapply D_fresh; eassumption | ].
        intros S' HS'. eapply goes_to; [ apply (num_body l name O ST _ S' out k (to_string e) v HO1 N O3); [ apply D_free_app; [ exact DF | constructor; [ apply WF | constructor ] ] | exact NV ] | reflexivity | rewrite HS'; reflexivity ].
      * exists (zlen S + 1 + 0), (zlen S + 1 + 1). split; [ | apply sg_past; [ exact HS | lia | reflexivity ] ]. replace (66 + (zlen S + 1 + 0)) with (zlen S + 1 + 66) by lia. replace (66 + (zlen S + 1 + 1)) with (zlen S + 1 + 1 + 66) by lia. apply sg_last. exact HS.
  - exists []. split; [ apply reads_nil | ]. intros O ST k D S _ _ _ _. apply goes_nil.
Qed.

(** ** Lists *)
Lemma goes_app0 : forall d ed a p p1 b p2, goes d ed a [] p p1 -> goes d ed b [] p1 p2 -> goes d ed (a ++ b) [] p p2.
Proof. intros d ed a p p1 b p2 A B. exact (goes_app d ed a [] p p1 b [] p2 A B). Qed.
Definition err_code (v : Z) : list Z := [0; wrapS 32 v; CODE_PUT; 0; CODE_GET; 0; CODE_HALT].
Lemma g_raise : forall d ed O ST D S w v, outs_good O -> D_free D -> number w v -> goes d ed [nl; w; "err"; "!"; "err"; "@"; "halt"; nl] (err_code v) (E O ST D S) (E O ST D S).
Proof.
  intros d ed O ST D S w v (G1 & _ & _) DF HW. eapply goes_to with (ts := [nl] ++ [w] ++ ["err"; "!"] ++ ["err"; "@"] ++ ["halt"] ++ [nl]); [ | reflexivity | ].
  - seqg; [ apply g_nl | ]. seqg; [ apply (g_int O ST G1); [ exact HW | exact DF ] | ]. seqg; [ apply g_put | ]. seqg; [ apply g_get | ]. seqg; [ apply g_halt | apply g_nl ].
  - reflexivity.
Qed.
Lemma list_body : forall d O ST D S out k w v cn cb, outs_good O -> nthZ (map fst O) k = Some out -> D_free D -> number w v -> String.eqb out "err" = false -> String.eqb out "data" = false ->
  free cn -> String.eqb cn "err" = false -> String.eqb cn "data" = false -> String.prefix "part0-" cn = false -> assoc cn D = Some (66 + cb) ->
  goes d 0 [nl; "2"; "<>"; "if"; nl; w; "err"; "!"; "err"; "@"; "halt"; nl; "then"; nl; nl; "0"; nl; "begin"; nl; "pause"; nl; "dup"; "3"; "="; "if"; nl; "drop"; nl; out; "+<-"; "stack"; nl; "exit"; nl; "else"; nl; cn; nl; "1+"; nl; "then"; nl; "again"; nl]
    [0; 2; 52; 3; zlen S + 66; 0; 0; zlen S + 1 + 66; 7] (E O ST D S)
    (E O ST D (S ++ [err_code v; [2; 32; 0; 3; 51; 4; zlen S + 2 + 66; zlen S + 3 + 66]; [33; 20; k; 10; 2]; [66 + cb; 46]])).
Proof.
  intros d O ST D S out k w v cn cb (G1 & G2 & G3) N DF HW O1 O2 CF C1 C2 CP CA.
  assert (FO : free out) by (rewrite Forall_forall in G3; apply G3; eapply nthZ_In; exact N). destruct (free_mem _ FO) as (MO & _). destruct (free_mem _ CF) as (MC & _). pose proof HW as (MW & _).
  eapply goes_to with (ts := [nl] ++ ["2"] ++ ["<>"] ++ ("if" :: [nl; w; "err"; "!"; "err"; "@"; "halt"; nl] ++ ["then"]) ++ [nl] ++ [nl] ++ ["0"] ++ [nl] ++
    ("begin" :: [nl; "pause"; nl; "dup"; "3"; "="; "if"; nl; "drop"; nl; out; "+<-"; "stack"; nl; "exit"; nl; "else"; nl; cn; nl; "1+"; nl; "then"; nl] ++ ["again"]) ++ [nl]); [ | reflexivity | ].
  - seqg; [ apply g_nl | ]. seqg; [ apply (g_int O ST G1); [ apply n2 | exact DF ] | ]. seqg; [ apply g_builtin; [ exact G1 | cbn; auto 10 ] | ].
    seqg; [ apply g_if; [ each_token | intros S'; apply g_raise; [ split; [ exact G1 | split; assumption ] | exact DF | exact HW ] ] | ].
    seqg; [ apply g_nl | ]. seqg; [ apply g_nl | ]. seqg; [ apply (g_int O ST G1); [ apply n0 | exact DF ] | ]. seqg; [ apply g_nl | ]. seqg; [ | apply g_nl ].
    replace (S ++ [err_code v; [2; 32; 0; 3; 51; 4; zlen S + 2 + 66; zlen S + 3 + 66]; [33; 20; k; 10; 2]; [66 + cb; 46]]) with ((S ++ [err_code v]) ++ [2; 32; 0; 3; 51; 4; zlen S + 2 + 66; zlen S + 3 + 66] :: [[33; 20; k; 10; 2]; [66 + cb; 46]]) by (rewrite <- app_assoc; reflexivity).
    apply g_begin; [ each_token | ]. intros S' HS'.
    eapply goes_to with (ts := [nl] ++ ["pause"] ++ [nl] ++ ["dup"] ++ ["3"] ++ ["="] ++ ("if" :: [nl; "drop"; nl; out; "+<-"; "stack"; nl; "exit"; nl] ++ "else" :: [nl; cn; nl; "1+"; nl] ++ ["then"]) ++ [nl]); [ | reflexivity | ].
    + seqg; [ apply g_nl | ]. seqg; [ apply g_pause | ]. seqg; [ apply g_nl | ]. seqg; [ apply g_builtin; [ exact G1 | cbn; auto 10 ] | ]. seqg; [ apply (g_int O ST G1); [ apply n3 | exact DF ] | ]. seqg; [ apply g_builtin; [ exact G1 | cbn; auto 10 ] | ]. seqg; [ | apply g_nl ].
      apply g_if_else; [ each_token | each_token | | ].
      * intros S2. eapply goes_to with (ts := [nl] ++ ["drop"] ++ [nl] ++ [out; "+<-"; "stack"] ++ [nl] ++ ["exit"] ++ [nl]); [ | reflexivity | ].
        { seqg; [ apply g_nl | ]. seqg; [ apply g_builtin; [ exact G1 | cbn; auto 10 ] | ]. seqg; [ apply g_nl | ]. seqg; [ apply (g_out O ST G2 G3 _ _ _ _ _ k _ CODE_WRITE_ADD); [ exact N | exact O1 | exact O2 | cbn; auto 10 ] | ]. seqg; [ apply g_nl | ]. seqg; [ apply g_exit | apply g_nl ]. }
        reflexivity.
      * intros S2. eapply goes_to with (ts := [nl] ++ [cn] ++ [nl] ++ ["1+"] ++ [nl]); [ | reflexivity | ].
        { seqg; [ apply g_nl | ]. seqg; [ apply (g_call O ST G1); eassumption | ]. seqg; [ apply g_nl | ]. seqg; [ apply g_builtin; [ exact G1 | cbn; auto 10 ] | apply g_nl ]. }
        reflexivity.
    + cbn [app]. rewrite HS', zlen_app. change (zlen [err_code v]) with 1. change (wrapS 32 3) with 3. replace (zlen S + 1 + 1 + 66) with (zlen S + 2 + 66) by lia. replace (zlen S + 1 + 1 + 1 + 66) with (zlen S + 3 + 66) by lia. reflexivity.
  - cbn [app]. rewrite zlen_app. change (zlen [err_code v]) with 1. reflexivity.
Qed.

Lemma oname_apart : forall key ks x, oname [key] x -> ~ In key ks -> ~ oname ks x.
Proof.
  intros key ks x (k1 & s1 & [ <- | [ ] ] & S1 & _ & ->) NI (k2 & s2 & I2 & S2 & _ & E2). apply part0_inj in E2. apply two_suffixes in S1, S2. destruct (name_inj _ _ _ _ S1 S2 E2) as [ _ -> ]. contradiction.
Qed.
Lemma oname_more : forall ks ks' x, oname ks x -> incl ks ks' -> oname ks' x.
Proof. intros ks ks' x (k & s & A & B) HI. exists k, s. split; [ apply HI, A | exact B ]. Qed.
Lemma wname_more : forall ks ks' x, wname ks x -> incl ks ks' -> wname ks' x.
Proof. intros ks ks' x (k & s & A & B) HI. exists k, s. split; [ apply HI, A | exact B ]. Qed.
Lemma at_cons : forall O k x names, at_outs O k (x :: names) -> nthZ (map fst O) k = Some x /\ at_outs O (k + 1) names.
Proof.
  intros O k x names H. split.
  - rewrite <- (Z.add_0_r k). rewrite H by (rewrite zlen_cons; pose proof (zlen_nonneg names); lia). reflexivity.
  - intros i Hi. replace (k + 1 + i) with (k + (1 + i)) by lia. rewrite H by (rewrite zlen_cons; lia). rewrite nthZ_cons. destruct (Z.eqb_spec (1 + i) 0); [ lia | ]. f_equal. lia.
Qed.

Lemma piece_list : forall w c key e nc tc ks isstr, piece c nc tc ks -> plain_key key = true -> ~ In key ks -> (e <= 300)%nat -> wide w = true ->
  piece (SList w c) (NListOffset (out_name key "offsets") w isstr false nc) (listoffset_text key w e tc) (key :: ks).
Proof.
  intros w c key e nc tc ks isstr PC HP NI He HWd. destruct (small_numbers e He) as (W1 & W2 & v & NV).
  assert (HO : oname [key] (out_name key "offsets")) by (exists key, "-offsets"; split; [ left; reflexivity | ]; split; [ right; left; reflexivity | ]; split; [ exact HP | reflexivity ]).
  assert (HW : wname [key] (key +++ "-offsets")) by (exists key, "-offsets"; split; [ left; reflexivity | ]; split; [ cbn; auto | ]; split; [ exact HP | reflexivity ]).
  destruct (oname_free _ _ HO) as (OF & OP & O1 & O2 & O3 & O4 & O5). destruct (wname_free _ _ HW) as (WF & WP & X1 & X2 & X3 & X4).
  destruct PC as [ PL (te & RE & PE) (to & RO & PO) PN PD PW (tf & RF & PF) (tr & RR & PR) ]. destruct (wname_free _ _ PW) as (CF & CP & C1 & C2 & C3 & C4).
  assert (IN : incl [key] (key :: ks)) by (intros x [ <- | [ ] ]; left; reflexivity). assert (IK : incl ks (key :: ks)) by (intros x Hx; right; exact Hx).
  split.
  - constructor; assumption.
  - exists (te ++ [s_quote; "ListOffsetArray Builder " +++ (key +++ "-offsets") +++ " needs begin_list"; nl]). split.
    + cbn [v_error listoffset_text]. eapply reads_app; [ exact RE | ].
      replace ("s" +++ qt +++ " ListOffsetArray Builder " +++ (key +++ "-offsets") +++ " needs begin_list" +++ qt +++ nl) with ("s" +++ qt +++ " " +++ String "L" ("istOffsetArray Builder " +++ (key +++ "-offsets") +++ " needs begin_list") +++ qt +++ nl) by (cbn; rewrite !app_assoc_s; reflexivity).
      apply reads_error; [ reflexivity .. | ]. rewrite la_app, forallb_app. change (forallb textc (la "istOffsetArray Builder ")) with true. cbn [andb]. rewrite (la_app (key +++ "-offsets")), forallb_app. change (forallb textc (la " needs begin_list")) with true. rewrite andb_true_r.
      rewrite forallb_forall. intros x Hx. apply key_textc. destruct (plain_stem _ HP) as [ ST _ ]. pose proof (name_chars key "-offsets" ST ltac:(cbn; auto 10)) as FC. rewrite forallb_forall in FC. apply FC. exact Hx.
    + cbn [nodes]. rewrite Z.add_comm. apply pushes_app; [ exact PE | apply pushes_one; lia ].
  - exists (["output"; out_name key "offsets"; index_form_to_name w; nl] ++ to). split.
    + cbn [v_output listoffset_text]. change (["output"; out_name key "offsets"; index_form_to_name w; nl] ++ to) with (["output"] ++ [] ++ [out_name key "offsets"] ++ [] ++ [index_form_to_name w; nl] ++ to).
      kn. wd O4. eapply reads_app; [ apply reads_blank; [ exact O5 | exact O4 ] | ]. destruct w; try discriminate HWd; (kn; kn; exact RO).
    + intros O ST S HF. cbn [node_outs types combine]. replace (O ++ (out_name key "offsets", off_type w) :: combine (node_outs nc) (types c)) with ((O ++ [(out_name key "offsets", off_type w)]) ++ combine (node_outs nc) (types c)) by (rewrite <- app_assoc; reflexivity).
      eapply goes_app0; [ apply (g_output O ST S [key] _ _ (off_type w)); [ exact HO | | destruct w; try discriminate HWd; reflexivity ] | apply PO ].
      * eapply Forall_impl; [ | exact HF ]. intros x A B. apply A. eapply oname_more; eassumption.
      * rewrite map_app. apply Forall_app. split; [ eapply Forall_impl; [ | exact HF ]; intros x A B; apply A; eapply oname_more; eassumption | ]. constructor; [ | constructor ]. apply (oname_apart key); assumption.
  - cbn [node_outs]. constructor; [ eapply oname_more; eassumption | ]. eapply Forall_impl; [ | exact PN ]. intros x A. eapply oname_more; eassumption.
  - cbn [node_outs]. constructor; [ | exact PD ]. intros A. rewrite Forall_forall in PN. apply (oname_apart key ks _ HO NI). apply PN. exact A.
  - eapply wname_more; [ exact HW | exact IN ].
  - cbn [v_func v_name listoffset_text node_outs]. unfold list_word. set (name := key +++ "-offsets") in *. set (out := out_name key "offsets") in *.
    set (body := [nl; "2"; "<>"; "if"; nl; to_string e; "err"; "!"; "err"; "@"; "halt"; nl; "then"; nl; nl; "0"; nl; "begin"; nl; "pause"; nl; "dup"; "3"; "="; "if"; nl; "drop"; nl; out; "+<-"; "stack"; nl; "exit"; nl; "else"; nl; v_name tc; nl; "1+"; nl; "then"; nl; "again"; nl]).
    exists (tf ++ (":" :: name :: body ++ [";"]) ++ [nl]). split.
    + eapply reads_app; [ exact RF | ]. clearbody name out.
      match goal with |- reads "" ?s ?l "" => assert (R : exists ts, reads "" s ts "" /\ ts = l) end.
      { eexists. split; [ kn; wd X3; eol X3 X4; kn; kn; wd W1; sp W1 W2; do 14 kn; wd O4; sp O4 O5; kn; kn; kn; kn; kn; wd C3; eol C3 C4; kn; kn; kn; kn; kn; kn; kn; kn_last | reflexivity ]. }
      destruct R as (ts & R & <-). exact R.
    + intros O ST k D S HG HA Hk HD HS. destruct (at_cons _ _ _ _ HA) as [ N HA' ].
      destruct (PF O ST (k + 1) D S HG HA' ltac:(lia) (D_out_less _ _ _ HD IK) HS) as (D' & S' & cb & G & DI & CA & CB & SW).
      assert (HD2 : D_out (D ++ D') [key]) by (eapply D_app; [ eapply D_out_less; [ exact HD | exact IN ] | exact DI | intros x Hx [ <- | [ ] ]; contradiction ]).
      pose proof (D_free_out _ _ HD2) as DF. set (SS := S ++ S') in *. assert (HSS : 1 <= zlen SS) by (unfold SS; rewrite zlen_app; pose proof (zlen_nonneg S'); lia).
      exists (D' ++ [(name, zlen SS + 66)]), (S' ++ [[0; 2; 52; 3; zlen SS + 1 + 66; 0; 0; zlen SS + 1 + 1 + 66; 7]; err_code v; [2; 32; 0; 3; 51; 4; zlen SS + 1 + 2 + 66; zlen SS + 1 + 3 + 66]; [33; 20; k; 10; 2]; [66 + cb; 46]]), (zlen SS).
      rewrite !(app_assoc D D'), !(app_assoc S S'). fold SS. split; [ | split; [ | split; [ rewrite assoc_fresh by (eapply D_fresh; eassumption); f_equal; lia | split; [ lia | ] ] ] ].
      * eapply goes_app0; [ exact G | ]. eapply goes_app0; [ | apply g_nl ]. pose proof NV as (MW & _). destruct (free_mem _ OF) as (MO & _). destruct (free_mem _ CF) as (MC & _).
        apply g_colon; [ apply HG | unfold body; each_token | exact WF | exact X1 | exact X2 | exact WP | eapply D_fresh; eassumption | ].
        intros S2 HS2. rewrite <- HS2. apply (list_body name O ST _ S2 out k (to_string e) v (v_name tc) cb HG N); [ apply D_free_app; [ exact DF | constructor; [ apply WF | constructor ] ] | exact NV | exact O1 | exact O2 | exact CF | exact C1 | exact C2 | exact CP | apply assoc_more; exact CA ].
      * apply Forall_app. split; [ eapply D_in_more; eassumption | ]. constructor; [ eapply wname_more; [ exact HW | exact IN ] | constructor ].
      * exists (zlen SS + 1 + 0), (zlen SS + 1 + 1), (zlen SS + 1 + 2), (zlen SS + 1 + 3), cb. split; [ lia | ]. split; [ | split; [ | split; [ | split ] ] ].
        -- replace (66 + (zlen SS + 1 + 0)) with (zlen SS + 1 + 66) by lia. replace (66 + (zlen SS + 1 + 1)) with (zlen SS + 1 + 1 + 66) by lia. apply sg_last. exact HSS.
        -- replace (66 + (zlen SS + 1 + 2)) with (zlen SS + 1 + 2 + 66) by lia. replace (66 + (zlen SS + 1 + 3)) with (zlen SS + 1 + 3 + 66) by lia. apply sg_past; [ exact HSS | lia | reflexivity ].
        -- apply sg_past; [ exact HSS | lia | reflexivity ].
        -- apply sg_past; [ exact HSS | lia | reflexivity ].
        -- eapply sword_to; [ | exact SW ]. intros b l. apply sg_app.
  - exists (tr ++ ["0"; out_name key "offsets"; "<-"; "stack"; nl]). split.
    + cbn [v_from listoffset_text]. eapply reads_app; [ exact RR | ]. match goal with |- reads "" ?s ?l "" => assert (R : exists ts, reads "" s ts "" /\ ts = l) end.
      { eexists. split; [ kn; wd O4; sp O4 O5; kn_last | reflexivity ]. }
      destruct R as (ts & R & <-). exact R.
    + intros O ST k D S HG HA Hk DF. cbn [from_code]. cbn [node_outs] in HA. destruct (at_cons _ _ _ _ HA) as [ N HA' ]. eapply goes_app; [ apply PR; [ exact HG | exact HA' | lia | exact DF ] | ].
      eapply goes_to with (ts := ["0"] ++ [out_name key "offsets"; "<-"; "stack"] ++ [nl]); [ | reflexivity | ].
      * seqg; [ apply (g_int O ST); [ apply HG | apply n0 | exact DF ] | ]. seqg; [ apply (g_out O ST (proj1 (proj2 HG)) (proj2 (proj2 HG)) _ _ _ _ _ k _ CODE_WRITE); [ exact N | exact O1 | exact O2 | cbn; auto 10 ] | apply g_nl ].
      * reflexivity.
Qed.
