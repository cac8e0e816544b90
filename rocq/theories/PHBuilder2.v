(** Proofs for C24, continued: every call does the same in memory and on lists. *)
From Coq Require Import String.
From Verif Require Import Base BaseLemmas Content KCore Core KOption Option Merge Growable SpecGrowable PGrowable Builder HBuilder PHBuilder.
Local Open Scope string_scope.
Local Open Scope list_scope.
Local Open Scope Z_scope.

Lemma good_self : forall ps n h hb b, rep h hb b -> NoDup (ptrs hb) -> (forall p, In p (ptrs hb) -> In p ps) -> good ps n h hb b.
Proof. intros. split; [ assumption | split; [ assumption | auto ] ]. Qed.
Lemma good_more : forall ps qs n m h hb b, good ps n h hb b -> (forall p, In p ps -> In p qs \/ m <= p) -> m <= n -> good qs m h hb b.
Proof. intros ps qs n m h hb b (H1 & H2 & H3) K L. split; [ exact H1 | split; [ exact H2 | ] ]. intros p Hp. destruct (H3 p Hp); [ auto | right; lia ]. Qed.

Section Step.
Variable rc : Z -> Z.
Variable o : options.
Hypothesis G : growing o.

Lemma started : forall x h, exists h' g, then_ (empty_buffer o) (fun g => append o g x) h = Ok (h', g) /\ moves [] h h' /\ hold h' g [x] /\ zlen h <= g_ptr g.
Proof.
  intros x h. destruct (empty_hold o G h) as (h1 & g & E & M & H & P). unfold then_. rewrite E. cbn [bind fst snd].
  destruct (append_hold o G g x [] h1 H) as (h2 & g2 & E2 & M2 & H2 & P2). rewrite E2. exists h2, g2. split; [ reflexivity | ].
  split; [ | split; [ exact H2 | destruct M; lia ] ]. apply (moves_trans _ [g_ptr g] _ h1); [ exact M | exact M2 | ]. intros p [ <- | [] ]. right. lia.
Qed.
Lemma then_assoc : forall {A B C} (m : comp A) (f : A -> comp B) (g : B -> comp C) h, then_ m (fun x => then_ (f x) g) h = then_ (then_ m f) g h.
Proof. intros. unfold then_. destruct (m h) as [ [ h' x ] | | ]; reflexivity. Qed.
Lemma NoDup1 : forall p : Z, NoDup [p].
Proof. intros p. constructor; [ intros [] | constructor ]. Qed.
Lemma all2_repeat : forall h n, all2 (rep h) (repeat (HUnknown 0) n) (repeat (BUnknown 0) n).
Proof. intros h n. induction n; [ exact I | split; [ reflexivity | assumption ] ]. Qed.
Lemma flat_repeat : forall n, flat_map ptrs (repeat (HUnknown 0) n) = [].
Proof. intros n. induction n; [ reflexivity | assumption ]. Qed.

Lemma fresh_for_ok : forall k h, refines [] h (hfresh_for o k) (fresh_for k) (good [] (zlen h)).
Proof.
  intros k h.
  assert (leaf : forall x (f : gbuf -> hbuilder) b, (forall g, ptrs (f g) = [g_ptr g]) -> (forall h g, hold h g [x] -> rep h (f g) b) ->
    refines [] h (let! g := empty_buffer o in let! g := append o g x in ret (f g)) (Ok b) (good [] (zlen h))).
  { intros x f b Hf Hr. destruct (started x h) as (h' & g & E & M & H & P). exists h', (f g). split; [ | split; [ exact M | ] ].
    - rewrite then_assoc. unfold then_ at 1. rewrite E. reflexivity.
    - split; [ apply Hr; exact H | ]. rewrite Hf. split; [ apply NoDup1 | ]. intros p [ <- | [] ]. right. exact P. }
  destruct k; cbn [hfresh_for fresh_for]; try reflexivity.
  - apply leaf; [ reflexivity | ]. intros h0 g H. exact H.
  - apply leaf; [ reflexivity | ]. intros h0 g H. exact H.
  - apply leaf; [ reflexivity | ]. intros h0 g H. exact H.
  - apply leaf; [ reflexivity | ]. intros h0 g H. split; [ exact H | ]. split; reflexivity.
  - destruct (numfields <? 0); [ reflexivity | ]. apply ref_ret. split; [ | cbn [ptrs]; rewrite flat_repeat; split; [ constructor | intros p [] ] ].
    split; [ apply all2_repeat | auto ].
  - apply ref_ret. split; [ cbn [rep all2]; repeat split; lia | ]. split; [ constructor | intros p [] ].
Qed.

Lemma option_of_ok : forall h hb b, rep h hb b -> NoDup (ptrs hb) -> refines [] h (hoption_of o hb) (option_of b) (good (ptrs hb) (zlen h)).
Proof.
  intros h hb b R N. unfold hoption_of, option_of. rewrite (rep_length _ _ _ R). destruct (Z.ltb_spec (blength b) 0) as [ Hb | Hb ].
  - unfold refines, then_. rewrite arange_negative by assumption. reflexivity.
  - destruct (arange_hold o G _ h Hb) as (h1 & g & E & M & H & P). destruct (append_hold o G g (-1) _ h1 H) as (h2 & g2 & E2 & M2 & H2 & P2).
    exists h2, (HOption g2 hb). unfold then_. rewrite E. cbn [bind fst snd]. rewrite E2. split; [ reflexivity | ].
    assert (moves [] h h2) as M3 by (apply (moves_trans _ [g_ptr g] _ h1); [ exact M | exact M2 | intros p [ <- | [] ]; right; lia ]).
    split; [ exact M3 | ]. split; [ split; [ exact H2 | apply (rep_moves [] h); [ exact M3 | exact R | auto ] ] | ].
    assert (zlen h <= g_ptr g2) by (destruct M; lia). cbn [ptrs]. split.
    + constructor; [ | exact N ]. intro Hin. pose proof (rep_range _ _ _ R _ Hin). lia.
    + intros p [ <- | Hp ]; [ right; assumption | left; exact Hp ].
Qed.

(** appending to two buffers; [Q] are the blocks of other nodes *)
Lemma append2 : forall t i x y l m Q h, hold h t l -> hold h i m -> NoDup (g_ptr t :: g_ptr i :: Q) -> (forall q, In q Q -> q < zlen h) ->
  exists h' t' i', (forall A (f : gbuf -> gbuf -> comp A), then_ (append o t x) (fun t => then_ (append o i y) (fun i => f t i)) h = f t' i' h') /\ moves [g_ptr t; g_ptr i] h h' /\ hold h' t' (l ++ [x]) /\ hold h' i' (m ++ [y]) /\ NoDup (g_ptr t' :: g_ptr i' :: Q) /\ (forall p, In p [g_ptr t'; g_ptr i'] -> In p [g_ptr t; g_ptr i] \/ zlen h <= p).
Proof.
  intros t i x y l m Q h Ht Hi ND HQ. destruct (append_hold o G t x l h Ht) as (h1 & t' & E1 & M1 & H1 & P1).
  pose proof (hold_range _ _ _ Ht) as Rt. pose proof (hold_range _ _ _ Hi) as Ri. assert (zlen h <= zlen h1) by (destruct M1; lia).
  assert (g_ptr t <> g_ptr i) as Hne by (inversion ND as [ | ? ? Hn ]; subst; intro E; apply Hn; left; symmetry; exact E).
  assert (Hi1 : hold h1 i m) by (apply (hold_moves h h1 [g_ptr t]); [ exact Hi | exact M1 | intros [ Hx | [] ]; auto ]).
  destruct (append_hold o G i y m h1 Hi1) as (h2 & i' & E2 & M2 & H2 & P2). pose proof (hold_range _ _ _ H1) as Rt1.
  assert (g_ptr t' <> g_ptr i) by lia.
  exists h2, t', i'. split; [ intros A f; unfold then_; rewrite E1; cbn [bind fst snd]; rewrite E2; reflexivity | ].
  split; [ apply (moves_trans _ [g_ptr i] _ h1); [ apply (moves_more [g_ptr t]); [ exact M1 | intros p [ <- | [] ]; left; left; reflexivity ] | exact M2 | intros p [ <- | [] ]; left; right; left; reflexivity ] | ].
  split; [ apply (hold_moves h1 h2 [g_ptr i]); [ exact H1 | exact M2 | intros [ Hx | [] ]; auto ] | ]. split; [ exact H2 | ]. split.
  - apply (NoDup_swap [g_ptr t'] [g_ptr i] [g_ptr i'] Q (zlen h1)); [ | apply NoDup1 | intros p [ <- | [] ]; destruct P2; [ left; left; congruence | right; lia ] | ].
    + apply (NoDup_swap [] [g_ptr t] [g_ptr t'] (g_ptr i :: Q) (zlen h)); [ exact ND | apply NoDup1 | intros p [ <- | [] ]; destruct P1; [ left; left; congruence | right; lia ] | ].
      intros q [ [] | [ <- | Hq ] ]; [ lia | apply HQ; exact Hq ].
    + intros q [ [ <- | [] ] | Hq ]; [ lia | specialize (HQ q Hq); lia ].
  - intros p [ <- | [ <- | [] ] ]; [ destruct P1; [ left; left; congruence | right; lia ] | destruct P2; [ left; right; left; congruence | right; lia ] ].
Qed.

Lemma union_of_ok : forall h hb b k, rep h hb b -> NoDup (ptrs hb) -> refines [] h (hunion_of o hb k) (union_of b k) (good (ptrs hb) (zlen h)).
Proof.
  intros h hb b k R N. unfold hunion_of, union_of. rewrite (rep_length _ _ _ R). destruct (Z.ltb_spec (blength b) 0) as [ Hb | Hb ].
  - unfold refines, then_. rewrite full_negative by assumption. reflexivity.
  - destruct (full_hold o G 0 _ h Hb) as (h1 & t & E & M & H & P). destruct (arange_hold o G _ h1 Hb) as (h2 & i & E2 & M2 & H2 & P2).
    pose proof (hold_range _ _ _ H) as Rt. pose proof (hold_range _ _ _ H2) as Ri. assert (zlen h <= zlen h1 <= zlen h2) as L by (destruct M, M2; lia).
    assert (M12 : moves [] h h2) by (apply (moves_trans _ [] _ h1); [ exact M | exact M2 | intros p [] ]).
    pose proof (fresh_for_ok k h2) as K.
    assert (Kt : refines [g_ptr t; g_ptr i] h2 (let! c := hfresh_for o k in
        if is_leaf k then let! tags := append o t 1 in let! index := append o i 0 in ret (HUnion tags index [hb; c] (-1)) else ret (HUnion t i [hb; c] 1))
        (let* c := fresh_for k in if is_leaf k then Ok (BUnion (repeat 0 (Z.to_nat (blength b)) ++ [1]) (zseq 0 (blength b) ++ [0]) [b; c] (-1)) else Ok (BUnion (repeat 0 (Z.to_nat (blength b))) (zseq 0 (blength b)) [b; c] 1))
        (fun h' hu u => moves [] h h' -> good (ptrs hb) (zlen h) h' hu u)).
    2: { unfold then_ at 1. unfold refines in *. 
         destruct (let* c := fresh_for k in _) as [ u | e | ]; rewrite E; cbn [bind fst snd]; unfold then_ at 1; rewrite E2; cbn [bind fst snd]; [ | exact Kt | exact Kt ].
         destruct Kt as (h' & x & Ex & Mx & Hx). exists h', x. split; [ exact Ex | ].
         assert (moves [] h h') as M3 by (apply (moves_trans _ [g_ptr t; g_ptr i] _ h2); [ exact M12 | exact Mx | intros p [ <- | [ <- | [] ] ]; right; lia ]). split; [ exact M3 | exact (Hx M3) ]. }
    eapply ref_bind; [ exact K | intros p [] | ]. intros h3 hc c M3 (Rc & Nc & Oc).
    assert (M03 : moves [] h h3) by (apply (moves_trans _ [] _ h2); [ exact M12 | exact M3 | intros p [] ]).
    assert (H3 : hold h3 t (repeat 0 (Z.to_nat (blength b)))) by (apply (hold_moves h1 h3 []); [ exact H | apply (moves_trans _ [] _ h2); [ exact M2 | exact M3 | intros p [] ] | intros [] ]).
    assert (H4 : hold h3 i (zseq 0 (blength b))) by (apply (hold_moves h2 h3 []); [ exact H2 | exact M3 | intros [] ]).
    assert (Oc' : forall p, In p (ptrs hc) -> zlen h2 <= p) by (intros p Hp; destruct (Oc p Hp) as [ [] | ]; assumption).
    pose proof (rep_range _ _ _ R) as Rb. pose proof (rep_range _ _ _ Rc) as Rhc.
    assert (ND : NoDup (g_ptr t :: g_ptr i :: flat_map ptrs [hb; hc])).
    { cbn [flat_map]. rewrite app_nil_r. constructor; [ | constructor ].
      - intros [ Hin | Hin ]; [ lia | ]. apply in_app_or in Hin as [ Hin | Hin ]; [ specialize (Rb _ Hin); lia | specialize (Oc' _ Hin); lia ].
      - intros Hin. apply in_app_or in Hin as [ Hin | Hin ]; [ specialize (Rb _ Hin); lia | specialize (Oc' _ Hin); lia ].
      - apply NoDup_app_iff. split; [ exact N | split; [ exact Nc | ] ]. intros p Hp Hq. specialize (Rb _ Hp). specialize (Oc' _ Hq). lia. }
    destruct (is_leaf k).
    + exists [g_ptr t; g_ptr i]. split; [ | auto ].
      destruct (append2 t i 1 0 _ _ (flat_map ptrs [hb; hc]) h3 H3 H4 ND) as (h5 & t' & i' & E5 & M45 & H5 & H6 & N5 & O5).
      { intros q Hq. cbn [flat_map] in Hq. rewrite app_nil_r in Hq. assert (zlen h2 <= zlen h3) by (destruct M3; lia).
        apply in_app_or in Hq as [ Hq | Hq ]; [ specialize (Rb _ Hq); lia | specialize (Rhc _ Hq); lia ]. }
      exists h5, (HUnion t' i' [hb; hc] (-1)). rewrite E5. split; [ reflexivity | ]. split; [ exact M45 | ]. intros M05.
      split; [ split; [ exact H5 | split; [ exact H6 | split; [ | reflexivity ] ] ] | split; [ exact N5 | ] ].
      * split; [ apply (rep_moves [] h h5); [ exact M05 | exact R | auto ] | ]. split; [ | exact I ].
        apply (rep_moves [g_ptr t; g_ptr i] h3 h5); [ exact M45 | exact Rc | ]. intros p Hp Hq. specialize (Oc' p Hp). cbn in Hq. lia.
      * assert (zlen h2 <= zlen h3) by (destruct M3; lia). cbn [ptrs flat_map]. intros p [ <- | [ <- | Hp ] ].
        -- right. destruct (O5 (g_ptr t')) as [ [ Hx | [ Hx | [] ] ] | Hx ]; [ left; reflexivity | lia | lia | lia ].
        -- right. destruct (O5 (g_ptr i')) as [ [ Hx | [ Hx | [] ] ] | Hx ]; [ right; left; reflexivity | lia | lia | lia ].
        -- rewrite app_nil_r in Hp. apply in_app_or in Hp as [ Hp | Hp ]; [ left; exact Hp | right; specialize (Oc' _ Hp); lia ].
    + exists []. split; [ | intros p [] ]. apply ref_ret. intros _. split; [ split; [ exact H3 | ] | ].
      * split; [ exact H4 | ]. split; [ | reflexivity ]. split; [ apply (rep_moves [] h h3); [ exact M03 | exact R | auto ] | ]. split; [ exact Rc | exact I ].
      * split; [ exact ND | ]. cbn [ptrs flat_map]. intros p [ <- | [ <- | Hp ] ]; [ right; lia | right; lia | ]. rewrite app_nil_r in Hp. apply in_app_or in Hp as [ Hp | Hp ]; [ left; exact Hp | right; specialize (Oc' _ Hp); lia ].
Qed.

Lemma elsewhere_ok : forall h hb b k, rep h hb b -> NoDup (ptrs hb) -> refines (ptrs hb) h (helsewhere o hb k) (elsewhere b k) (outcomes (ptrs hb) (zlen h)).
Proof.
  intros h hb b k R N.
  assert (U : refines (ptrs hb) h (let! u := hunion_of o hb k in ret (hb, Some u)) (let* u := union_of b k in Ok (b, Some u)) (outcomes (ptrs hb) (zlen h))).
  { eapply ref_bind; [ apply union_of_ok; eassumption | intros p [] | ]. intros h' hu u M K. exists []. split; [ | intros p [] ]. apply ref_ret. split; [ | exact K ].
    apply good_self; [ apply (rep_moves [] h); [ exact M | exact R | auto ] | exact N | auto ]. }
  destruct k; cbn [helsewhere elsewhere]; try exact U; try reflexivity.
  eapply ref_bind; [ apply option_of_ok; eassumption | intros p [] | ]. intros h' hu u M K. exists []. split; [ | intros p [] ]. apply ref_ret. split; [ | exact K ].
  apply good_self; [ apply (rep_moves [] h); [ exact M | exact R | auto ] | exact N | auto ].
Qed.

Lemma find_ok : forall h hcs cs p q, all2 (rep h) hcs cs -> (forall hc c, rep h hc c -> p hc = q c) -> hfind_content p hcs = find_content q cs.
Proof.
  intros h hcs. induction hcs as [ | hc hcs IH ]; intros [ | c cs ] p q H K; try contradiction; [ reflexivity | ]. destruct H as [ H1 H2 ]. cbn. rewrite (K _ _ H1), (IH _ _ _ H2 K). reflexivity.
Qed.
Lemma choose_ok : forall h hcs cs k, all2 (rep h) hcs cs -> hchoose hcs k = choose cs k.
Proof.
  intros h hcs cs k H. destruct k; cbn [hchoose choose]; try reflexivity;
    try (apply (find_ok h hcs cs _ _ H); intros [] [] R; try contradiction; reflexivity).
  - rewrite (find_ok h hcs cs _ (fun c => match c with BReal _ => true | _ => false end) H) by (intros [] [] R; try contradiction; reflexivity).
    rewrite (find_ok h hcs cs _ (fun c => match c with BInt _ => true | _ => false end) H) by (intros [] [] R; try contradiction; reflexivity). reflexivity.
  - apply (find_ok h hcs cs _ _ H).
    intros [] [] R; try contradiction; try reflexivity. destruct R as (R1 & -> & _). rewrite (all2_zlen _ _ _ R1). reflexivity.
Qed.

Lemma nth_ref : forall {X Y} (f : hbuilder -> comp X) (g : builder -> res Y) hcs cs i h (R : hbuilder -> builder -> mem -> X -> Y -> Prop),
  all2 (rep h) hcs cs -> NoDup (flat_map ptrs hcs) ->
  (forall hc c, In hc hcs -> rep h hc c -> NoDup (ptrs hc) -> refines (ptrs hc) h (f hc) (g c) (R hc c)) ->
  refines (flat_map ptrs hcs) h (nth_comp f hcs i) (nth_apply g cs i)
    (fun h' x y => exists hc c, R hc c h' x y /\ rep h hc c /\
      forall hc' c', good (ptrs hc) (zlen h) h' hc' c' -> goods (flat_map ptrs hcs) (zlen h) h' (upd hcs (Z.to_nat i) hc') (upd cs (Z.to_nat i) c')).
Proof.
  intros X Y f g hcs cs i h R H N K.
  assert (E : forall i, (nthZ hcs i = None -> nth_comp f hcs i = fails UB) /\ (forall hc, nthZ hcs i = Some hc -> nth_comp f hcs i = f hc)).
  { clear. induction hcs as [ | a l IH ]; intros i; [ split; [ reflexivity | rewrite nthZ_nil; discriminate ] | ]. cbn [nth_comp]. rewrite nthZ_cons.
    destruct (i =? 0); [ split; [ discriminate | intros hc E; congruence ] | apply IH ]. }
  assert (E' : forall i, (nthZ cs i = None -> nth_apply g cs i = UB) /\ (forall c, nthZ cs i = Some c -> nth_apply g cs i = g c)).
  { clear. induction cs as [ | a l IH ]; intros i; [ split; [ reflexivity | rewrite nthZ_nil; discriminate ] | ]. cbn [nth_apply]. rewrite nthZ_cons.
    destruct (i =? 0); [ split; [ discriminate | intros hc E; congruence ] | apply IH ]. }
  destruct (all2_nth _ _ _ i H) as [ (E1 & E2) | (hc & c & l1 & l2 & m1 & m2 & E1 & E2 & Rc & Hl & Hm & A1 & A2 & U1 & U2) ].
  - rewrite (proj1 (E i) E1), (proj1 (E' i) E2). reflexivity.
  - rewrite (proj2 (E i) _ E1), (proj2 (E' i) _ E2).
    assert (Hf : flat_map ptrs hcs = flat_map ptrs l1 ++ ptrs hc ++ flat_map ptrs l2) by (rewrite Hl, flat_map_app; reflexivity).
    assert (Nc : NoDup (ptrs hc)) by (rewrite Hf, !NoDup_app_iff in N; tauto).
    eapply ref_more; [ apply (K hc c); [ rewrite Hl; apply in_or_app; right; left; reflexivity | exact Rc | exact Nc ] | intros p Hp; left; rewrite Hf; apply in_or_app; right; apply in_or_app; left; exact Hp | ].
    intros h' x y M Hxy. exists hc, c. split; [ exact Hxy | ]. split; [ exact Rc | ]. intros hc' c' (G1 & G2 & G3).
    pose proof N as N'. rewrite Hf in N'.
    assert (D1 : forall p, In p (flat_map ptrs l1) -> ~ In p (ptrs hc)) by (intros p Hp Hq; rewrite !NoDup_app_iff in N'; destruct N' as (_ & _ & N'); apply (N' p Hp), in_or_app; auto).
    assert (D2 : forall p, In p (flat_map ptrs l2) -> ~ In p (ptrs hc)) by (intros p Hp Hq; rewrite !NoDup_app_iff in N'; destruct N' as (_ & (_ & _ & N') & _); apply (N' p Hq Hp)).
    rewrite U1, U2. split; [ | split ].
    + apply all2_app; [ apply (reps_moves (ptrs hc) h); assumption | split; [ exact G1 | apply (reps_moves (ptrs hc) h); assumption ] ].
    + rewrite flat_map_app. cbn [flat_map]. apply (NoDup_swap _ (ptrs hc) _ _ (zlen h)); [ exact N' | exact G2 | exact G3 | ].
      intros q [ Hq | Hq ]; [ exact (proj2 (reps_range _ _ _ A1 q Hq)) | exact (proj2 (reps_range _ _ _ A2 q Hq)) ].
    + intros p Hp. rewrite flat_map_app in Hp. cbn [flat_map] in Hp. rewrite Hf. apply in_app_or in Hp as [ Hp | Hp ]; [ left; apply in_or_app; auto | ].
      apply in_app_or in Hp as [ Hp | Hp ]; [ | left; apply in_or_app; right; apply in_or_app; auto ]. destruct (G3 p Hp); [ left; apply in_or_app; right; apply in_or_app; auto | right; assumption ].
Qed.

Lemma map_ref : forall (f : hbuilder -> comp hbuilder) (g : builder -> res builder) hcs cs h,
  all2 (rep h) hcs cs -> NoDup (flat_map ptrs hcs) ->
  (forall hc c h, In hc hcs -> rep h hc c -> NoDup (ptrs hc) -> refines (ptrs hc) h (f hc) (g c) (good (ptrs hc) (zlen h))) ->
  refines (flat_map ptrs hcs) h (map_comp f hcs) (mapres g cs) (goods (flat_map ptrs hcs) (zlen h)).
Proof.
  intros f g. induction hcs as [ | hc hcs IH ]; intros [ | c cs ] h H N K; try contradiction.
  - apply ref_ret. split; [ exact I | split; [ constructor | intros p [] ] ].
  - destruct H as [ H1 H2 ]. cbn [flat_map] in *. pose proof N as N'. rewrite NoDup_app_iff in N'. destruct N' as (N1 & N2 & N3). cbn [map_comp mapres].
    eapply ref_bind; [ apply (K hc c); [ left; reflexivity | exact H1 | exact N1 ] | intros p Hp; left; apply in_or_app; auto | ].
    intros h1 hc' c' M1 (G1 & G2 & G3). exists (flat_map ptrs hcs). split; [ | intros p Hp; left; apply in_or_app; auto ].
    pose proof (reps_range _ _ _ H2) as Rq. pose proof (rep_range _ _ _ G1) as Rc'.
    eapply ref_bind; [ apply (IH cs h1); [ apply (reps_moves (ptrs hc) h); [ exact M1 | exact H2 | intros p Hp Hq; exact (N3 p Hq Hp) ] | exact N2 | intros; apply K; [ right | | ]; assumption ] | auto | ].
    intros h2 hcs' cs' M2 (G4 & G5 & G6). exists []. split; [ | intros p [] ]. apply ref_ret. assert (zlen h <= zlen h1) by (destruct M1; lia).
    assert (D : forall p, In p (ptrs hc') -> In p (flat_map ptrs hcs) -> False) by (intros p Hp Hq; destruct (G3 p Hp) as [ Hp' | Hp' ]; [ exact (N3 p Hp' Hq) | specialize (Rq p Hq); lia ]).
    split; [ split; [ apply (rep_moves (flat_map ptrs hcs) h1); [ exact M2 | exact G1 | exact D ] | exact G4 ] | ]. cbn [flat_map]. split.
    + apply NoDup_app_iff. split; [ exact G2 | split; [ exact G5 | ] ]. intros p Hp Hq. destruct (G6 p Hq) as [ Hq' | Hq' ]; [ exact (D p Hp Hq') | specialize (Rc' p Hp); lia ].
    + intros p Hp. apply in_app_or in Hp as [ Hp | Hp ]; [ destruct (G3 p Hp); [ left; apply in_or_app; auto | right; assumption ] | destruct (G6 p Hp); [ left; apply in_or_app; auto | right; lia ] ].
Qed.

(** ** One call *)
Definition does (hb : hbuilder) : Prop := forall k b h, rep h hb b -> NoDup (ptrs hb) -> refines (ptrs hb) h (hstep rc o hb k) (step rc b k) (outcomes (ptrs hb) (zlen h)).

Lemma step_pair : forall hc k c h, does hc -> rep h hc c -> NoDup (ptrs hc) ->
  refines (ptrs hc) h (let! r := hstep rc o hc k in ret (hc, r)) (let* r := step rc c k in Ok (c, r))
    (fun h' x y => outcomes (ptrs hc) (zlen h) h' (snd x) (snd y) /\ fst x = hc /\ fst y = c).
Proof.
  intros hc k c h D R N. eapply ref_bind; [ apply D; eassumption | auto | ]. intros h' x y M Hxy. exists []. split; [ | intros p [] ]. apply ref_ret. cbn. auto.
Qed.
(** a call on the content in use; [W] and [w] are the node around the contents *)
Lemma inner_fst : forall hcs cs next k h (W : list hbuilder -> hbuilder) (w : list builder -> builder),
  Forall does hcs -> all2 (rep h) hcs cs -> NoDup (flat_map ptrs hcs) ->
  (forall h' hcs' cs', goods (flat_map ptrs hcs) (zlen h) h' hcs' cs' -> good (flat_map ptrs hcs) (zlen h) h' (W hcs') (w cs')) ->
  refines (flat_map ptrs hcs) h
    (let! p := nth_comp (fun c => let! r := hstep rc o c k in ret (c, r)) hcs next in ret (W (upd hcs (Z.to_nat next) (fst (snd p))), None))
    (let* p := nth_apply (fun c => let* r := step rc c k in Ok (c, r)) cs next in Ok (w (upd cs (Z.to_nat next) (fst (snd p))), None))
    (outcomes (flat_map ptrs hcs) (zlen h)).
Proof.
  intros hcs cs next k h W w D H N K. rewrite Forall_forall in D.
  eapply ref_bind; [ apply nth_ref; [ exact H | exact N | intros hc c Hin R Nc; apply (step_pair hc k c h (D _ Hin) R Nc) ] | auto | ].
  intros h' x y M (hc & c & (Hxy & _ & _) & _ & U). exists []. split; [ | intros p [] ]. apply ref_ret. split; [ | exact I ]. apply K, U. exact (proj1 Hxy).
Qed.
Lemma inner_both : forall hcs cs next k h (W : list hbuilder -> hbuilder) (w : list builder -> builder),
  Forall does hcs -> all2 (rep h) hcs cs -> NoDup (flat_map ptrs hcs) ->
  (forall h' hcs' cs', goods (flat_map ptrs hcs) (zlen h) h' hcs' cs' -> good (flat_map ptrs hcs) (zlen h) h' (W hcs') (w cs')) ->
  refines (flat_map ptrs hcs) h
    (let! p := nth_comp (fun c => let! r := hstep rc o c k in ret (c, r)) hcs next in ret (W (upd hcs (Z.to_nat next) (if hactive (fst p) then fst (snd p) else hreturned (snd p))), None))
    (let* p := nth_apply (fun c => let* r := step rc c k in Ok (c, r)) cs next in
     let c' := if active (fst p) then fst (snd p) else returned (snd p) in Ok (w (upd cs (Z.to_nat next) c'), None))
    (outcomes (flat_map ptrs hcs) (zlen h)).
Proof.
  intros hcs cs next k h W w D H N K. rewrite Forall_forall in D.
  eapply ref_bind; [ apply nth_ref; [ exact H | exact N | intros hc c Hin R Nc; apply (step_pair hc k c h (D _ Hin) R Nc) ] | auto | ].
  intros h' [ hx x ] [ hy y ] M (hc & c & (Hxy & E1 & E2) & R & U). cbn [fst snd] in *. subst hx hy. exists []. split; [ | intros p [] ].
  rewrite (rep_active _ _ _ R). cbv zeta. apply ref_ret. split; [ | exact I ]. apply K, U. destruct (active c); [ exact (proj1 Hxy) | exact (outcomes_returned _ _ _ _ _ Hxy) ].
Qed.
Lemma inner_active_ok : forall hcs cs next h, all2 (rep h) hcs cs ->
  refines [] h (if next =? -1 then ret false else nth_comp (fun c => ret (hactive c)) hcs next) (if next =? -1 then Ok false else nth_apply (fun c => Ok (active c)) cs next)
    (fun h' x y => h' = h /\ x = y).
Proof.
  intros hcs cs next h H. destruct (next =? -1); [ apply ref_ret; auto | ]. revert cs next H. induction hcs as [ | hc hcs IH ]; intros [ | c cs ] next H; try contradiction; [ reflexivity | ].
  destruct H as [ H1 H2 ]. cbn [nth_comp nth_apply]. destruct (next =? 0); [ rewrite (rep_active _ _ _ H1); apply ref_ret; auto | apply IH; exact H2 ].
Qed.
Lemma end_one_ok : forall len hc c h, does hc -> rep h hc c -> NoDup (ptrs hc) ->
  refines (ptrs hc) h (hend_one (fun c => hstep rc o c CNull) len hc) (end_one (fun c => step rc c CNull) len c) (good (ptrs hc) (zlen h)).
Proof.
  intros len hc c h D R N. unfold hend_one, end_one.
  eapply (ref_bind (ptrs hc) _ _ _ _ (good (ptrs hc) (zlen h))); [ | auto | ].
  - rewrite (rep_length _ _ _ R). destruct (blength c =? len); [ | apply ref_ret; apply good_self; auto ].
    eapply ref_bind; [ apply D; eassumption | auto | ]. intros h' x y M Hxy. exists []. split; [ | intros p [] ]. apply ref_ret. exact (outcomes_returned _ _ _ _ _ Hxy).
  - intros h' hc' c' M (G1 & G2 & G3). exists []. split; [ | intros p [] ]. rewrite (rep_length _ _ _ G1). destruct (blength c' =? len + 1); [ | reflexivity ]. apply ref_ret. split; auto.
Qed.
Lemma end_all_ok : forall len hcs cs h (W : list hbuilder -> hbuilder) (w : list builder -> builder),
  Forall does hcs -> all2 (rep h) hcs cs -> NoDup (flat_map ptrs hcs) ->
  (forall h' hcs' cs', goods (flat_map ptrs hcs) (zlen h) h' hcs' cs' -> good (flat_map ptrs hcs) (zlen h) h' (W hcs') (w cs')) ->
  refines (flat_map ptrs hcs) h (let! cs := map_comp (hend_one (fun c => hstep rc o c CNull) len) hcs in ret (W cs, None))
    (let* cs := mapres (end_one (fun c => step rc c CNull) len) cs in Ok (w cs, None)) (outcomes (flat_map ptrs hcs) (zlen h)).
Proof.
  intros len hcs cs h W w D H N K. rewrite Forall_forall in D.
  eapply ref_bind; [ apply map_ref; [ exact H | exact N | intros hc c h' Hin R Nc; apply (end_one_ok len hc c h' (D _ Hin) R Nc) ] | auto | ].
  intros h' x y M Hxy. exists []. split; [ | intros p [] ]. apply ref_ret. split; [ | exact I ]. apply K. exact Hxy.
Qed.

Lemma tuple_good : forall ps n h' hcs cs len begun next, goods ps n h' hcs cs -> good ps n h' (HTuple hcs len begun next) (BTuple cs len begun next).
Proof. intros ps n h' hcs cs len begun next (H1 & H2 & H3). split; [ split; [ exact H1 | auto ] | split; assumption ]. Qed.
Lemma record_good : forall ps n h' hcs cs keys len begun next try, goods ps n h' hcs cs -> -1 <= len -> (begun = true -> 0 <= len) ->
  good ps n h' (HRecord hcs keys len begun next try) (BRecord cs keys len begun next try).
Proof. intros ps n h' hcs cs keys len begun next try (H1 & H2 & H3) L1 L2. split; [ split; [ exact H1 | repeat split; auto ] | split; assumption ]. Qed.

(** nodes of one buffer *)
Lemma append_ref : forall h g l x (W : gbuf -> hbuilder) w, hold h g l -> (forall g, ptrs (W g) = [g_ptr g]) -> (forall h g, hold h g (l ++ [x]) -> rep h (W g) w) ->
  refines [g_ptr g] h (let! g := append o g x in ret (W g, None)) (Ok (w, None)) (outcomes [g_ptr g] (zlen h)).
Proof.
  intros h g l x W w H E K. destruct (append_hold o G g x l h H) as (h' & g' & E' & M & H' & P). exists h', (W g', None). unfold then_. rewrite E'. split; [ reflexivity | ]. split; [ exact M | ].
  split; [ | exact I ]. cbn [fst]. split; [ apply K; exact H' | ]. rewrite E. split; [ apply NoDup1 | ]. intros p [ <- | [] ]. destruct P; [ left; left; congruence | right; assumption ].
Qed.
(** nodes of one buffer and one content *)
Section Node1.
Variable W : gbuf -> hbuilder -> hbuilder.
Variable w : list Z -> builder -> builder.
Hypothesis Wptrs : forall g hc, ptrs (W g hc) = g_ptr g :: ptrs hc.
Hypothesis Wrep : forall h g hc l c, hold h g l -> rep h hc c -> rep h (W g hc) (w l c).
Variables (h : mem) (g : gbuf) (l : list Z) (hc : hbuilder).
Hypothesis Hg : hold h g l.
Hypothesis N : NoDup (g_ptr g :: ptrs hc).
Lemma node_after : forall h1 hc' c', moves (ptrs hc) h h1 -> good (ptrs hc) (zlen h) h1 hc' c' -> hold h1 g l /\ NoDup (g_ptr g :: ptrs hc').
Proof.
  intros h1 hc' c' M (G1 & G2 & G3). inversion N as [ | ? ? N1 N2 ]; subst. split; [ apply (hold_moves h h1 (ptrs hc)); assumption | ].
  constructor; [ | exact G2 ]. intro Hin. destruct (G3 _ Hin) as [ Hx | Hx ]; [ exact (N1 Hx) | pose proof (hold_range _ _ _ Hg); lia ].
Qed.
Lemma node_keep : forall h1 hc' c', moves (ptrs hc) h h1 -> good (ptrs hc) (zlen h) h1 hc' c' ->
  exists ps', refines ps' h1 (ret (W g hc', None)) (Ok (w l c', None)) (outcomes (g_ptr g :: ptrs hc) (zlen h)) /\ forall p, In p ps' -> In p (g_ptr g :: ptrs hc) \/ zlen h <= p.
Proof.
  intros h1 hc' c' M Gd. destruct (node_after h1 hc' c' M Gd) as (H1 & N1). destruct Gd as (G1 & G2 & G3). exists []. split; [ | intros p [] ]. apply ref_ret. split; [ | exact I ]. cbn [fst].
  split; [ apply Wrep; assumption | ]. rewrite Wptrs. split; [ exact N1 | ]. intros p [ <- | Hp ]; [ left; left; reflexivity | destruct (G3 p Hp); [ left; right; assumption | right; assumption ] ].
Qed.
Lemma node_append : forall h1 hc' c' x, moves (ptrs hc) h h1 -> good (ptrs hc) (zlen h) h1 hc' c' ->
  exists ps', refines ps' h1 (let! g := append o g x in ret (W g hc', None)) (Ok (w (l ++ [x]) c', None)) (outcomes (g_ptr g :: ptrs hc) (zlen h)) /\ forall p, In p ps' -> In p (g_ptr g :: ptrs hc) \/ zlen h <= p.
Proof.
  intros h1 hc' c' x M Gd. destruct (node_after h1 hc' c' M Gd) as (H1 & N1). destruct Gd as (G1 & G2 & G3). exists [g_ptr g]. split; [ | intros p [ <- | [] ]; left; left; reflexivity ].
  destruct (append_hold o G g x l h1 H1) as (h2 & g2 & E & M2 & H2 & P). inversion N1 as [ | ? ? N2 N3 ]; subst. exists h2, (W g2 hc', None). unfold then_. rewrite E. split; [ reflexivity | ]. split; [ exact M2 | ].
  assert (zlen h <= zlen h1) by (destruct M; lia).
  split; [ | exact I ]. cbn [fst]. split; [ apply Wrep; [ exact H2 | apply (rep_moves [g_ptr g] h1); [ exact M2 | exact G1 | intros p Hp [ <- | [] ]; exact (N2 Hp) ] ] | ]. rewrite Wptrs. split.
  - constructor; [ | exact G2 ]. intro Hin. destruct P as [ P | P ]; [ rewrite P in Hin; exact (N2 Hin) | pose proof (rep_range _ _ _ G1 _ Hin); lia ].
  - intros p [ <- | Hp ]; [ destruct P; [ left; left; congruence | right; lia ] | destruct (G3 p Hp); [ left; right; assumption | right; assumption ] ].
Qed.
End Node1.

(** UnionBuilder *)
Section NodeU.
Variables (h : mem) (t i : gbuf) (l m : list Z) (hcs : list hbuilder).
Hypothesis Ht : hold h t l.
Hypothesis Hi : hold h i m.
Hypothesis N : NoDup (g_ptr t :: g_ptr i :: flat_map ptrs hcs).
Let all := g_ptr t :: g_ptr i :: flat_map ptrs hcs.
Lemma union_after : forall h1 hcs' cs', moves (flat_map ptrs hcs) h h1 -> goods (flat_map ptrs hcs) (zlen h) h1 hcs' cs' ->
  hold h1 t l /\ hold h1 i m /\ NoDup (g_ptr t :: g_ptr i :: flat_map ptrs hcs').
Proof.
  intros h1 hcs' cs' M (G1 & G2 & G3). inversion N as [ | ? ? N1 N2 ]; subst. inversion N2 as [ | ? ? N3 N4 ]; subst.
  split; [ apply (hold_moves h h1 (flat_map ptrs hcs)); [ exact Ht | exact M | intro; apply N1; right; assumption ] | ]. split; [ apply (hold_moves h h1 (flat_map ptrs hcs)); assumption | ].
  rewrite <- (app_nil_r (flat_map ptrs hcs')). apply (NoDup_swap [g_ptr t; g_ptr i] (flat_map ptrs hcs) (flat_map ptrs hcs') [] (zlen h)); [ rewrite app_nil_r; exact N | exact G2 | exact G3 | ].
  pose proof (hold_range _ _ _ Ht). pose proof (hold_range _ _ _ Hi). intros q [ [ <- | [ <- | [] ] ] | [] ]; lia.
Qed.
Lemma union_keep : forall h1 hcs' cs' current, moves (flat_map ptrs hcs) h h1 -> goods (flat_map ptrs hcs) (zlen h) h1 hcs' cs' ->
  exists ps', refines ps' h1 (ret (HUnion t i hcs' current, None)) (Ok (BUnion l m cs' current, None)) (outcomes all (zlen h)) /\ forall p, In p ps' -> In p all \/ zlen h <= p.
Proof.
  intros h1 hcs' cs' current M Gd. destruct (union_after h1 hcs' cs' M Gd) as (H1 & H2 & N1). destruct Gd as (G1 & G2 & G3). exists []. split; [ | intros p [] ]. apply ref_ret. split; [ | exact I ]. cbn [fst].
  split; [ split; [ exact H1 | split; [ exact H2 | split; [ exact G1 | reflexivity ] ] ] | ]. cbn [ptrs]. split; [ exact N1 | ].
  unfold all. intros p [ <- | [ <- | Hp ] ]; [ left; left; reflexivity | left; right; left; reflexivity | destruct (G3 p Hp); [ left; right; right; assumption | right; assumption ] ].
Qed.
Lemma union_append : forall h1 hcs' cs' current x y, moves (flat_map ptrs hcs) h h1 -> goods (flat_map ptrs hcs) (zlen h) h1 hcs' cs' ->
  exists ps', refines ps' h1 (let! t := append o t x in let! i := append o i y in ret (HUnion t i hcs' current, None)) (Ok (BUnion (l ++ [x]) (m ++ [y]) cs' current, None)) (outcomes all (zlen h))
    /\ forall p, In p ps' -> In p all \/ zlen h <= p.
Proof.
  intros h1 hcs' cs' current x y M Gd. destruct (union_after h1 hcs' cs' M Gd) as (H1 & H2 & N1). destruct Gd as (G1 & G2 & G3).
  exists [g_ptr t; g_ptr i]. split; [ | unfold all; intros p [ <- | [ <- | [] ] ]; left; [ left | right; left ]; reflexivity ].
  destruct (append2 t i x y l m (flat_map ptrs hcs') h1 H1 H2 N1) as (h2 & t2 & i2 & E & M2 & H3 & H4 & N2 & O2); [ intros q Hq; exact (proj2 (reps_range _ _ _ G1 q Hq)) | ].
  exists h2, (HUnion t2 i2 hcs' current, None). rewrite E. split; [ reflexivity | ]. split; [ exact M2 | ]. assert (zlen h <= zlen h1) by (destruct M; lia).
  inversion N1 as [ | ? ? N3 N4 ]; subst. inversion N4 as [ | ? ? N5 N6 ]; subst.
  split; [ | exact I ]. cbn [fst]. split; [ split; [ exact H3 | split; [ exact H4 | split; [ | reflexivity ] ] ] | ].
  - apply (reps_moves [g_ptr t; g_ptr i] h1); [ exact M2 | exact G1 | ]. intros p Hp [ <- | [ <- | [] ] ]; [ apply N3; right; exact Hp | exact (N5 Hp) ].
  - cbn [ptrs]. split; [ exact N2 | ]. unfold all. intros p [ <- | [ <- | Hp ] ].
    + destruct (O2 (g_ptr t2)) as [ [ Hx | [ Hx | [] ] ] | Hx ]; [ left; reflexivity | left; left; exact Hx | left; right; left; exact Hx | right; lia ].
    + destruct (O2 (g_ptr i2)) as [ [ Hx | [ Hx | [] ] ] | Hx ]; [ right; left; reflexivity | left; left; exact Hx | left; right; left; exact Hx | right; lia ].
    + destruct (G3 p Hp); [ left; right; right; assumption | right; assumption ].
Qed.
End NodeU.

Lemma goods_self : forall ps n h hcs cs, all2 (rep h) hcs cs -> NoDup (flat_map ptrs hcs) -> (forall p, In p (flat_map ptrs hcs) -> In p ps) -> goods ps n h hcs cs.
Proof. intros. split; [ assumption | split; [ assumption | auto ] ]. Qed.
(** a new content *)
Lemma goods_push : forall h h1 hcs cs hc c, all2 (rep h) hcs cs -> NoDup (flat_map ptrs hcs) -> moves [] h h1 -> good [] (zlen h) h1 hc c ->
  goods (flat_map ptrs hcs) (zlen h) h1 (hcs ++ [hc]) (cs ++ [c]).
Proof.
  intros h h1 hcs cs hc c H N M (G1 & G2 & G3). assert (G3' : forall p, In p (ptrs hc) -> zlen h <= p) by (intros p Hp; destruct (G3 p Hp) as [ [] | ]; assumption).
  split; [ apply all2_app; [ apply (reps_moves [] h); [ exact M | exact H | auto ] | split; [ exact G1 | exact I ] ] | ]. rewrite flat_map_app. cbn [flat_map]. rewrite app_nil_r. split.
  - apply NoDup_app_iff. split; [ exact N | split; [ exact G2 | ] ]. intros p Hp Hq. pose proof (reps_range _ _ _ H p Hp). specialize (G3' p Hq). lia.
  - intros p Hp. apply in_app_or in Hp as [ Hp | Hp ]; [ left; exact Hp | right; auto ].
Qed.

Lemma unknown_ok : forall n, does (HUnknown n).
Proof.
  intros n k b h R N. destruct b as [ n' | | | | | | | | ]; try contradiction. cbn [rep] in R. subst n'.
  assert (U : refines [] h (let! c := hfresh_for o k in if n =? 0 then ret (HUnknown n, Some c) else
        let! index := full_buffer o (-1) n in let! index := (if is_leaf k then append o index 0 else ret index) in ret (HUnknown n, Some (HOption index c)))
      (let* c := fresh_for k in if n =? 0 then Ok (BUnknown n, Some c) else if n <? 0 then UB
        else Ok (BUnknown n, Some (BOption (repeat (-1) (Z.to_nat n) ++ if is_leaf k then [0] else []) c))) (outcomes [] (zlen h))).
  { assert (Gn : forall h', good [] (zlen h) h' (HUnknown n) (BUnknown n)) by (intros h'; split; [ reflexivity | split; [ constructor | intros p [] ] ]).
    eapply ref_bind; [ apply fresh_for_ok | auto | ]. intros h1 hc c M1 (G1 & G2 & G3). exists []. split; [ | intros p [] ].
    assert (G3' : forall p, In p (ptrs hc) -> zlen h <= p) by (intros p Hp; destruct (G3 p Hp) as [ [] | ]; assumption).
    destruct (n =? 0); [ apply ref_ret; split; [ apply Gn | split; [ exact G1 | split; assumption ] ] | ].
    destruct (Z.ltb_spec n 0) as [ Hn | Hn ]; [ unfold refines, then_; rewrite full_negative by assumption; reflexivity | ].
    destruct (full_hold o G (-1) n h1 Hn) as (h2 & g & E & M2 & H2 & P2). assert (zlen h <= zlen h1) by (destruct M1; lia).
    assert (A : exists h3 g3, (if is_leaf k then append o g 0 else ret g) h2 = Ok (h3, g3) /\ moves [g_ptr g] h2 h3 /\ hold h3 g3 (repeat (-1) (Z.to_nat n) ++ if is_leaf k then [0] else []) /\ zlen h1 <= g_ptr g3).
    { destruct (is_leaf k).
      - destruct (append_hold o G g 0 _ h2 H2) as (h3 & g3 & E3 & M3 & H3 & P3). exists h3, g3. split; [ exact E3 | ]. split; [ exact M3 | ]. split; [ exact H3 | destruct M2; lia ].
      - exists h2, g. rewrite app_nil_r. split; [ reflexivity | ]. split; [ apply moves_refl | ]. split; [ exact H2 | lia ]. }
    destruct A as (h3 & g3 & E3 & M3 & H3 & P3).
    exists h3, (HUnknown n, Some (HOption g3 hc)). unfold then_. rewrite E. cbn [bind fst snd]. rewrite E3. split; [ reflexivity | ].
    assert (M13 : moves [] h1 h3) by (apply (moves_trans _ [g_ptr g] _ h2); [ exact M2 | exact M3 | intros p [ <- | [] ]; right; lia ]). split; [ exact M13 | ].
    split; [ apply Gn | ]. cbn [snd]. split; [ split; [ exact H3 | apply (rep_moves [] h1); [ exact M13 | exact G1 | auto ] ] | ]. cbn [ptrs]. split.
    - constructor; [ | exact G2 ]. intro Hin. pose proof (rep_range _ _ _ G1 _ Hin). lia.
    - intros p [ <- | Hp ]; right; [ lia | auto ]. }
  destruct k; cbn [hstep step]; try exact U; try reflexivity.
  apply ref_ret. split; [ | exact I ]. split; [ reflexivity | split; [ constructor | intros p [] ] ].
Qed.

Lemma option_ok : forall g hc, does hc -> does (HOption g hc).
Proof.
  intros g hc D k b h R N. destruct b as [ | | | | l c | | | | ]; try contradiction. destruct R as [ Hg Rc ]. cbn [ptrs] in *. inversion N as [ | ? ? N1 N2 ]; subst.
  pose proof (fun h1 hc' c' => node_keep HOption BOption (fun _ _ => eq_refl) (fun _ _ _ _ _ a b => conj a b) h g l hc Hg N h1 hc' c') as Keep.
  pose proof (fun h1 hc' c' x => node_append HOption BOption (fun _ _ => eq_refl) (fun _ _ _ _ _ a b => conj a b) h g l hc Hg N h1 hc' c' x) as App.
  assert (Self : good (ptrs hc) (zlen h) h hc c) by (apply good_self; auto).
  assert (Sub : forall p, In p (ptrs hc) -> In p (g_ptr g :: ptrs hc) \/ zlen h <= p) by (intros p Hp; left; right; exact Hp).
  cbn [hstep step]. rewrite (rep_active _ _ _ Rc). destruct (active c).
  - eapply ref_bind; [ apply D; eassumption | exact Sub | ]. intros h1 x y M Hxy. destruct Hxy as [ Gd _ ].
    rewrite (rep_length _ _ _ Rc), (rep_length _ _ _ (proj1 Gd)). destruct (is_end k && negb (blength c =? blength (fst y))); [ apply App; assumption | apply Keep; assumption ].
  - assert (Leaf : refines (g_ptr g :: ptrs hc) h (let! r := hstep rc o hc k in let! index := append o g (hlength hc) in ret (HOption index (hreturned r), None))
        (let* r := step rc c k in Ok (BOption (l ++ [blength c]) (returned r), None)) (outcomes (g_ptr g :: ptrs hc) (zlen h))).
    { eapply ref_bind; [ apply D; eassumption | exact Sub | ]. intros h1 x y M Hxy. rewrite (rep_length _ _ _ Rc). apply App; [ exact M | exact (outcomes_returned _ _ _ _ _ Hxy) ]. }
    assert (Begin : refines (g_ptr g :: ptrs hc) h (let! r := hstep rc o hc k in ret (HOption g (hreturned r), None))
        (let* r := step rc c k in Ok (BOption l (returned r), None)) (outcomes (g_ptr g :: ptrs hc) (zlen h))).
    { eapply ref_bind; [ apply D; eassumption | exact Sub | ]. intros h1 x y M Hxy. apply Keep; [ exact M | exact (outcomes_returned _ _ _ _ _ Hxy) ]. }
    destruct k; try exact Leaf; try exact Begin; try reflexivity.
    destruct (App h hc c (-1) (moves_refl _ _) Self) as (ps' & K & Kp). eapply ref_more; [ exact K | exact Kp | auto ].
Qed.

Lemma list_ok : forall g hc begun, does hc -> does (HList g hc begun).
Proof.
  intros g hc begun D k b h R N. destruct b as [ | | | | | l c begun' | | | ]; try contradiction. pose proof R as (Hg & Rc & Hb). subst begun'. pose proof N as N0. cbn [ptrs] in N0. inversion N0 as [ | ? ? N1 N2 ]; subst.
  pose proof (fun bg h1 hc' c' => node_keep (fun g hc => HList g hc bg) (fun l c => BList l c bg) (fun _ _ => eq_refl) (fun _ _ _ _ _ a b => conj a (conj b eq_refl)) h g l hc Hg N0 h1 hc' c') as Keep.
  pose proof (fun bg h1 hc' c' x => node_append (fun g hc => HList g hc bg) (fun l c => BList l c bg) (fun _ _ => eq_refl) (fun _ _ _ _ _ a b => conj a (conj b eq_refl)) h g l hc Hg N0 h1 hc' c' x) as App.
  cbv beta in Keep, App.
  assert (Self : good (ptrs hc) (zlen h) h hc c) by (apply good_self; auto).
  assert (Sub : forall p, In p (ptrs hc) -> In p (g_ptr g :: ptrs hc) \/ zlen h <= p) by (intros p Hp; left; right; exact Hp).
  cbn [hstep step]. destruct begun.
  - assert (First : refines (g_ptr g :: ptrs hc) h (let! r := hstep rc o hc k in ret (HList g (fst r) true, None)) (let* r := step rc c k in Ok (BList l (fst r) true, None)) (outcomes (g_ptr g :: ptrs hc) (zlen h))).
    { eapply ref_bind; [ apply D; eassumption | exact Sub | ]. intros h1 x y M Hxy. apply (Keep true); [ exact M | exact (proj1 Hxy) ]. }
    assert (Ret : refines (g_ptr g :: ptrs hc) h (let! r := hstep rc o hc k in ret (HList g (hreturned r) true, None)) (let* r := step rc c k in Ok (BList l (returned r) true, None)) (outcomes (g_ptr g :: ptrs hc) (zlen h))).
    { eapply ref_bind; [ apply D; eassumption | exact Sub | ]. intros h1 x y M Hxy. apply (Keep true); [ exact M | exact (outcomes_returned _ _ _ _ _ Hxy) ]. }
    destruct k; try exact First; try exact Ret. rewrite (rep_active _ _ _ Rc). destruct (active c); [ exact Ret | ]. rewrite (rep_length _ _ _ Rc).
    destruct (App false h hc c (blength c) (moves_refl _ _) Self) as (ps' & K & Kp). eapply ref_more; [ exact K | exact Kp | auto ].
  - assert (Else : forall k, refines (g_ptr g :: ptrs hc) h (helsewhere o (HList g hc false) k) (elsewhere (BList l c false) k) (outcomes (g_ptr g :: ptrs hc) (zlen h))) by (intros k'; exact (elsewhere_ok h (HList g hc false) (BList l c false) k' R N)).
    destruct k; try apply Else. destruct (Keep true h hc c (moves_refl _ _) Self) as (ps' & K & Kp). eapply ref_more; [ exact K | exact Kp | auto ].
Qed.

Lemma tuple_ok : forall hcs len begun next, Forall does hcs -> does (HTuple hcs len begun next).
Proof.
  intros hcs len begun next D k b h R N. destruct b as [ | | | | | | cs len' begun' next' | | ]; try contradiction. pose proof R as (H & E1 & E2 & E3). subst len' begun' next'. cbn [ptrs] in *.
  cbn [hstep step]. destruct begun.
  - assert (First : refines (flat_map ptrs hcs) h
        (let! p := nth_comp (fun c => let! r := hstep rc o c k in ret (c, r)) hcs next in ret (HTuple (upd hcs (Z.to_nat next) (fst (snd p))) len true next, None))
        (let* p := nth_apply (fun c => let* r := step rc c k in Ok (c, r)) cs next in Ok (BTuple (upd cs (Z.to_nat next) (fst (snd p))) len true next, None)) (outcomes (flat_map ptrs hcs) (zlen h))).
    { apply (inner_fst hcs cs next k h (fun cs => HTuple cs len true next) (fun cs => BTuple cs len true next) D H N). intros. apply tuple_good; assumption. }
    assert (Both : refines (flat_map ptrs hcs) h
        (let! p := nth_comp (fun c => let! r := hstep rc o c k in ret (c, r)) hcs next in ret (HTuple (upd hcs (Z.to_nat next) (if hactive (fst p) then fst (snd p) else hreturned (snd p))) len true next, None))
        (let* p := nth_apply (fun c => let* r := step rc c k in Ok (c, r)) cs next in let c' := if active (fst p) then fst (snd p) else returned (snd p) in Ok (BTuple (upd cs (Z.to_nat next) c') len true next, None)) (outcomes (flat_map ptrs hcs) (zlen h))).
    { apply (inner_both hcs cs next k h (fun cs => HTuple cs len true next) (fun cs => BTuple cs len true next) D H N). intros. apply tuple_good; assumption. }
    destruct k; try (destruct (next =? -1); [ reflexivity | ]; first [ exact Both | exact First ]).
    + rewrite (all2_zlen _ _ _ H). destruct (zlen cs <=? i); [ reflexivity | ]. eapply ref_bind; [ apply inner_active_ok; exact H | intros p [] | ].
      intros h' a a' M (-> & ->). exists (flat_map ptrs hcs). split; [ | auto ]. destruct a'; [ exact First | ]. apply ref_ret. split; [ | exact I ]. apply tuple_good, goods_self; auto.
    + eapply ref_bind; [ apply inner_active_ok; exact H | intros p [] | ].
      intros h' a a' M (-> & ->). exists (flat_map ptrs hcs). split; [ | auto ]. destruct a'; [ exact First | ].
      apply (end_all_ok len hcs cs h (fun cs => HTuple cs (len + 1) false next) (fun cs => BTuple cs (len + 1) false next) D H N). intros. apply tuple_good; assumption.
  - assert (Else : forall k, refines (flat_map ptrs hcs) h (helsewhere o (HTuple hcs len false next) k) (elsewhere (BTuple cs len false next) k) (outcomes (flat_map ptrs hcs) (zlen h))) by (intros k'; exact (elsewhere_ok h (HTuple hcs len false next) (BTuple cs len false next) k' R N)).
    destruct k; try apply Else. destruct (Z.ltb_spec numfields 0); [ reflexivity | ]. cbv zeta.
    set (hcs2 := if len =? -1 then hcs ++ repeat (HUnknown 0) (Z.to_nat numfields) else hcs). set (cs2 := if len =? -1 then cs ++ repeat (BUnknown 0) (Z.to_nat numfields) else cs). set (len2 := if len =? -1 then 0 else len).
    assert (H2 : all2 (rep h) hcs2 cs2) by (unfold hcs2, cs2; destruct (len =? -1); [ apply all2_app; [ exact H | apply all2_repeat ] | exact H ]).
    assert (F2 : flat_map ptrs hcs2 = flat_map ptrs hcs) by (unfold hcs2; destruct (len =? -1); [ rewrite flat_map_app, flat_repeat, app_nil_r | ]; reflexivity).
    rewrite (all2_zlen _ _ _ H2). destruct (numfields =? zlen cs2).
    + apply ref_ret. split; [ | exact I ]. apply tuple_good, goods_self; [ exact H2 | rewrite F2; exact N | rewrite F2; auto ].
    + assert (R2 : rep h (HTuple hcs2 len2 false next) (BTuple cs2 len2 false next)) by (split; [ exact H2 | auto ]).
      assert (N2 : NoDup (ptrs (HTuple hcs2 len2 false next))) by (cbn [ptrs]; rewrite F2; exact N).
      eapply ref_bind; [ apply (union_of_ok h _ _ (CBeginTuple numfields) R2 N2) | intros p [] | ]. intros h' hu u M K. exists []. split; [ | intros p [] ]. apply ref_ret. split.
      * apply tuple_good, goods_self; [ apply (reps_moves [] h); [ exact M | exact H2 | auto ] | rewrite F2; exact N | rewrite F2; auto ].
      * cbn [snd ptrs] in *. rewrite F2 in K. exact K.
Qed.

Lemma record_ok : forall hcs keys len begun next try, Forall does hcs -> does (HRecord hcs keys len begun next try).
Proof.
  intros hcs keys len begun next try D k b h R N. destruct b as [ | | | | | | | cs keys' len' begun' next' try' | ]; try contradiction. pose proof R as (H & E1 & E2 & E3 & E4 & E5 & L1 & L2). subst keys' len' begun' next' try'. cbn [ptrs] in *.
  cbn [hstep step]. destruct begun.
  - specialize (L2 eq_refl).
    assert (First : refines (flat_map ptrs hcs) h
        (let! p := nth_comp (fun c => let! r := hstep rc o c k in ret (c, r)) hcs next in ret (HRecord (upd hcs (Z.to_nat next) (fst (snd p))) keys len true next try, None))
        (let* p := nth_apply (fun c => let* r := step rc c k in Ok (c, r)) cs next in Ok (BRecord (upd cs (Z.to_nat next) (fst (snd p))) keys len true next try, None)) (outcomes (flat_map ptrs hcs) (zlen h))).
    { apply (inner_fst hcs cs next k h (fun cs => HRecord cs keys len true next try) (fun cs => BRecord cs keys len true next try) D H N). intros. apply record_good; auto. }
    assert (Both : refines (flat_map ptrs hcs) h
        (let! p := nth_comp (fun c => let! r := hstep rc o c k in ret (c, r)) hcs next in ret (HRecord (upd hcs (Z.to_nat next) (if hactive (fst p) then fst (snd p) else hreturned (snd p))) keys len true next try, None))
        (let* p := nth_apply (fun c => let* r := step rc c k in Ok (c, r)) cs next in let c' := if active (fst p) then fst (snd p) else returned (snd p) in Ok (BRecord (upd cs (Z.to_nat next) c') keys len true next try, None)) (outcomes (flat_map ptrs hcs) (zlen h))).
    { apply (inner_both hcs cs next k h (fun cs => HRecord cs keys len true next try) (fun cs => BRecord cs keys len true next try) D H N). intros. apply record_good; auto. }
    destruct k; try (destruct (next =? -1); [ reflexivity | ]; first [ exact Both | exact First ]).
    + eapply ref_bind; [ apply inner_active_ok; exact H | intros p [] | ].
      intros h' a a' M (-> & ->). exists (flat_map ptrs hcs). split; [ | auto ]. destruct a'; [ exact First | ].
      apply (ref_bind [] _ h _ _ (fun h' x y => h' = h /\ x = y)); [ | intros p [] | ].
      { destruct (search_key (S (S (Datatypes.length keys))) keys key try try) as [ f | e | ]; try reflexivity. exists h, f. split; [ reflexivity | ]. split; [ apply moves_refl | auto ]. }
      intros h' x y _ (-> & ->). destruct y as [ i | ].
      * exists []. split; [ | intros p [] ]. apply ref_ret. split; [ | exact I ]. apply record_good; [ apply goods_self; auto | auto | auto ].
      * exists []. split; [ | intros p [] ].
        assert (A : exists h1 hc, (if len =? 0 then ret (HUnknown 0) else let! index := full_buffer o (-1) len in ret (HOption index (HUnknown 0))) h = Ok (h1, hc) /\ moves [] h h1 /\
                      good [] (zlen h) h1 hc (if len =? 0 then BUnknown 0 else BOption (repeat (-1) (Z.to_nat len)) (BUnknown 0))).
        { destruct (len =? 0); [ exists h, (HUnknown 0); split; [ reflexivity | split; [ apply moves_refl | split; [ reflexivity | split; [ constructor | intros p [] ] ] ] ] | ].
          destruct (full_hold o G (-1) len h L2) as (h1 & g & E & M1 & H1 & P). exists h1, (HOption g (HUnknown 0)). unfold then_. rewrite E. split; [ reflexivity | ]. split; [ exact M1 | ].
          split; [ split; [ exact H1 | reflexivity ] | ]. cbn [ptrs]. split; [ apply NoDup1 | ]. intros p [ <- | [] ]. right. lia. }
        destruct A as (h1 & hc & E & M1 & Gd). eexists h1, _. unfold then_ at 1. rewrite E. split; [ reflexivity | ]. split; [ exact M1 | ]. cbv zeta.
        split; [ | exact I ]. apply record_good; [ apply goods_push; assumption | auto | auto ].
    + eapply ref_bind; [ apply inner_active_ok; exact H | intros p [] | ].
      intros h' a a' M (-> & ->). exists (flat_map ptrs hcs). split; [ | auto ]. destruct a'; [ exact First | ].
      apply (end_all_ok len hcs cs h (fun cs => HRecord cs keys (len + 1) false next try) (fun cs => BRecord cs keys (len + 1) false next try) D H N). intros. apply record_good; [ assumption | lia | discriminate ].
  - assert (Else : forall k, refines (flat_map ptrs hcs) h (helsewhere o (HRecord hcs keys len false next try) k) (elsewhere (BRecord cs keys len false next try) k) (outcomes (flat_map ptrs hcs) (zlen h))) by (intros k'; exact (elsewhere_ok h (HRecord hcs keys len false next try) (BRecord cs keys len false next try) k' R N)).
    destruct k; try apply Else. apply ref_ret. split; [ | exact I ]. apply record_good; [ apply goods_self; auto | destruct (Z.eqb_spec len (-1)); lia | destruct (Z.eqb_spec len (-1)); lia ].
Qed.

Lemma union_ok : forall t i hcs current, Forall does hcs -> does (HUnion t i hcs current).
Proof.
  intros t i hcs current D k b h R N. destruct b as [ | | | | | | | | l m cs current' ]; try contradiction. pose proof R as (Ht & Hi & H & E). subst current'. cbn [ptrs] in *.
  pose proof (union_keep h t i l m hcs Ht Hi N) as Keep. pose proof (union_append h t i l m hcs Ht Hi N) as App. cbv zeta in Keep, App.
  assert (N0 : NoDup (flat_map ptrs hcs)) by (inversion N; subst; match goal with X : NoDup (_ :: _) |- _ => inversion X; subst; assumption end).
  assert (Sub : forall p, In p (flat_map ptrs hcs) -> In p (g_ptr t :: g_ptr i :: flat_map ptrs hcs) \/ zlen h <= p) by (intros p Hp; left; right; right; exact Hp).
  rewrite Forall_forall in D.
  cbn [hstep step]. destruct (current =? -1).
  - assert (Some_ : refines (g_ptr t :: g_ptr i :: flat_map ptrs hcs) h
      (match hchoose hcs k with
       | Some j =>
           let! p := nth_comp (fun c => match c, k with
                                        | HInt g, CReal x => let! g' := convert_buffer rc o g in let! g' := append o g' x in ret (g_length g, HReal g')
                                        | _, _ => let! r := hstep rc o c k in ret (hlength c, fst r)
                                        end) hcs j in
           let cs := upd hcs (Z.to_nat j) (snd p) in
           if is_leaf k then let! tags := append o t (int8 j) in let! index := append o i (fst p) in ret (HUnion tags index cs (-1), None)
           else ret (HUnion t i cs (int8 j), None)
       | None =>
           let! c := hfresh_for o k in
           if is_leaf k then let! tags := append o t (int8 (zlen hcs)) in let! index := append o i 0 in ret (HUnion tags index (hcs ++ [c]) (-1), None)
           else ret (HUnion t i (hcs ++ [c]) (int8 (zlen hcs)), None)
       end)
      (match choose cs k with
       | Some j =>
           let* p := nth_apply (fun c => match c, k with
                                         | BInt l, CReal x => Ok (zlen l, BReal (map rc l ++ [x]))
                                         | _, _ => let* r := step rc c k in Ok (blength c, fst r)
                                         end) cs j in
           let cs := upd cs (Z.to_nat j) (snd p) in
           if is_leaf k then Ok (BUnion (l ++ [int8 j]) (m ++ [fst p]) cs (-1), None)
           else Ok (BUnion l m cs (int8 j), None)
       | None =>
           let* c := fresh_for k in
           if is_leaf k then Ok (BUnion (l ++ [int8 (zlen cs)]) (m ++ [0]) (cs ++ [c]) (-1), None)
           else Ok (BUnion l m (cs ++ [c]) (int8 (zlen cs)), None)
       end) (outcomes (g_ptr t :: g_ptr i :: flat_map ptrs hcs) (zlen h))).
    { rewrite (choose_ok h hcs cs k H). destruct (choose cs k) as [ j | ].
      - eapply ref_bind; [ apply (nth_ref _ _ hcs cs j h (fun hc c h' x y => good (ptrs hc) (zlen h) h' (snd x) (snd y) /\ fst x = fst y)); [ exact H | exact N0 | ] | exact Sub | ].
        + intros hc c Hin Rc Nc.
          assert (Plain : refines (ptrs hc) h (let! r := hstep rc o hc k in ret (hlength hc, fst r)) (let* r := step rc c k in Ok (blength c, fst r)) (fun h' x y => good (ptrs hc) (zlen h) h' (snd x) (snd y) /\ fst x = fst y)).
          { eapply ref_bind; [ apply (D _ Hin); eassumption | auto | ]. intros h' x y M Hxy. exists []. split; [ | intros p [] ]. apply ref_ret. cbn [fst snd]. split; [ exact (proj1 Hxy) | exact (rep_length _ _ _ Rc) ]. }
          destruct hc, c; try contradiction; try exact Plain. destruct k; try exact Plain. cbn [rep ptrs] in *.
          destruct (convert_hold o G rc _ _ h Rc) as (h1 & g1 & E1 & M1 & H1 & P1). destruct (append_hold o G g1 r _ h1 H1) as (h2 & g2 & E2 & M2 & H2 & P2).
          exists h2, (g_length buffer, HReal g2). unfold then_. rewrite E1. cbn [bind fst snd]. rewrite E2. split; [ reflexivity | ].
          assert (M12 : moves [] h h2) by (apply (moves_trans _ [g_ptr g1] _ h1); [ exact M1 | exact M2 | intros p [ <- | [] ]; right; lia ]).
          split; [ apply (moves_more []); [ exact M12 | intros p [] ] | ]. split; [ | exact (hold_length _ _ _ Rc) ]. split; [ exact H2 | ]. cbn [ptrs]. split; [ apply NoDup1 | ]. intros p [ <- | [] ]. right. destruct M1. lia.
        + intros h' [ x1 x2 ] [ y1 y2 ] M (hc & c & (Gd & E) & _ & U). cbn [fst snd] in *. subst y1. cbv zeta.
          destruct (is_leaf k); [ apply App | apply Keep ]; solve [ exact M | apply U; exact Gd ].
      - eapply ref_bind; [ apply fresh_for_ok | intros p [] | ]. intros h' hc c M Gd. rewrite (all2_zlen _ _ _ H).
        assert (M' : moves (flat_map ptrs hcs) h h') by (apply (moves_more []); [ exact M | intros p [] ]).
        destruct (is_leaf k); [ apply App | apply Keep ]; solve [ exact M' | apply goods_push; assumption ]. }
    destruct k; try exact Some_; try reflexivity.
    eapply ref_bind; [ apply (option_of_ok h (HUnion t i hcs current) (BUnion l m cs current) R N) | intros p [] | ]. intros h' hu u M K. exists []. split; [ | intros p [] ]. apply ref_ret. split; [ | exact K ].
    apply good_self; [ apply (rep_moves [] h); [ exact M | exact R | auto ] | exact N | auto ].
  - eapply ref_bind; [ apply (nth_ref _ _ hcs cs current h (fun hc c h' x y => good (ptrs hc) (zlen h) h' (snd x) (snd y) /\ fst x = fst y)); [ exact H | exact N0 | ] | exact Sub | ].
    + intros hc c Hin Rc Nc. eapply ref_bind; [ apply (D _ Hin); eassumption | auto | ]. intros h' x y M Hxy. exists []. split; [ | intros p [] ]. apply ref_ret. cbn [fst snd]. split; [ exact (proj1 Hxy) | exact (rep_length _ _ _ Rc) ].
    + intros h' [ x1 x2 ] [ y1 y2 ] M (hc & c & (Gd & E) & _ & U). cbn [fst snd] in *. subst y1. rewrite (rep_length _ _ _ (proj1 Gd)). cbv zeta.
      destruct (is_end k && negb (x1 =? blength y2)); [ apply App | apply Keep ]; solve [ exact M | apply U; exact Gd ].
Qed.

Theorem hstep_ok : forall hb, does hb.
Proof.
  induction hb using hbuilder_ind'.
  - apply unknown_ok.
  - intros k b h R N. pose proof (fun k => elsewhere_ok h (HBool g) b k R N) as Else. destruct b; try contradiction. cbn [rep ptrs] in *. cbn [hstep step]. destruct k; try apply Else.
    eapply append_ref; [ exact R | reflexivity | ]. intros h' g' H'. cbn [rep]. rewrite map_app. exact H'.
  - intros k b h R N. pose proof (fun k => elsewhere_ok h (HInt g) b k R N) as Else. destruct b; try contradiction. cbn [rep ptrs] in *. cbn [hstep step]. destruct k; try apply Else.
    + eapply append_ref; [ exact R | reflexivity | ]. intros h' g' H'. exact H'.
    + destruct (convert_hold o G rc _ _ h R) as (h1 & g1 & E1 & M1 & H1 & P1). destruct (append_hold o G g1 r _ h1 H1) as (h2 & g2 & E2 & M2 & H2 & P2).
      exists h2, (HInt g, Some (HReal g2)). unfold then_. rewrite E1. cbn [bind fst snd]. rewrite E2. split; [ reflexivity | ].
      assert (M12 : moves [] h h2) by (apply (moves_trans _ [g_ptr g1] _ h1); [ exact M1 | exact M2 | intros p [ <- | [] ]; right; lia ]).
      split; [ apply (moves_more []); [ exact M12 | intros p [] ] | ]. split.
      * apply good_self; [ apply (rep_moves [] h); [ exact M12 | exact R | auto ] | exact N | auto ].
      * split; [ exact H2 | ]. cbn [ptrs]. split; [ apply NoDup1 | ]. intros p [ <- | [] ]. right. destruct M1. lia.
  - intros k b h R N. pose proof (fun k => elsewhere_ok h (HReal g) b k R N) as Else. destruct b; try contradiction. cbn [rep ptrs] in *. cbn [hstep step]. destruct k; try apply Else.
    + eapply append_ref; [ exact R | reflexivity | ]. intros h' g' H'. exact H'.
    + eapply append_ref; [ exact R | reflexivity | ]. intros h' g' H'. exact H'.
  - apply option_ok; assumption.
  - apply list_ok; assumption.
  - apply tuple_ok; assumption.
  - apply record_ok; assumption.
  - apply union_ok; assumption.
Qed.
End Step.
