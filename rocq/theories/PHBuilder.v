(** Proofs for C24: the nodes in memory (HBuilder.v) do what the nodes on lists (Builder.v) do, and no cell that has been written is
    ever written again. *)
From Coq Require Import String.
From Verif Require Import Base BaseLemmas Content KCore Core KOption Option Merge Growable SpecGrowable PGrowable Builder HBuilder.
Local Open Scope string_scope.
Local Open Scope list_scope.
Local Open Scope Z_scope.

(** ** Memory *)
Definition cell (h : mem) (p i : Z) : option (option Z) := match nthZ h p with Some b => nthZ b i | None => None end.
(** from [h] to [h'] only the blocks [ps] have changed, and no cell written before; new blocks may have come *)
Definition moves (ps : list Z) (h h' : mem) : Prop :=
  zlen h <= zlen h' /\ (forall p i x, cell h p i = Some (Some x) -> cell h' p i = Some (Some x)) /\
  (forall p, p < zlen h -> ~ In p ps -> nthZ h' p = nthZ h p).
Lemma moves_refl : forall ps h, moves ps h h.
Proof. intros. split; [ lia | ]. split; auto. Qed.
Lemma moves_trans : forall ps qs h h1 h2, moves ps h h1 -> moves qs h1 h2 -> (forall p, In p qs -> In p ps \/ zlen h <= p) -> moves ps h h2.
Proof.
  intros ps qs h h1 h2 (A1 & A2 & A3) (B1 & B2 & B3) H. split; [ lia | ]. split; [ auto | ].
  intros p Hp Hn. rewrite B3; [ auto | lia | ]. intro Hq. destruct (H p Hq); [ contradiction | lia ].
Qed.
Lemma moves_more : forall ps qs h h', moves ps h h' -> (forall p, In p ps -> In p qs \/ zlen h <= p) -> moves qs h h'.
Proof. intros ps qs h h' (A1 & A2 & A3) H. split; [ exact A1 | ]. split; [ exact A2 | ]. intros p Hp Hn. apply A3; [ exact Hp | ]. intro Hq. destruct (H p Hq); [ contradiction | lia ]. Qed.

(** buffer [g] has the items [l], and the rest of its block is unwritten *)
Definition hold (h : mem) (g : gbuf) (l : list Z) : Prop :=
  exists rest, nthZ h (g_ptr g) = Some (map Some l ++ rest) /\ unwritten rest /\ zlen l + zlen rest = g_reserved g
    /\ g_length g = zlen l /\ 1 <= g_reserved g.
Lemma hold_range : forall h g l, hold h g l -> 0 <= g_ptr g < zlen h.
Proof. intros h g l (rest & H & _). exact (nthZ_Some _ _ _ H). Qed.
Lemma hold_length : forall h g l, hold h g l -> g_length g = zlen l.
Proof. intros h g l (rest & _ & _ & _ & H & _). exact H. Qed.
Lemma hold_moves : forall h h' ps g l, hold h g l -> moves ps h h' -> ~ In (g_ptr g) ps -> hold h' g l.
Proof.
  intros h h' ps g l H (_ & _ & M) Hn. pose proof (hold_range _ _ _ H) as R. destruct H as (rest & H & K). exists rest. split; [ | exact K ].
  rewrite M; [ exact H | lia | exact Hn ].
Qed.
Lemma hold_starts : forall h g l, hold h g l -> starts h (g_ptr g) l (g_reserved g).
Proof. intros h g l (rest & H & _ & E & _). exists rest. auto. Qed.
Lemma fresh_hold : forall h h' g l, fresh h h' g l -> hold h' g l /\ moves [] h h' /\ g_ptr g = zlen h.
Proof.
  intros h h' g l (rest & -> & -> & H1 & Hu). split; [ | split; [ | reflexivity ] ].
  - exists rest. cbn [g_ptr g_length g_reserved] in *. split; [ apply nthZ_mid | ]. auto.
  - split; [ rewrite zlen_app, zlen_cons, zlen_nil; lia | ]. split.
    + intros p i x H. unfold cell in *. destruct (nthZ h p) as [ b | ] eqn:E; [ | discriminate ].
      pose proof (nthZ_Some _ _ _ E). rewrite nthZ_app. destruct (Z.ltb_spec p (zlen h)); [ | lia ]. rewrite E. exact H.
    + intros p Hp _. rewrite nthZ_app. destruct (Z.ltb_spec p (zlen h)); [ reflexivity | lia ].
Qed.

(** ** Computations that do the same *)
Definition refines {A B} (ps : list Z) (h : mem) (m : comp A) (r : res B) (R : mem -> A -> B -> Prop) : Prop :=
  match r with
  | Ok y => exists h' x, m h = Ok (h', x) /\ moves ps h h' /\ R h' x y
  | Err e => m h = Err e
  | UB => m h = UB
  end.
Lemma ref_ret : forall {A B} ps h (x : A) (y : B) (R : mem -> A -> B -> Prop), R h x y -> refines ps h (ret x) (Ok y) R.
Proof. intros. exists h, x. split; [ reflexivity | ]. split; [ apply moves_refl | assumption ]. Qed.
Lemma ref_bind : forall {A B C D} ps qs h (m : comp A) (r : res B) (R : mem -> A -> B -> Prop) (f : A -> comp C) (g : B -> res D) S,
  refines ps h m r R ->
  (forall p, In p ps -> In p qs \/ zlen h <= p) ->
  (forall h' x y, moves ps h h' -> R h' x y -> exists ps', refines ps' h' (f x) (g y) S /\ forall p, In p ps' -> In p qs \/ zlen h <= p) ->
  refines qs h (then_ m f) (bind r g) S.
Proof.
  intros A B C D ps qs h m r R f g S H Hp K. unfold then_. destruct r as [ y | e | ]; cbn [bind refines] in *; [ | rewrite H; reflexivity | rewrite H; reflexivity ].
  destruct H as (h' & x & E & M & HR). destruct (K h' x y M HR) as (ps' & K' & Hps').
  destruct (g y) as [ z | e | ]; cbn [refines] in *; rewrite E; cbn [bind fst snd]; [ | exact K' | exact K' ].
  destruct K' as (h2 & x2 & E2 & M2 & S2). exists h2, x2. split; [ exact E2 | ]. split; [ | exact S2 ].
  apply (moves_trans _ ps' _ h'); [ apply (moves_more ps); assumption | exact M2 | exact Hps' ].
Qed.
(** a computation that has no counterpart *)
Lemma ref_silent : forall {A C D} ps qs h (m : comp A) (R : mem -> A -> Prop) (f : A -> comp C) (r : res D) S,
  (exists h' x, m h = Ok (h', x) /\ moves ps h h' /\ R h' x) ->
  (forall p, In p ps -> In p qs \/ zlen h <= p) ->
  (forall h' x, moves ps h h' -> R h' x -> exists ps', refines ps' h' (f x) r S /\ forall p, In p ps' -> In p qs \/ zlen h <= p) ->
  refines qs h (then_ m f) r S.
Proof.
  intros A C D ps qs h m R f r S H Hp K. change r with (bind (Ok tt) (fun _ => r)).
  apply (ref_bind ps qs h m (Ok tt) (fun h x _ => R h x)); [ exact H | exact Hp | ]. intros h' x _ M HR. exact (K h' x M HR).
Qed.
Lemma ref_more : forall {A B} ps qs h (m : comp A) (r : res B) (R S : mem -> A -> B -> Prop),
  refines ps h m r R -> (forall p, In p ps -> In p qs \/ zlen h <= p) -> (forall h' x y, moves ps h h' -> R h' x y -> S h' x y) -> refines qs h m r S.
Proof.
  intros A B ps qs h m r R S H Hp K. destruct r; cbn [refines] in *; [ | exact H | exact H ].
  destruct H as (h' & x & E & M & HR). exists h', x. split; [ exact E | ]. split; [ exact (moves_more _ _ _ _ M Hp) | exact (K _ _ _ M HR) ].
Qed.
(** after changes before [h], the new blocks count as free *)

(** ** Buffers *)
Section Buffers.
Variable o : options.
Hypothesis G : growing o.
Lemma append_hold : forall g x l h, hold h g l ->
  exists h' g', append o g x h = Ok (h', g') /\ moves [g_ptr g] h h' /\ hold h' g' (l ++ [x]) /\ (g_ptr g' = g_ptr g \/ zlen h <= g_ptr g').
Proof.
  intros g x l h H. destruct G as (Gi & Gg).
  assert (store1 : forall h g l, hold h g l -> zlen l < g_reserved g -> exists h', store h (g_ptr g) (g_length g) (Some x) = Ok h' /\ moves [g_ptr g] h h' /\ hold h' (mkGbuf (g_ptr g) (g_length g + 1) (g_reserved g)) (l ++ [x])).
  { clear h g l H. intros h g l (rest & N & U & E & L & R) Hlt. pose proof (nthZ_Some _ _ _ N) as Hp.
    destruct rest as [ | y rest ]; [ rewrite zlen_nil in E; lia | ]. inversion U as [ | ? ? Uy U' ]; subst y.
    unfold store. rewrite (proj2 (rd_Ok h _ _) N). cbn [bind].
    pose proof (@wr_push _ (map Some l) None rest (Some x)) as W. rewrite zlen_map in W. rewrite L, W. cbn [bind].
    rewrite wr_Ok by assumption. eexists. split; [ reflexivity | ]. split; [ split; [ rewrite zlen_upd; lia | split ] | ].
    - intros p i z Hc. unfold cell in *. rewrite nthZ_upd by lia. destruct (Z.eqb_spec p (Z.of_nat (Z.to_nat (g_ptr g)))) as [ -> | Hne ]; [ | exact Hc ].
      rewrite Z2Nat.id in Hc by lia. rewrite N in Hc. rewrite nthZ_app, zlen_map in Hc. rewrite <- app_assoc, nthZ_app, zlen_map.
      destruct (Z.ltb_spec i (zlen l)); [ exact Hc | ]. exfalso. rewrite nthZ_cons in Hc. destruct (i - zlen l =? 0); [ discriminate | ].
      apply nthZ_In in Hc. unfold unwritten in U'. rewrite Forall_forall in U'. specialize (U' _ Hc). discriminate.
    - intros p Hp' Hn. rewrite nthZ_upd by lia. destruct (Z.eqb_spec p (Z.of_nat (Z.to_nat (g_ptr g)))); [ | reflexivity ]. exfalso. apply Hn. left. lia.
    - exists rest. cbn [g_ptr g_length g_reserved]. rewrite nthZ_upd by lia. destruct (Z.eqb_spec (g_ptr g) (Z.of_nat (Z.to_nat (g_ptr g)))); [ | lia ].
      rewrite map_app, zlen_app. change (map Some [x]) with [Some x]. change (zlen [x]) with 1. rewrite zlen_cons in E.
      split; [ reflexivity | ]. repeat split; try assumption; lia. }
  unfold append, append_. pose proof (hold_length _ _ _ H) as HL. pose proof (hold_starts _ _ _ H) as HS. pose proof (starts_room (fun z => z) _ _ _ _ HS) as Hroom.
  assert (1 <= g_reserved g) as H1 by (destruct H as (? & _ & _ & _ & _ & R); exact R).
  destruct (Z.eqb_spec (g_length g) (g_reserved g)) as [ Hfull | Hnot ].
  - destruct (set_reserved_ok (fun z => z) (o_grow o (g_reserved g)) g l h HS HL H1) as [ [ Hn _ ] | (Hn & h' & g' & E & F & Er) ]; [ specialize (Gg _ H1); lia | ].
    rewrite E. cbn [bind]. destruct (fresh_hold _ _ _ _ F) as (Hh & Hm & Hp).
    destruct (store1 h' g' l Hh) as (h2 & E2 & M2 & H2); [ lia | ]. rewrite E2. cbn [bind]. do 2 eexists. split; [ reflexivity | ]. split; [ | split; [ exact H2 | right; cbn; lia ] ].
    apply (moves_trans _ [g_ptr g'] _ h'); [ apply (moves_more []); [ exact Hm | intros p [] ] | exact M2 | ]. intros p [ <- | [] ]. right. lia.
  - destruct (store1 h g l H) as (h2 & E2 & M2 & H2); [ lia | ]. cbn [bind]. rewrite E2. cbn [bind]. do 2 eexists. split; [ reflexivity | ]. split; [ exact M2 | ]. split; [ exact H2 | left; reflexivity ].
Qed.
Lemma empty_hold : forall h, exists h' g, empty_buffer o h = Ok (h', g) /\ moves [] h h' /\ hold h' g [] /\ g_ptr g = zlen h.
Proof. intros h. destruct (empty_ok (fun z => z) o 0 h (proj1 G)) as (h' & g & E & F); [ lia | ]. destruct (fresh_hold _ _ _ _ F) as (A & B & C). exists h', g. auto. Qed.
Lemma clear_hold : forall g h, exists h' g', clear_buffer o g h = Ok (h', g') /\ moves [] h h' /\ hold h' g' [] /\ g_ptr g' = zlen h.
Proof. intros g h. destruct (clear_ok (fun z => z) o g h (proj1 G)) as (h' & g' & E & F). destruct (fresh_hold _ _ _ _ F) as (A & B & C). exists h', g'. auto. Qed.
Lemma full_hold : forall v n h, 0 <= n -> exists h' g, full_buffer o v n h = Ok (h', g) /\ moves [] h h' /\ hold h' g (repeat v (Z.to_nat n)) /\ g_ptr g = zlen h.
Proof. intros v n h Hn. destruct (full_ok (fun z => z) o v n h (proj1 G) Hn) as (h' & g' & E & F). destruct (fresh_hold _ _ _ _ F) as (A & B & C). exists h', g'. auto. Qed.
Lemma arange_hold : forall n h, 0 <= n -> exists h' g, arange_buffer o n h = Ok (h', g) /\ moves [] h h' /\ hold h' g (zseq 0 n) /\ g_ptr g = zlen h.
Proof. intros n h Hn. destruct (arange_ok (fun z => z) o n h (proj1 G) Hn) as (h' & g' & E & F). destruct (fresh_hold _ _ _ _ F) as (A & B & C). rewrite map_id in A. exists h', g'. auto. Qed.
Lemma convert_hold : forall rc g l h, hold h g l -> exists h' g', convert_buffer rc o g h = Ok (h', g') /\ moves [] h h' /\ hold h' g' (map rc l) /\ g_ptr g' = zlen h.
Proof.
  intros rc g l h H. pose proof (hold_length _ _ _ H) as HL. pose proof (hold_starts _ _ _ H) as HS.
  assert (1 <= g_reserved g) as H1 by (destruct H as (? & _ & _ & _ & _ & R); exact R).
  destruct (convert_ok (fun z => z) o rc g l h (proj1 G) HS HL H1) as (h' & g' & E & F). destruct (fresh_hold _ _ _ _ F) as (A & B & C). exists h', g'. auto.
Qed.
Lemma full_negative : forall v n h, n < 0 -> full_buffer o v n h = UB.
Proof. intros v n h H. unfold full_buffer, full_, empty_, malloc. cbv zeta. destruct (Z.ltb_spec n 0); [ | lia ]. destruct (Z.ltb_spec n 0); [ reflexivity | lia ]. Qed.
Lemma arange_negative : forall n h, n < 0 -> arange_buffer o n h = UB.
Proof. intros n h H. unfold arange_buffer, arange_, empty_, malloc. cbv zeta. destruct (Z.ltb_spec n 0); [ | lia ]. destruct (Z.ltb_spec n 0); [ reflexivity | lia ]. Qed.
End Buffers.

(** ** Nodes *)
Section All2.
  Context {A B : Type} (P : A -> B -> Prop).
  Fixpoint all2 (l : list A) (m : list B) : Prop :=
    match l, m with [], [] => True | a :: l, b :: m => P a b /\ all2 l m | _, _ => False end.
End All2.
(** the node in memory [hb] is the node on lists [b] *)
Fixpoint rep (h : mem) (hb : hbuilder) (b : builder) : Prop :=
  match hb, b with
  | HUnknown n, BUnknown m => n = m
  | HBool g, BBool l => hold h g (map b2z l)
  | HInt g, BInt l => hold h g l
  | HReal g, BReal l => hold h g l
  | HOption g hc, BOption l c => hold h g l /\ rep h hc c
  | HList g hc hbegun, BList l c begun => hold h g l /\ rep h hc c /\ hbegun = begun
  | HTuple hcs hlen hbegun hnext, BTuple cs len begun next => all2 (rep h) hcs cs /\ hlen = len /\ hbegun = begun /\ hnext = next
  | HRecord hcs hkeys hlen hbegun hnext htry, BRecord cs keys len begun next try =>
      all2 (rep h) hcs cs /\ hkeys = keys /\ hlen = len /\ hbegun = begun /\ hnext = next /\ htry = try /\ -1 <= len /\ (begun = true -> 0 <= len)
  | HUnion gt gi hcs hcurrent, BUnion tags index cs current => hold h gt tags /\ hold h gi index /\ all2 (rep h) hcs cs /\ hcurrent = current
  | _, _ => False
  end.
(** the blocks of a node *)
Fixpoint ptrs (hb : hbuilder) : list Z :=
  match hb with
  | HUnknown _ => []
  | HBool g | HInt g | HReal g => [g_ptr g]
  | HOption g c => g_ptr g :: ptrs c
  | HList g c _ => g_ptr g :: ptrs c
  | HTuple cs _ _ _ => flat_map ptrs cs
  | HRecord cs _ _ _ _ _ => flat_map ptrs cs
  | HUnion gt gi cs _ => g_ptr gt :: g_ptr gi :: flat_map ptrs cs
  end.

Lemma hbuilder_ind' (P : hbuilder -> Prop)
  (f0 : forall n, P (HUnknown n)) (f1 : forall g, P (HBool g)) (f2 : forall g, P (HInt g)) (f3 : forall g, P (HReal g))
  (f4 : forall g c, P c -> P (HOption g c)) (f5 : forall g c begun, P c -> P (HList g c begun))
  (f6 : forall cs len begun next, Forall P cs -> P (HTuple cs len begun next))
  (f7 : forall cs keys len begun next try, Forall P cs -> P (HRecord cs keys len begun next try))
  (f8 : forall gt gi cs current, Forall P cs -> P (HUnion gt gi cs current)) : forall b, P b.
Proof.
  fix IH 1. intros [ n | g | g | g | g c | g c begun | cs len begun next | cs keys len begun next try | gt gi cs current ];
    [ apply f0 | apply f1 | apply f2 | apply f3 | apply f4, IH | apply f5, IH | apply f6 | apply f7 | apply f8 ];
    induction cs as [ | c cs IHcs ]; constructor; [ apply IH | exact IHcs | apply IH | exact IHcs | apply IH | exact IHcs ].
Qed.

Lemma all2_zlen : forall {A B} (P : A -> B -> Prop) l m, all2 P l m -> zlen l = zlen m.
Proof. intros A B P l. induction l as [ | a l IH ]; intros [ | b m ] H; try contradiction; [ reflexivity | ]. destruct H as [ _ H ]. rewrite !zlen_cons, (IH _ H). reflexivity. Qed.
Lemma all2_impl : forall {A B} (P Q : A -> B -> Prop) l m, (forall a b, In a l -> P a b -> Q a b) -> all2 P l m -> all2 Q l m.
Proof. intros A B P Q l. induction l as [ | a l IH ]; intros [ | b m ] K H; try contradiction; [ exact H | ]. destruct H as [ H1 H2 ]. split; [ apply K; [ left; reflexivity | exact H1 ] | apply IH; [ intros; apply K; [ right | ]; assumption | exact H2 ] ]. Qed.
Lemma all2_app : forall {A B} (P : A -> B -> Prop) l m l' m', all2 P l m -> all2 P l' m' -> all2 P (l ++ l') (m ++ m').
Proof. intros A B P l. induction l as [ | a l IH ]; intros [ | b m ] l' m' H K; try contradiction; [ exact K | ]. destruct H as [ H1 H2 ]. split; [ exact H1 | exact (IH _ _ _ H2 K) ]. Qed.
Lemma all2_nth : forall {A B} (P : A -> B -> Prop) l m i, all2 P l m ->
  (nthZ l i = None /\ nthZ m i = None) \/
  exists a b l1 l2 m1 m2, nthZ l i = Some a /\ nthZ m i = Some b /\ P a b /\ l = l1 ++ a :: l2 /\ m = m1 ++ b :: m2 /\ all2 P l1 m1 /\ all2 P l2 m2 /\
    (forall a', upd l (Z.to_nat i) a' = l1 ++ a' :: l2) /\ (forall b', upd m (Z.to_nat i) b' = m1 ++ b' :: m2).
Proof.
  intros A B P l. induction l as [ | a l IH ]; intros [ | b m ] i H; try contradiction; [ left; split; apply nthZ_nil | ].
  destruct H as [ H1 H2 ]. rewrite !nthZ_cons. destruct (Z.eqb_spec i 0) as [ -> | Hi ].
  - right. exists a, b, [], l, [], m. repeat split; auto.
  - destruct (IH m (i - 1) H2) as [ H | (a' & b' & l1 & l2 & m1 & m2 & E1 & E2 & HP & -> & -> & K1 & K2 & U1 & U2) ]; [ left; exact H | ].
    right. exists a', b', (a :: l1), l2, (b :: m1), m2. pose proof (nthZ_Some _ _ _ E1) as R.
    replace (Z.to_nat i) with (S (Z.to_nat (i - 1))) by lia.
    split; [ exact E1 | ]. split; [ exact E2 | ]. split; [ exact HP | ]. split; [ reflexivity | ]. split; [ reflexivity | ]. split; [ split; assumption | ]. split; [ exact K2 | ].
    split; intros; cbn [upd app]; f_equal; auto.
Qed.

Lemma rep_range : forall hb h b, rep h hb b -> forall p, In p (ptrs hb) -> 0 <= p < zlen h.
Proof.
  assert (contents : forall h cs, Forall (fun hb => forall b, rep h hb b -> forall p, In p (ptrs hb) -> 0 <= p < zlen h) cs ->
    forall bs, all2 (rep h) cs bs -> forall p, In p (flat_map ptrs cs) -> 0 <= p < zlen h).
  { intros h cs F. induction F as [ | c cs Hc F IH ]; intros [ | b bs ] H p Hp; try contradiction. destruct H as [ H1 H2 ]. cbn [flat_map] in Hp.
    apply in_app_or in Hp as [ Hp | Hp ]; eauto. }
  intros hb h. revert hb. induction hb using hbuilder_ind'; intros b R p Hp; destruct b; try contradiction; cbn [rep ptrs] in *.
  - destruct Hp as [ <- | [] ]. exact (hold_range _ _ _ R).
  - destruct Hp as [ <- | [] ]. exact (hold_range _ _ _ R).
  - destruct Hp as [ <- | [] ]. exact (hold_range _ _ _ R).
  - destruct Hp as [ <- | Hp ]; [ exact (hold_range _ _ _ (proj1 R)) | exact (IHhb _ (proj2 R) p Hp) ].
  - destruct Hp as [ <- | Hp ]; [ exact (hold_range _ _ _ (proj1 R)) | exact (IHhb _ (proj1 (proj2 R)) p Hp) ].
  - exact (contents h cs H _ (proj1 R) p Hp).
  - exact (contents h cs H _ (proj1 R) p Hp).
  - destruct R as (R1 & R2 & R3 & _). destruct Hp as [ <- | [ <- | Hp ] ]; [ exact (hold_range _ _ _ R1) | exact (hold_range _ _ _ R2) | exact (contents h cs H _ R3 p Hp) ].
Qed.
Lemma reps_range : forall h cs bs, all2 (rep h) cs bs -> forall p, In p (flat_map ptrs cs) -> 0 <= p < zlen h.
Proof. intros h cs. induction cs as [ | c cs IH ]; intros [ | b bs ] H p Hp; try contradiction. destruct H as [ H1 H2 ]. cbn [flat_map] in Hp. apply in_app_or in Hp as [ Hp | Hp ]; [ exact (rep_range _ _ _ H1 p Hp) | exact (IH _ H2 p Hp) ]. Qed.

Lemma rep_moves : forall ps h h' hb b, moves ps h h' -> rep h hb b -> (forall p, In p (ptrs hb) -> ~ In p ps) -> rep h' hb b.
Proof.
  intros ps h h' hb b M. revert b. 
  assert (contents : forall cs, Forall (fun hb => forall b, rep h hb b -> (forall p, In p (ptrs hb) -> ~ In p ps) -> rep h' hb b) cs ->
    forall bs, all2 (rep h) cs bs -> (forall p, In p (flat_map ptrs cs) -> ~ In p ps) -> all2 (rep h') cs bs).
  { intros cs F. induction F as [ | c cs Hc F IH ]; intros [ | b bs ] H K; try contradiction; [ exact H | ]. destruct H as [ H1 H2 ]. cbn [flat_map] in K.
    split; [ apply Hc; [ exact H1 | ] | apply IH; [ exact H2 | ] ]; intros; apply K, in_or_app; auto. }
  induction hb using hbuilder_ind'; intros b R K; destruct b; try contradiction; cbn [rep ptrs] in *.
  - exact R.
  - eapply hold_moves; [ exact R | exact M | apply K; left; reflexivity ].
  - eapply hold_moves; [ exact R | exact M | apply K; left; reflexivity ].
  - eapply hold_moves; [ exact R | exact M | apply K; left; reflexivity ].
  - destruct R as (R1 & R2). split; [ eapply hold_moves; [ exact R1 | exact M | apply K; left; reflexivity ] | apply IHhb; [ exact R2 | intros; apply K; right; assumption ] ].
  - destruct R as (R1 & R2 & R3). split; [ eapply hold_moves; [ exact R1 | exact M | apply K; left; reflexivity ] | split; [ apply IHhb; [ exact R2 | intros; apply K; right; assumption ] | exact R3 ] ].
  - destruct R as (R1 & R2). split; [ exact (contents cs H _ R1 K) | exact R2 ].
  - destruct R as (R1 & R2). split; [ exact (contents cs H _ R1 K) | exact R2 ].
  - destruct R as (R1 & R2 & R3 & R4). split; [ | split; [ | split; [ | exact R4 ] ] ].
    + eapply hold_moves; [ exact R1 | exact M | apply K; left; reflexivity ].
    + eapply hold_moves; [ exact R2 | exact M | apply K; right; left; reflexivity ].
    + apply contents; [ exact H | exact R3 | intros; apply K; right; right; assumption ].
Qed.
Lemma reps_moves : forall ps h h' cs bs, moves ps h h' -> all2 (rep h) cs bs -> (forall p, In p (flat_map ptrs cs) -> ~ In p ps) -> all2 (rep h') cs bs.
Proof. intros ps h h' cs. induction cs as [ | c cs IH ]; intros [ | b bs ] M H K; try contradiction; [ exact H | ]. destruct H as [ H1 H2 ]. cbn [flat_map] in K.
  split; [ apply (rep_moves ps h); [ exact M | exact H1 | ] | apply IH; [ exact M | exact H2 | ] ]; intros; apply K, in_or_app; auto. Qed.

Lemma rep_length : forall h hb b, rep h hb b -> hlength hb = blength b.
Proof.
  intros h [] [] R; try contradiction; cbn [rep hlength blength] in *; try exact R; try (apply hold_length in R; rewrite R; try rewrite zlen_map; reflexivity).
  - destruct R as [ R _ ]. apply hold_length in R. lia.
  - destruct R as [ R _ ]. apply hold_length in R. lia.
  - tauto.
  - tauto.
  - destruct R as [ R _ ]. apply hold_length in R. lia.
Qed.
Lemma rep_active : forall h hb b, rep h hb b -> hactive hb = active b.
Proof.
  intros h. induction hb using hbuilder_ind'; intros b R; destruct b; try contradiction; cbn [rep hactive active] in *; try reflexivity.
  - apply IHhb. tauto.
  - tauto.
  - tauto.
  - tauto.
  - destruct R as (_ & _ & _ & ->). reflexivity.
Qed.

(** a node and its blocks after a computation that owned the blocks [ps] of [h] *)
Definition good (ps : list Z) (n : Z) (h' : mem) (hb : hbuilder) (b : builder) : Prop :=
  rep h' hb b /\ NoDup (ptrs hb) /\ forall p, In p (ptrs hb) -> In p ps \/ n <= p.
Definition goods (ps : list Z) (n : Z) (h' : mem) (hcs : list hbuilder) (cs : list builder) : Prop :=
  all2 (rep h') hcs cs /\ NoDup (flat_map ptrs hcs) /\ forall p, In p (flat_map ptrs hcs) -> In p ps \/ n <= p.
Definition outcomes (ps : list Z) (n : Z) (h' : mem) (ho : houtcome) (r : outcome) : Prop :=
  good ps n h' (fst ho) (fst r) /\ match snd ho, snd r with Some a, Some b => good ps n h' a b | None, None => True | _, _ => False end.
Lemma outcomes_returned : forall ps n h' ho r, outcomes ps n h' ho r -> good ps n h' (hreturned ho) (returned r).
Proof. intros ps n h' [ a [ a' | ] ] [ b [ b' | ] ] [ H K ]; cbn in *; try contradiction; assumption. Qed.

Lemma NoDup_app_iff : forall {A} (l m : list A), NoDup (l ++ m) <-> NoDup l /\ NoDup m /\ forall x, In x l -> In x m -> False.
Proof.
  intros A l m. induction l as [ | a l IH ]; cbn [app].
  - split; [ intro H; split; [ constructor | split; [ exact H | intros x [] ] ] | tauto ].
  - split.
    + intro H. inversion H; subst. apply IH in H3 as (H3 & H4 & H5). split; [ constructor; [ intro; apply H2, in_or_app; auto | assumption ] | ]. split; [ assumption | ].
      intros x [ <- | Hx ] Hm; [ apply H2, in_or_app; auto | eauto ].
    + intros (H1 & H2 & H3). inversion H1; subst. constructor; [ intro Hin; apply in_app_or in Hin as [ Hin | Hin ]; [ auto | apply (H3 a); [ left; reflexivity | exact Hin ] ] | ].
      apply IH. split; [ assumption | split; [ assumption | intros x Hx; apply H3; right; exact Hx ] ].
Qed.
(** the blocks [P] are replaced by the blocks [P'] *)
Lemma NoDup_swap : forall (A P P' B : list Z) n, NoDup (A ++ P ++ B) -> NoDup P' -> (forall p, In p P' -> In p P \/ n <= p) ->
  (forall q, In q A \/ In q B -> q < n) -> NoDup (A ++ P' ++ B).
Proof.
  intros A P P' B n H HP K Q. rewrite !NoDup_app_iff in *. destruct H as (H1 & (H2 & H3 & H4) & H5). split; [ exact H1 | ].
  split; [ split; [ exact HP | split; [ exact H3 | ] ] | ].
  - intros x Hx Hb. destruct (K x Hx) as [ Hx' | Hx' ]; [ exact (H4 x Hx' Hb) | specialize (Q x (or_intror Hb)); lia ].
  - intros x Ha Hx. apply in_app_or in Hx as [ Hx | Hx ].
    + destruct (K x Hx) as [ Hx' | Hx' ]; [ apply (H5 x Ha), in_or_app; auto | specialize (Q x (or_introl Ha)); lia ].
    + apply (H5 x Ha), in_or_app. auto.
Qed.
