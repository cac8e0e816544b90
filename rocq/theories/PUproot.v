(** Proofs about reading ROOT's vectors of vectors. *)
From Verif Require Import Base BaseLemmas LoopLemmas Content SpecArray KCore Core Strided SpecStrided Forth SpecForth PForthRead PForthRead2 PList PAxis Uproot SpecUproot.
Local Open Scope list_scope.
Local Open Scope Z_scope.

(** ** numbers in bytes *)
Lemma zlen_be n x : zlen (be n x) = Z.of_nat n.
Proof. revert x; induction n as [|n IH]; intros x; [reflexivity|]. cbn [be]. rewrite zlen_app, IH. change (zlen [x mod 256]) with 1. lia. Qed.
Lemma be_bytes n x : Forall is_byte (be n x).
Proof.
  revert x; induction n as [|n IH]; intros x; cbn [be]; [constructor|]. apply Forall_app; split; [apply IH|].
  constructor; [unfold is_byte; apply Z.mod_pos_bound; lia|constructor].
Qed.
Lemma big_be n x : big (be n x) = x mod 256 ^ Z.of_nat n.
Proof.
  revert x; induction n as [|n IH]; intros x; [cbn; symmetry; apply Z.mod_1_r|].
  cbn [be]. unfold big. rewrite rev_app_distr. cbn [rev app little]. fold (big (be n (x / 256))). rewrite IH.
  rewrite Nat2Z.inj_succ, Z.pow_succ_r by lia. rewrite Z.rem_mul_r by (try apply Z.pow_pos_nonneg; lia). reflexivity.
Qed.

Lemma swap32_low v : byteswap32 v = byteswap32 (v mod 2 ^ 32).
Proof.
  rewrite <- Z.land_ones by lia. unfold byteswap32.
  rewrite !Z.shiftr_land, !Z.shiftl_land, <- !Z.land_assoc. reflexivity.
Qed.
Lemma wrapS_mod b v : 0 < b -> (wrapS b v) mod 2 ^ b = v mod 2 ^ b.
Proof.
  intros Hb. unfold wrapS. rewrite Zminus_mod_idemp_l. f_equal. lia.
Qed.
Lemma wrapS_id b v : 0 < b -> - 2 ^ (b - 1) <= v < 2 ^ (b - 1) -> wrapS b v = v.
Proof.
  intros Hb Hv. unfold wrapS. assert (2 ^ b = 2 * 2 ^ (b - 1)) by (rewrite <- Z.pow_succ_r by lia; f_equal; lia).
  rewrite Z.mod_small by lia. lia.
Qed.
Lemma wrapS_of_mod b v w : 0 < b -> v mod 2 ^ b = w mod 2 ^ b -> wrapS b v = wrapS b w.
Proof. intros Hb E. unfold wrapS. rewrite (Zplus_mod v), (Zplus_mod w), E. reflexivity. Qed.

Lemma byteswap_int32_be x : - 2 ^ 31 <= x < 2 ^ 31 -> byteswap_int32 (wrapS 32 (le_unsigned (be 4 x))) = x.
Proof.
  intros Hx. unfold byteswap_int32. rewrite swap32_low.
  replace ((wrapS 32 (le_unsigned (be 4 x)) mod 2 ^ 64) mod 2 ^ 32) with (le_unsigned (be 4 x) mod 2 ^ 32).
  2: { rewrite <- (wrapS_mod 32 (le_unsigned (be 4 x))) by lia. symmetry. change (2 ^ 64) with (2 ^ 32 * 2 ^ 32).
       rewrite Z.rem_mul_r by lia. rewrite Z.mul_comm, Z_mod_plus_full, Z.mod_mod by lia. reflexivity. }
  rewrite <- swap32_low, le_little. change (byteswap32 (little (be 4 x))) with (swap_value 4 (little (be 4 x))).
  rewrite swap_value_big by (first [apply zlen_be | apply be_bytes | cbn; tauto]).
  rewrite big_be. change (256 ^ Z.of_nat 4) with (2 ^ 32). rewrite (wrapS_of_mod 32 _ x) by (try apply Z.mod_mod; lia).
  apply wrapS_id; cbn; lia.
Qed.
Lemma byteswap_bits64_be x : 0 <= x < 2 ^ 64 -> byteswap_bits64 (le_unsigned (be 8 x)) = x.
Proof.
  intros Hx. unfold byteswap_bits64. rewrite le_little. change (byteswap64 (little (be 8 x))) with (swap_value 8 (little (be 8 x))).
  rewrite swap_value_big by (first [apply zlen_be | apply be_bytes | cbn; tauto]).
  rewrite big_be. apply Z.mod_small. cbn; lia.
Qed.

(** ** loading *)
Lemma nthZ_ext {A} (l l' : list A) : (forall i, nthZ l i = nthZ l' i) -> l = l'.
Proof.
  revert l'; induction l as [|x l IH]; intros l' H.
  - destruct l' as [|y l']; [reflexivity|]. specialize (H 0). rewrite nthZ_cons in H. discriminate H.
  - destruct l' as [|y l']; [specialize (H 0); rewrite nthZ_cons in H; discriminate H|].
    assert (H0 := H 0). rewrite !nthZ_cons in H0. injection H0 as ->. f_equal. apply IH. intros i. destruct (Z.ltb_spec i 0).
    + rewrite !nthZ_neg by lia. reflexivity.
    + specialize (H (i + 1)). rewrite !nthZ_cons in H. destruct (Z.eqb_spec (i + 1) 0); [lia|]. rewrite Z.add_simpl_r in H. exact H.
Qed.
Definition has (data : ndarray) (bs : list Z) : Prop := 0 <= nd_offset data /\ nd_offset data + zlen bs <= zlen (nd_mem data) /\
  slice (nd_offset data) (nd_offset data + zlen bs) (nd_mem data) = bs.
Lemma bytes_has data bs : 1 <= zlen bs -> bytes_of data bs -> has data bs.
Proof.
  intros H1 (Hi & _ & Hst & He).
  assert (R : forall i b, nthZ bs i = Some b -> 0 <= nd_offset data + i /\ nthZ (nd_mem data) (nd_offset data + i) = Some b).
  { intros i b E. specialize (He i b E). unfold element, block in He. rewrite Hst, Hi in He. cbn [dot] in He.
    replace (nd_offset data + (i * 1 + 0)) with (nd_offset data + i) in He by lia.
    destruct ((0 <=? nd_offset data + i) && (nd_offset data + i + 1 <=? zlen (nd_mem data))) eqn:Eb; [|discriminate].
    apply andb_true_iff in Eb; destruct Eb. split; [lia|]. injection He as He.
    assert (Hn : nthZ (slice (nd_offset data + i) (nd_offset data + i + 1) (nd_mem data)) 0 = Some b) by (rewrite He; reflexivity).
    rewrite nthZ_slice in Hn by lia. rewrite Z.add_0_r in Hn. exact Hn. }
  destruct (nthZ_lt bs 0) as [b0 E0]; [lia|]. destruct (R _ _ E0) as [P0 _].
  destruct (nthZ_lt bs (zlen bs - 1)) as [bl El]; [lia|]. destruct (R _ _ El) as [_ Pl]. apply nthZ_Some in Pl.
  split; [lia|]. split; [lia|]. apply nthZ_ext. intros i.
  assert (Hl : zlen (slice (nd_offset data) (nd_offset data + zlen bs) (nd_mem data)) = zlen bs) by (rewrite zlen_slice by lia; lia).
  destruct (Z.ltb_spec i 0); [|destruct (Z.ltb_spec i (zlen bs))].
  - first [rewrite !nthZ_neg by lia | rewrite !nthZ_ge by lia]; reflexivity.
  - destruct (nthZ_lt bs i) as [b E]; [lia|]. rewrite E. rewrite nthZ_slice by lia. apply (R _ _ E).
  - first [rewrite !nthZ_neg by lia | rewrite !nthZ_ge by lia]; reflexivity.
Qed.

Lemma load_at data bs before piece after : has data bs -> bs = before ++ piece ++ after ->
  load data (zlen before) (zlen piece) = Ok piece.
Proof.
  intros (H0 & H1 & H2) E. pose proof (zlen_nonneg before). pose proof (zlen_nonneg piece). pose proof (zlen_nonneg after).
  assert (L : zlen bs = zlen before + (zlen piece + zlen after)) by (rewrite E, !zlen_app; reflexivity).
  unfold load. destruct ((0 <=? nd_offset data + zlen before) && (nd_offset data + zlen before + zlen piece <=? zlen (nd_mem data))) eqn:Eb.
  2: { apply andb_false_iff in Eb. lia. }
  f_equal. apply nthZ_ext. intros i.
  assert (Hl : zlen (slice (nd_offset data + zlen before) (nd_offset data + zlen before + zlen piece) (nd_mem data)) = zlen piece) by (rewrite zlen_slice by lia; lia).
  destruct (Z.ltb_spec i 0); [rewrite !nthZ_neg by lia; reflexivity|].
  destruct (Z.ltb_spec i (zlen piece)); [|rewrite !nthZ_ge by lia; reflexivity].
  rewrite nthZ_slice by lia.
  assert (Hb : nthZ bs (zlen before + i) = nthZ piece i).
  { rewrite E, nthZ_app. destruct (Z.ltb_spec (zlen before + i) (zlen before)); [lia|]. replace (zlen before + i - zlen before) with i by lia.
    rewrite nthZ_app. destruct (Z.ltb_spec i (zlen piece)); [reflexivity|lia]. }
  rewrite <- Hb, <- H2, nthZ_slice by lia. f_equal. lia.
Qed.

Lemma sizeof_width t : Z.of_nat (width t) = sizeof t.
Proof. destruct t; reflexivity. Qed.
Lemma item_at t data bs before x after : has data bs -> holds t x -> bs = before ++ be (width t) x ++ after ->
  load_item t data (zlen before) = Ok x.
Proof.
  intros Hh Hx E. unfold load_item. rewrite <- sizeof_width, <- (zlen_be (width t) x), (load_at data bs before _ after Hh E). cbn [bind].
  destruct t; cbn [width holds] in *; [rewrite byteswap_int32_be by lia | rewrite byteswap_bits64_be by lia]; reflexivity.
Qed.

Lemma pos32 p : 0 <= p < 2 ^ 31 -> wrapS 32 p = p.
Proof. intros H. apply wrapS_id; cbn; lia. Qed.

Lemma items_at t data bs : has data bs -> zlen bs < 2 ^ 31 -> forall xs before after content, Forall (holds t) xs ->
  bs = before ++ concat (map (be (width t)) xs) ++ after ->
  for_ 0 (zlen xs) (fun j st =>
        let '(pos, content) := st in
        let* x := load_item t data pos in
        Ok (wrapS 32 (pos + sizeof t), content ++ [x])) (zlen before, content)
  = Ok (zlen before + zlen (concat (map (be (width t)) xs)), content ++ xs).
Proof.
  intros Hh Hl xs before after content Hx E.
  destruct (for_list xs (fun d st => st = (zlen before + zlen (concat (map (be (width t)) d)), content ++ d))
    (fun j st =>
        let '(pos, content) := st in
        let* x := load_item t data pos in
        Ok (wrapS 32 (pos + sizeof t), content ++ [x])) (zlen before, content)) as (st & Hst & ->).
  - cbn [map concat]. change (zlen (@nil Z)) with 0. rewrite Z.add_0_r, app_nil_r. reflexivity.
  - intros d x r st Hd ->. rewrite <- zlen_app.
    assert (E' : bs = (before ++ concat (map (be (width t)) d)) ++ be (width t) x ++ (concat (map (be (width t)) r) ++ after)).
    { rewrite E, <- Hd, map_app, concat_app. cbn [map concat]. rewrite <- !app_assoc. reflexivity. }
    rewrite (item_at t data bs _ x _ Hh ltac:(rewrite Forall_forall in Hx; apply Hx; rewrite <- Hd; apply in_or_app; right; left; reflexivity) E').
    cbn [bind]. eexists. split; [reflexivity|]. f_equal; [|rewrite <- app_assoc; reflexivity].
    rewrite map_app, concat_app. cbn [map concat]. rewrite app_nil_r, !zlen_app, zlen_be, sizeof_width.
    assert (zlen bs = zlen before + zlen (concat (map (be (width t)) d)) + (sizeof t + zlen (concat (map (be (width t)) r) ++ after))).
    { rewrite E' at 1. rewrite !zlen_app, zlen_be, sizeof_width. reflexivity. }
    pose proof (zlen_nonneg before). pose proof (zlen_nonneg (concat (map (be (width t)) d))). pose proof (zlen_nonneg (concat (map (be (width t)) r) ++ after)).
    assert (0 <= sizeof t) by (destruct t; cbn; lia).
    rewrite pos32 by lia. lia.
  - exact Hst.
Qed.

Lemma zlen_vector t xs : zlen (vector_bytes t xs) = 4 + zlen (concat (map (be (width t)) xs)).
Proof. unfold vector_bytes. rewrite zlen_app, zlen_be. reflexivity. Qed.

Lemma items_bytes t xs : zlen xs <= zlen (concat (map (be (width t)) xs)).
Proof.
  induction xs as [|x xs IH]; [reflexivity|]. cbn [map concat]. rewrite zlen_cons, zlen_app, zlen_be, sizeof_width. destruct t; cbn [sizeof]; lia.
Qed.

Lemma inner_lists_at t data bs : has data bs -> zlen bs < 2 ^ 31 -> forall xss n before after done stop count,
  Forall (Forall (holds t)) xss -> bs = before ++ concat (map (vector_bytes t) xss) ++ after ->
  stop = zlen before + zlen (concat (map (vector_bytes t) xss)) -> zlen xss <= Z.of_nat n ->
  inner_lists n t data stop (zlen before) (sumZ (map zlen done)) count (offsets_of (map zlen done)) (concat done)
  = Ok (sumZ (map zlen (done ++ xss)), count + zlen xss, offsets_of (map zlen (done ++ xss)), concat (done ++ xss)).
Proof.
  intros Hh Hl. induction xss as [|xs xss IH]; intros n before after done stop count Hx E Hs Hn.
  - cbn [map concat] in *. change (zlen (@nil Z)) with 0 in Hs. change (zlen (@nil (list Z))) with 0. rewrite !app_nil_r, !Z.add_0_r.
    destruct n; cbn [inner_lists]; (destruct (Z.ltb_spec (zlen before) stop); [lia|]); reflexivity.
  - cbn [map concat] in E, Hs. rewrite zlen_app, zlen_vector in Hs. rewrite zlen_cons in Hn.
    pose proof (zlen_nonneg (concat (map (vector_bytes t) xss))). pose proof (zlen_nonneg (concat (map (be (width t)) xs))). pose proof (zlen_nonneg xss).
    pose proof (zlen_nonneg before). pose proof (zlen_nonneg after). pose proof (items_bytes t xs). pose proof (zlen_nonneg xs).
    assert (Lb : zlen bs = zlen before + (4 + zlen (concat (map (be (width t)) xs)) + zlen (concat (map (vector_bytes t) xss)) + zlen after)).
    { rewrite E, !zlen_app, zlen_vector. reflexivity. }
    destruct n as [|n]; [lia|]. cbn [inner_lists]. destruct (Z.ltb_spec (zlen before) stop); [|lia]. cbn [negb].
    inversion Hx as [|? ? Hxs Hxss]; subst xss0 x l || idtac.
    assert (E1 : bs = before ++ be (width RInt32) (zlen xs) ++ (concat (map (be (width t)) xs) ++ concat (map (vector_bytes t) xss) ++ after)).
    { rewrite E. unfold vector_bytes at 1. cbn [width]. rewrite <- !app_assoc. reflexivity. }
    rewrite (item_at RInt32 data bs before (zlen xs) _ Hh ltac:(cbn [holds]; lia) E1). cbn [bind].
    rewrite pos32 by lia.
    assert (E2 : bs = (before ++ be 4 (zlen xs)) ++ concat (map (be (width t)) xs) ++ (concat (map (vector_bytes t) xss) ++ after)).
    { rewrite E1. cbn [width]. rewrite <- !app_assoc. reflexivity. }
    pose proof (items_at t data bs Hh Hl xs _ _ (concat done) ltac:(assumption) E2) as Hit.
    rewrite (zlen_app before), zlen_be in Hit. change (Z.of_nat 4) with 4 in Hit. rewrite Hit. cbn [bind]. clear Hit.
    assert (E3 : bs = (before ++ vector_bytes t xs) ++ concat (map (vector_bytes t) xss) ++ after).
    { rewrite E, <- !app_assoc. reflexivity. }
    specialize (IH n (before ++ vector_bytes t xs) after (done ++ [xs]) stop (count + 1) ltac:(assumption) E3).
    rewrite zlen_app, zlen_vector in IH. specialize (IH ltac:(lia) ltac:(lia)).
    rewrite !map_app, concat_app, sumZ_app in IH. cbn [map concat] in IH. rewrite app_nil_r in IH.
    unfold offsets_of in IH at 1. rewrite offsets_from_snoc in IH. 
    replace (0 + fold_right Z.add 0 (map zlen done) + zlen xs) with (sumZ (map zlen done) + zlen xs) in IH by (unfold sumZ; lia).
    change (sumZ [zlen xs]) with (zlen xs + 0) in IH. rewrite Z.add_0_r in IH.
    replace (zlen before + (4 + zlen (concat (map (be (width t)) xs)))) with (zlen before + 4 + zlen (concat (map (be (width t)) xs))) in IH by lia.
    unfold offsets_of at 1. rewrite IH. rewrite zlen_cons, <- ?app_assoc. cbn [app]. rewrite map_app. cbn [map]. replace (count + (zlen xss + 1)) with (count + 1 + zlen xss) by lia. reflexivity.
Qed.

(** ** entries *)
Lemma numbytes_mask L : 0 <= L < 2 ^ 30 -> Z.land (2 ^ 30 + L) (Z.lnot 0x40000000) = L.
Proof.
  intros HL. change (Z.land (2 ^ 30 + L) (Z.lnot 0x40000000)) with (Z.land (2 ^ 30 + L) (Z.lnot (2 ^ 30))). rewrite <- Z.ldiff_land.
  rewrite <- Z.sub_nocarry_ldiff; [lia|]. apply Z.bits_inj'. intros n Hn. rewrite Z.bits_0, Z.ldiff_spec, Z.pow2_bits_eqb by lia.
  destruct (Z.eqb_spec 30 n) as [<-|]; [|reflexivity]. cbn [andb].
  assert (Hb : Z.b2z (Z.testbit (2 ^ 30 + L) 30) = 1).
  { rewrite Z.testbit_spec' by lia. replace (2 ^ 30 + L) with (1 * 2 ^ 30 + L) by lia. rewrite Z.div_add_l, Z.div_small by lia. reflexivity. }
  destruct (Z.testbit (2 ^ 30 + L) 30); [reflexivity|discriminate].
Qed.

Definition body t version xss := be 2 version ++ concat (map (vector_bytes t) xss).
Lemma zlen_body t version xss : zlen (body t version xss) = 2 + zlen (concat (map (vector_bytes t) xss)).
Proof. unfold body. rewrite zlen_app, zlen_be. reflexivity. Qed.
Lemma vectors_bytes t xss : zlen xss <= zlen (concat (map (vector_bytes t) xss)).
Proof.
  induction xss as [|xs xss IH]; [reflexivity|]. cbn [map concat]. rewrite zlen_cons, zlen_app, zlen_vector.
  pose proof (zlen_nonneg (concat (map (be (width t)) xs))). lia.
Qed.
Lemma entry_bytes_length t version xss : zlen (entry_bytes t version xss) = 6 + zlen (concat (map (vector_bytes t) xss)).
Proof. unfold entry_bytes. cbv zeta. fold (body t version xss). rewrite zlen_app, zlen_be, zlen_body. lia. Qed.

Lemma entry_at t data bs start version xss done : has data bs -> zlen bs < 2 ^ 31 -> Forall (Forall (holds t)) xss ->
  zlen (entry_bytes t version xss) < 2 ^ 30 -> stands_at bs start (entry_bytes t version xss) ->
  (let* numbytes := load_item RInt32 data start in
    let numbytes := Z.land numbytes (Z.lnot 0x40000000) in
    let* numbytes := add32 numbytes 4 in
    let pos := wrapS 32 (start + 6) in
    let* stop := add32 start numbytes in
    inner_lists (Datatypes.length (nd_mem data)) t data stop pos (sumZ (map zlen done)) 0 (offsets_of (map zlen done)) (concat done))
  = Ok (sumZ (map zlen (done ++ xss)), zlen xss, offsets_of (map zlen (done ++ xss)), concat (done ++ xss)).
Proof.
  intros Hh Hl Hx Hlen (before & after & E & Hb). subst start. rewrite entry_bytes_length in Hlen.
  pose proof (zlen_nonneg before). pose proof (zlen_nonneg after). pose proof (zlen_nonneg (concat (map (vector_bytes t) xss))). pose proof (vectors_bytes t xss).
  pose proof (zlen_nonneg xss).
  assert (Lb : zlen bs = zlen before + (6 + zlen (concat (map (vector_bytes t) xss)) + zlen after)).
  { rewrite E, !zlen_app, entry_bytes_length. reflexivity. }
  assert (E1 : bs = before ++ be (width RInt32) (2 ^ 30 + zlen (body t version xss)) ++ (body t version xss ++ after)).
  { rewrite E. unfold entry_bytes. cbv zeta. fold (body t version xss). cbn [width]. rewrite <- !app_assoc. reflexivity. }
  rewrite (item_at RInt32 data bs before (2 ^ 30 + zlen (body t version xss)) _ Hh ltac:(cbn [holds]; rewrite zlen_body; lia) E1). cbn [bind]. cbv zeta.
  rewrite numbytes_mask by (rewrite zlen_body; lia). rewrite zlen_body. unfold add32 at 1.
  destruct ((- 2 ^ 31 <=? 2 + zlen (concat (map (vector_bytes t) xss)) + 4) && (2 + zlen (concat (map (vector_bytes t) xss)) + 4 <? 2 ^ 31)) eqn:Eb;
    [|apply andb_false_iff in Eb; lia]. cbn [bind]. clear Eb.
  unfold add32. match goal with |- context [if ?b then _ else _] => destruct b eqn:Eb end; [|apply andb_false_iff in Eb; lia]. cbn [bind]. clear Eb.
  rewrite pos32 by lia.
  assert (E2 : bs = (before ++ be 4 (2 ^ 30 + zlen (body t version xss)) ++ be 2 version) ++ concat (map (vector_bytes t) xss) ++ after).
  { rewrite E1. cbn [width]. unfold body at 2. rewrite <- !app_assoc. reflexivity. }
  assert (L2 : zlen (before ++ be 4 (2 ^ 30 + zlen (body t version xss)) ++ be 2 version) = zlen before + 6) by (rewrite !zlen_app, !zlen_be; lia).
  rewrite <- L2. rewrite (inner_lists_at t data bs Hh Hl xss _ _ after done _ 0 Hx E2).
  - rewrite Z.add_0_l. reflexivity.
  - rewrite L2. lia.
  - destruct Hh as (? & ? & ?). unfold zlen in *. lia.
Qed.

Lemma sumZ_zlen_concat' (done : list (list (list Z))) : zlen (concat done) = sumZ (map zlen done).
Proof. induction done as [|d done IH]; [reflexivity|]. cbn [map concat]. rewrite zlen_app, IH. reflexivity. Qed.

Lemma impl_reads t data bs byte_offsets entries : bytes_of data bs -> zlen bs < 2 ^ 31 -> zlen byte_offsets = zlen entries + 1 ->
  (forall i xss, nthZ entries i = Some xss -> Forall (Forall (holds t)) xss /\ exists p version, nthZ byte_offsets i = Some p /\
     stands_at bs p (entry_bytes t version xss) /\ zlen (entry_bytes t version xss) < 2 ^ 30) ->
  exists c, uproot_issue_90_impl t data byte_offsets = Ok c /\ den c = Some (map (entry_value t) entries).
Proof.
  intros Hd Hl Ho He. pose proof (zlen_nonneg entries). unfold uproot_issue_90_impl.
  assert (Hh : forall i xss, nthZ entries i = Some xss -> has data bs).
  { intros i xss E. destruct (He i xss E) as (_ & p & version & _ & (before & after & Eb & _) & _). apply bytes_has; [|exact Hd].
    rewrite Eb, !zlen_app, entry_bytes_length. pose proof (zlen_nonneg before). pose proof (zlen_nonneg after).
    pose proof (zlen_nonneg (concat (map (vector_bytes t) xss))). lia. }
  destruct (wr_push' (@nil Z) (alloc (zlen byte_offsets)) 0) as (r0 & Hw & Hr0); [rewrite zlen_alloc by lia; lia|].
  cbn [app] in Hw. change (zlen (@nil Z)) with 0 in Hw. rewrite Hw. cbn [bind]. clear Hw. rewrite zlen_alloc in Hr0 by lia.
  replace (zlen byte_offsets - 1) with (zlen entries) by lia.
  match goal with |- context [for_ 0 (zlen entries) ?b ?s] =>
    destruct (for_list entries (fun d st => exists r, st = (offsets_of (map zlen d) ++ r, sumZ (map zlen (concat d)), offsets_of (map zlen (concat d)), concat (concat d))
      /\ zlen entries = zlen d + zlen r) b s) as (st & Hst & r & -> & Hr) end.
  - exists r0. split; [reflexivity|]. change (zlen (@nil (list (list Z)))) with 0. lia.
  - intros d xss rest st Ed (r & -> & Hr).
    assert (En : nthZ entries (zlen d) = Some xss) by (rewrite <- Ed; apply nthZ_mid).
    destruct (He _ _ En) as (Hx & p & version & Hp & Hs & Hlen).
    assert (Hle : zlen entries = zlen d + (zlen rest + 1)) by (rewrite <- Ed, zlen_app, zlen_cons; lia). pose proof (zlen_nonneg rest).
    unfold rd at 1. rewrite Hp. cbn [bind].
    pose proof (entry_at t data bs p version xss (concat d) (Hh _ _ En) Hl Hx Hlen Hs) as Hen. cbv zeta in Hen.
    destruct (load_item RInt32 data p) as [nb| |]; try discriminate Hen. cbn [bind] in *. cbv zeta.
    destruct (add32 (Z.land nb (Z.lnot 0x40000000)) 4) as [nb'| |]; try discriminate Hen. cbn [bind] in *.
    destruct (add32 p nb') as [stop| |]; try discriminate Hen. cbn [bind] in *.
    rewrite Hen. cbn [bind]. clear Hen.
    assert (Hrd : rd (offsets_of (map zlen d) ++ r) (zlen d) = Ok (sumZ (map zlen d))).
    { unfold rd. rewrite nthZ_app, zlen_offsets_of, zlen_map. destruct (Z.ltb_spec (zlen d) (zlen d + 1)); [|lia].
      unfold offsets_of. rewrite nthZ_offsets_from by (rewrite zlen_map; pose proof (zlen_nonneg d); lia).
      rewrite slice_full' by (rewrite zlen_map; reflexivity). reflexivity. }
    rewrite Hrd. cbn [bind].
    replace (zlen d + 1) with (zlen (offsets_of (map zlen d))) by (rewrite zlen_offsets_of, zlen_map; reflexivity).
    destruct (wr_push' (offsets_of (map zlen d)) r (sumZ (map zlen d) + zlen xss)) as (r' & Hw & Hr'); [lia|].
    rewrite Hw. cbn [bind]. eexists. split; [reflexivity|]. exists r'. rewrite zlen_app. change (zlen [xss]) with 1.
    assert (Ec : concat (d ++ [xss]) = concat d ++ xss) by (rewrite concat_app; cbn [concat]; rewrite app_nil_r; reflexivity).
    rewrite Ec. split; [|lia].
    replace (offsets_of (map zlen d) ++ [sumZ (map zlen d) + zlen xss]) with (offsets_of (map zlen (d ++ [xss]))); [reflexivity|].
    rewrite map_app. unfold offsets_of. cbn [map]. rewrite offsets_from_snoc. reflexivity.
  - rewrite Hst. cbn [bind].
    assert (r = []). { destruct r as [|y r]; [reflexivity|]. rewrite zlen_cons in Hr. pose proof (zlen_nonneg r). lia. } subst r. rewrite app_nil_r.
    set (dt := match t with RInt32 => DInt | RFloat64 => DReal end).
    assert (Hsc : forall xs, map (scalar dt) xs = map (value_of t) xs) by (intros xs; apply map_ext; intros x; destruct t; reflexivity).
    assert (D2 : den (ListOffset (offsets_of (map zlen (concat entries))) (Numpy dt (concat (concat entries))))
                 = Some (map VList (map (map (value_of t)) (concat entries)))).
    { replace (map zlen (concat entries)) with (map zlen (map (map (value_of t)) (concat entries))) by (rewrite map_map; apply map_ext; intros; apply zlen_map).
      apply listoffset_den0. cbn [den]. rewrite Hsc, concat_map. reflexivity. }
    assert (D1 : den (ListOffset (offsets_of (map zlen entries)) (ListOffset (offsets_of (map zlen (concat entries))) (Numpy dt (concat (concat entries)))))
                 = Some (map (entry_value t) entries)).
    { replace (map zlen entries) with (map zlen (map (map (fun xs => VList (map (value_of t) xs))) entries)) by (rewrite map_map; apply map_ext; intros; apply zlen_map).
      rewrite (listoffset_den0 (map (map (fun xs => VList (map (value_of t) xs))) entries)).
      - rewrite map_map. reflexivity.
      - rewrite D2. f_equal. rewrite map_map, concat_map. reflexivity. }
    rewrite (mkListOffset_den _ _ _ D2). cbn [bind]. rewrite (mkListOffset_den _ _ _ D1). exists (ListOffset (offsets_of (map zlen entries)) (ListOffset (offsets_of (map zlen (concat entries))) (Numpy dt (concat (concat entries))))).
    split; [reflexivity|exact D1].
Qed.
