(** Proofs about keys and haskey. *)
From Verif Require Import Base BaseLemmas OmapLemmas Content KCore Core KOption Option SpecArray SpecForm SpecOption PCore PCarry PList POption PAxis PPromote PMergeR PMerge PTidy PLift PForm PNat PGetitem1 Getitem SpecGetitem PField Setitem SpecSetitem SpecFields Keys SpecKeys.
From Coq Require Import String Ascii DecimalString.
From Coq Require DecimalNat DecimalFacts.
From Coq Require Import List.
Import ListNotations.
Local Open Scope list_scope.
Local Open Scope Z_scope.

Lemma digits_uint d : forall a, digits (Z.of_nat a) (NilEmpty.string_of_uint d) = Z.of_nat (Nat.of_uint_acc d a).
Proof.
  induction d as [|d IH|d IH|d IH|d IH|d IH|d IH|d IH|d IH|d IH|d IH]; intros a; [reflexivity|..].
  all: cbn [NilEmpty.string_of_uint digits Nat.of_uint_acc]; rewrite <- IH, PeanoNat.Nat.tail_mul_spec;
    match goal with |- context [digit ?x] => let v := eval vm_compute in (digit x) in change (digit x) with v end; cbv iota;
    f_equal; change 10%nat with (Z.to_nat 10); lia.
Qed.
Lemma number_uint d : d <> Decimal.Nil -> number (NilEmpty.string_of_uint d) = Some (Z.of_nat (Nat.of_uint d)) /\ stoi (NilEmpty.string_of_uint d) = number (NilEmpty.string_of_uint d).
Proof.
  intros Hd. unfold Nat.of_uint. rewrite <- digits_uint. destruct d; [contradiction|..]; split; reflexivity.
Qed.
Lemma stoi_decimal n : stoi (decimal n) = Some (Z.of_nat n).
Proof.
  unfold decimal. destruct (number_uint (Nat.to_uint n)) as [E1 E2]; [|rewrite E2, E1, DecimalNat.Unsigned.of_to; reflexivity].
  rewrite <- (DecimalNat.Unsigned.of_to n), DecimalNat.Unsigned.to_of. apply DecimalFacts.unorm_nonnil.
Qed.

(** ** unions *)
Lemma erase_filter tmp : forall n out, (n <= length out)%nat -> erase_loop tmp n out = filter (fun k => existsb (String.eqb k) tmp) (firstn n out) ++ skipn n out.
Proof.
  induction n as [|j IH]; intros out Hn; [reflexivity|]. cbn [erase_loop]. destruct (nth_error out j) as [k|] eqn:E; [|apply nth_error_None in E; lia].
  pose proof (nth_error_split out j E) as (l1 & l2 & -> & Hl).
  assert (F : firstn j (l1 ++ k :: l2) = l1) by (rewrite <- Hl, firstn_app, firstn_all, Nat.sub_diag; cbn [firstn]; apply app_nil_r).
  assert (K : skipn (S j) (l1 ++ k :: l2) = l2). { replace (l1 ++ k :: l2) with ((l1 ++ [k]) ++ l2) by (rewrite <- app_assoc; reflexivity). replace (S j) with (length (l1 ++ [k])) by (rewrite app_length; cbn; lia). rewrite skipn_app, skipn_all, Nat.sub_diag. reflexivity. }
  assert (F' : firstn (S j) (l1 ++ k :: l2) = l1 ++ [k]). { replace (l1 ++ k :: l2) with ((l1 ++ [k]) ++ l2) by (rewrite <- app_assoc; reflexivity). replace (S j) with (length (l1 ++ [k])) by (rewrite app_length; cbn; lia). rewrite firstn_app, firstn_all, Nat.sub_diag. cbn [firstn]. apply app_nil_r. }
  assert (K' : skipn j (l1 ++ k :: l2) = k :: l2) by (rewrite <- Hl, skipn_app, skipn_all, Nat.sub_diag; reflexivity).
  rewrite F, K, F'. rewrite filter_app. cbn [filter]. destruct (existsb (String.eqb k) tmp).
  - rewrite IH by (rewrite app_length; lia). rewrite F, K', <- app_assoc. reflexivity.
  - rewrite IH by (rewrite app_length; lia). rewrite app_nil_r. rewrite <- Hl at 1. rewrite firstn_app, firstn_all, Nat.sub_diag. cbn [firstn]. rewrite app_nil_r. f_equal. rewrite <- Hl. rewrite skipn_app, skipn_all, Nat.sub_diag. reflexivity.
Qed.
Lemma erase_all tmp out : erase_loop tmp (length out) out = filter (fun k => existsb (String.eqb k) tmp) out.
Proof. rewrite erase_filter by lia. rewrite firstn_all, skipn_all. apply app_nil_r. Qed.
Lemma filter_filter {A} (f g : A -> bool) l : filter g (filter f l) = filter (fun x => f x && g x) l.
Proof. induction l as [|x l IH]; [reflexivity|]. cbn [filter]. destruct (f x); cbn [filter andb]; [destruct (g x)|]; now rewrite IH. Qed.
Lemma union_fold rest : forall first, fold_left (fun out tmp => erase_loop tmp (length out) out) rest first = filter (fun k => forallb (fun names => existsb (String.eqb k) names) rest) first.
Proof.
  induction rest as [|tmp rest IH]; intros first; cbn [fold_left forallb].
  - induction first as [|x first IHf]; [reflexivity|]. cbn [filter]. now rewrite <- IHf.
  - rewrite IH, erase_all. apply filter_filter.
Qed.

(** ** names are those of the type *)
Lemma keys_form c : keys c = field_names (form_of c).
Proof.
  induction c using content_ind'; cbn [Keys.keys form_of field_names]; auto.
  - destruct keys; [reflexivity|]. cbn [record_keys]. now rewrite map_length.
  - match goal with H : Forall _ cs |- _ => rename H into HF end. assert (E : map Keys.keys cs = map field_names (map form_of cs)).
    { clear -HF. induction HF as [|c cs Hc _ IH]; cbn [map]; [reflexivity|]. now rewrite Hc, IH. }
    rewrite E. destruct (map form_of cs) as [|f fs]; cbn [map]; [reflexivity|]. apply union_fold.
Qed.

Lemma in_existsb k ks : In k ks -> existsb (String.eqb k) ks = true.
Proof. intros H. apply existsb_exists. exists k. split; [exact H|apply String.eqb_refl]. Qed.
Fixpoint names_fit (c : content) : Prop :=
  match c with
  | Empty | Numpy _ _ => True
  | ListA _ _ c | ListOffset _ c | Regular _ _ c | Indexed _ c | IndexedOption _ c | ByteMasked _ _ c | BitMasked _ _ _ _ c | Unmasked c => names_fit c
  | Record names _ cs => keys_ok names (zlen cs) = true
  | Union _ _ _ => True
  end.
Lemma den_fit c : forall vs, den c = Some vs -> names_fit c.
Proof.
  induction c using content_ind'; intros vs Hd; cbn [names_fit]; auto.
  all: try (destruct (content_inv1 _ _ Hd) as [ws Hws]; cbn [below] in Hws; eauto; fail).
  destruct (record_cols _ _ _ _ Hd) as (_ & _ & _ & Hk & _). exact Hk.
Qed.
Lemma listed_has_field key c : names_fit c -> has_records (form_of c) = true -> In key (keys c) -> has_field key (form_of c) = true.
Proof.
  induction c using content_ind'; cbn [names_fit form_of has_records Keys.keys has_field]; intros HN HR Hin; try discriminate; auto.
  destruct keys as [ks|]; cbn [record_keys keys_ok] in *; rewrite zlen_map.
  - rewrite HN. apply in_existsb. exact Hin.
  - apply in_map_iff in Hin. destruct Hin as (j & <- & Hj). apply in_seq in Hj. change (to_string j) with (decimal j). rewrite stoi_decimal. unfold zlen. apply andb_true_intro. split; [apply Z.leb_le; lia|apply Z.ltb_lt; lia].
Qed.
Lemma key_index_some ks key : forall i, In key ks -> exists j, key_index ks key i = Some j.
Proof. induction ks as [|k ks IH]; intros i Hin; [destruct Hin|]. cbn [key_index]. destruct (String.eqb_spec k key); [eauto|]. destruct Hin as [->|Hin]; [contradiction|eauto]. Qed.
Lemma listed_haskey key c : In key (keys c) -> haskey key c = true.
Proof.
  induction c using content_ind'; cbn [haskey]; intros Hin; auto; try (destruct Hin; fail).
  - cbn [Keys.keys] in Hin. unfold record_haskey, fieldindex. destruct keys as [ks|]; cbn [record_keys] in Hin.
    + destruct (key_index_some ks key 0 Hin) as (j & ->). reflexivity.
    + apply in_map_iff in Hin. destruct Hin as (j & <- & Hj). apply in_seq in Hj. change (to_string j) with (decimal j). rewrite stoi_decimal. unfold zlen. destruct (Z.leb_spec 0 (Z.of_nat j)); [|lia]. destruct (Z.ltb_spec (Z.of_nat j) (Z.of_nat (length cs))); [reflexivity|lia].
  - apply in_existsb. exact Hin.
Qed.
Lemma field_haskey key c : forall f, getitem_field key c = Ok f -> haskey key c = true.
Proof.
  induction c using content_ind'; intros f E; cbn [getitem_field haskey] in *; try discriminate; try (binv E; eauto; fail).
  binv E. unfold record_haskey. rewrite E0. reflexivity.
Qed.

(** ** whatever haskey accepts can be read *)
From Verif Require Import PRange.
Lemma F2_true {A B} (l : list A) : forall l' : list B, zlen l = zlen l' -> Forall2 (fun _ _ => True) l l'.
Proof.
  induction l as [|x l IH]; intros [|y l'] H; rewrite ?zlen_cons in H; try constructor; auto.
  - exfalso. change (zlen (@nil A)) with 0 in H. pose proof (zlen_nonneg l'). lia.
  - exfalso. change (zlen (@nil B)) with 0 in H. pose proof (zlen_nonneg l). lia.
  - apply IH. lia.
Qed.
Local Ltac fin := eexists; eexists; split; [reflexivity|split; [eassumption|eauto]].
Lemma haskey_read key c : forall vs, den c = Some vs -> has_records (form_of c) = true -> haskey key c = true ->
  exists f ws, getitem_field key c = Ok f /\ den f = Some ws /\ zlen ws = zlen vs.
Proof.
  pose (R := fun (_ _ : value) => True).
  assert (RL : forall l l', Forall2 R l l' -> R (VList l) (VList l')) by (intros; exact Logic.I).
  assert (RN : R VNone VNone) by exact Logic.I.
  assert (RZ : forall l l', Forall2 R l l' -> zlen l' = zlen l) by (intros l l' H; symmetry; induction H; rewrite ?zlen_cons; [reflexivity|lia]).
  induction c using content_ind'; intros vs Hd Hr Hk; cbn [form_of has_records] in Hr; try discriminate Hr; cbn [haskey] in Hk; cbn [getitem_field].
  all: try (destruct (content_inv1 _ _ Hd) as [ws Hws]; cbn [below] in Hws; destruct (IHc ws Hws Hr Hk) as (next & us & -> & Hn & HZ); cbn [bind]; pose proof (F2_true ws us (eq_sym HZ)) as Hus; change (Forall2 R ws us) in Hus).
  - destruct (lista_lift R RL _ _ _ _ _ _ _ Hws Hn Hus Hd) as (vs' & Hd' & HF). rewrite (mkListA_den _ _ _ _ Hd'). fin.
  - destruct (listoffset_lift R RL _ _ _ _ _ _ Hws Hn Hus Hd) as (vs' & Hd' & HF). rewrite (mkListOffset_den _ _ _ Hd'). fin.
  - assert (Hd2 : den (Regular size (length_ (Regular size zl c)) c) = Some vs).
    { pose proof (den_length _ _ Hd) as HL. destruct (regular_inv _ _ _ _ Hd) as (ws' & segs & Ec & Hs & -> & _ & _ & Hz & _). destruct (Z.eqb_spec size 0) as [->|Hne].
      - rewrite HL, zlen_map. rewrite <- (Hz eq_refl). exact Hd.
      - cbn [den] in *. rewrite Ec in *. destruct (Z.ltb_spec 0 size); [exact Hd|lia]. }
    destruct (regular_lift R RL _ _ _ _ _ _ _ Hws Hn Hus Hd2) as (vs' & Hd' & HF). rewrite (mkRegular_den _ _ _ _ Hd'). fin.
  - destruct (indexed_lift R _ _ _ _ _ _ Hws Hn Hus Hd) as (vs' & Hd' & HF). destruct (simplify_den _ _ Hd' eq_refl) as (r & -> & Hr' & _). fin.
  - destruct (indexedoption_lift R RN _ _ _ _ _ _ Hws Hn Hus Hd) as (vs' & Hd' & HF). destruct (simplify_den _ _ Hd' eq_refl) as (r & -> & Hr' & _). fin.
  - destruct (bytemasked_lift R RN _ _ _ _ _ _ _ Hws Hn Hus Hd) as (vs' & Hd' & HF). rewrite (mkByteMasked_den _ _ _ _ Hd'). cbn [bind]. destruct (simplify_den _ _ Hd' eq_refl) as (r & -> & Hr' & _). fin.
  - destruct (bitmasked_lift R RN _ _ _ _ _ _ _ _ _ Hws Hn Hus Hd) as (vs' & Hd' & HF). rewrite (mkBitMasked_den _ _ _ _ _ _ Hd'). cbn [bind]. destruct (simplify_den _ _ Hd' eq_refl) as (r & -> & Hr' & _). fin.
  - change (den (Unmasked c)) with (den c) in Hd. rewrite Hws in Hd. injection Hd as <-. assert (Hd' : den (Unmasked next) = Some us) by exact Hn. destruct (simplify_den _ _ Hd' eq_refl) as (r & -> & Hr' & _). fin.
  - destruct (record_cols _ _ _ _ Hd) as (vss & Hc & Hlen & Hks & Hz & Hrow). unfold record_haskey in Hk. destruct (fieldindex keys key (zlen cs)) as [j|e|] eqn:Ej; try discriminate. cbn [bind].
    assert (Hj : 0 <= j < zlen cs).
    { unfold fieldindex in Ej. destruct (match keys with Some ks => key_index ks key 0 | None => None end) as [i|] eqn:Ei.
      - injection Ej as <-. destruct keys as [ks|]; [|discriminate]. cbn [keys_ok] in Hks. apply Z.eqb_eq in Hks. rewrite <- Hks.
        assert (G : forall ks k i, key_index ks key k = Some i -> k <= i < k + zlen ks). { clear. induction ks as [|x ks IH]; cbn [key_index]; intros k i H; [discriminate|]. rewrite zlen_cons. pose proof (zlen_nonneg ks). destruct (String.eqb x key); [injection H as <-; lia|]. apply IH in H. lia. }
        apply G in Ei. lia.
      - destruct (stoi key) as [i|]; [|discriminate]. destruct (Z.leb_spec 0 i); [|discriminate]. destruct (Z.ltb_spec i (zlen cs)); [|discriminate]. cbn [andb] in Ej. injection Ej as <-. lia. }
    destruct (nthZ_lt cs j Hj) as [x Hx]. rewrite (proj2 (rd_Ok _ _ _) Hx). cbn [bind].
    destruct (omap_nth _ _ _ _ _ Hc Hx) as (E & col & Hcol). rewrite Hcol in E. symmetry in E.
    assert (Hcl : len <= zlen col).
    { destruct (Z.eqb_spec len 0); [pose proof (zlen_nonneg col); lia|]. destruct (nthZ_lt vs (len - 1) ltac:(lia)) as [v Hv]. destruct (omap_nth' _ _ _ _ _ Hrow Hv) as (i' & Hi' & Hm).
      pose proof (nthZ_Some _ _ _ Hi') as B. rewrite zlen_zseq in B by lia. rewrite nthZ_zseq in Hi' by lia. injection Hi' as <-. destruct (omap _ vss) as [row|] eqn:Er; [|discriminate]. destruct (omap_nth _ _ _ _ _ Er E) as (_ & y & Hy). apply nthZ_Some in Hy. lia. }
    destruct (range_den _ _ 0 len Hcol ltac:(lia) Hcl) as (x' & -> & Hd'). exists x', (slice 0 len col). split; [reflexivity|]. split; [exact Hd'|]. rewrite zlen_slice by lia. lia.
Qed.
