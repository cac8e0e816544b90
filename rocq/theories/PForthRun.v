(** Running the Forth machine several trips at a time *)
From Verif Require Import Base BaseLemmas Forth.
Local Open Scope list_scope.
Local Open Scope Z_scope.

Lemma trips_plus : forall m single target n1 n2 inner s,
  trips m single target (n1 + n2) inner s =
  match trips m single target n1 inner s with
  | TGo inner' s' => trips m single target n2 inner' s'
  | r => r
  end.
Proof.
  induction n1 as [ | n1 IH ]; intros n2 inner s; [ reflexivity | ].
  cbn [Nat.add trips]. destruct (tick m single target inner s); [ apply IH | reflexivity | reflexivity ].
Qed.

Lemma trips_more : forall m single target n n' inner s r,
  trips m single target n inner s = r -> (forall i t, r <> TGo i t) -> (n <= n')%nat ->
  trips m single target n' inner s = r.
Proof.
  intros m single target n n' inner s r H N L. replace n' with (n + (n' - n))%nat by lia.
  rewrite trips_plus, H. destruct r; [ exfalso; eapply N; reflexivity | reflexivity | reflexivity ].
Qed.

(** Only the base segment, with nothing in the loop stack *)
Lemma tick_go : forall m target s w p a n c,
  frames s = (w, p) :: tl (frames s) -> nthZ (m_offs m) w = Some a -> nthZ (m_offs m) (w + 1) = Some (a + n) ->
  p < n -> nthZ (m_code m) (a + p) = Some c -> in_do s = None -> forall inner, (inner = true \/ depth s <> target) ->
  forall s', exec m false c (where_add 1 s) = XNext s' ->
  tick m false target inner s = TGo true (count_instr s').
Proof.
  intros m target s w p a n c F Ha Hn Hp Hc Hd inner Hi s' Hx.
  unfold tick.
  assert (negb inner && (depth s =? target) = false) as ->.
  { destruct Hi as [ -> | Hi ]; [ reflexivity | ]. destruct inner; [ reflexivity | ]. cbn. apply Z.eqb_neq, Hi. }
  unfold is_segment_done, seg_len, which_where. rewrite F, Ha, Hn.
  replace (a + n - a) with n by lia. rewrite (proj2 (Z.ltb_lt p n) Hp). cbn [negb].
  unfold one_instruction, bytecode_get, which_where. rewrite F, Ha, Hc, Hd. cbn zeta. rewrite Hx. reflexivity.
Qed.
