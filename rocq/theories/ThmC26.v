(** C26 Growable buffers never touch memory outside what they reserved and never lose data. *)
From Verif Require Import Base BaseLemmas Growable SpecGrowable PGrowable.
Local Open Scope list_scope.
Local Open Scope Z_scope.

(** Any program over any number of buffers: every step succeeds (a touch outside a block, or a read of an item
    never written, would be [UB]), and at the end each buffer reads back exactly the items it was given, in order. *)
Theorem C26_buffers_keep_their_items : forall (T : Type) (of_int : Z -> T) o xs s,
  growing o -> meanings of_int (mkLists [] []) xs = Some s ->
  exists st, performs of_int o nothing xs = Ok st
    /\ Forall2 (fun b l => reads (st_heap st) (g_ptr b) (g_length b) l) (st_bufs st) (ls_bufs s).
Proof.
  intros T of_int o xs s G M. destruct (performs_ok of_int o xs nothing (mkLists [] []) s G inv_nothing M) as (st & E & I).
  exists st. split; [ exact E | exact (proj1 (inv_reads of_int _ _ I)) ].
Qed.
Print Assumptions C26_buffers_keep_their_items.

(** the default options: 1024 items at first, resized by 3/2; here 2 items at first, so that it resizes *)
Example C26_example :
  growing (mkOptions 2 (ceil_grow 3 2)) /\
  meanings (fun z => z) (mkLists [] [])
    [ONew; OAppend 0 10; OAppend 0 11; OSnapshot 0; OAppend 0 12; OArange 5; OAppend 1 7; OClear 0; OAppend 0 20]
  = Some (mkLists [[20]; [0; 1; 2; 3; 4; 7]] [[10; 11]]).
Proof.
  split; [ | vm_compute; reflexivity ]. split; [ cbn; lia | ]. intros r Hr. cbn. unfold ceil_grow.
  enough (r + 1 <= (r * 3 + (2 - 1)) / 2) by lia. apply Z.div_le_lower_bound; lia.
Qed.

(** A resize factor p/q above one grows every buffer that has room for at least one item. *)
Theorem C26_any_factor_above_one : forall (T : Type) (of_int : Z -> T) initial p q xs s,
  1 <= initial -> 0 < q < p -> meanings of_int (mkLists [] []) xs = Some s ->
  exists st, performs of_int (mkOptions initial (ceil_grow p q)) nothing xs = Ok st
    /\ Forall2 (fun b l => reads (st_heap st) (g_ptr b) (g_length b) l) (st_bufs st) (ls_bufs s).
Proof.
  intros. apply C26_buffers_keep_their_items; [ | assumption ]. split; [ assumption | ]. intros r Hr. cbn. unfold ceil_grow.
  enough (r + 1 <= (r * p + (q - 1)) / q) by lia. apply Z.div_le_lower_bound; nia.
Qed.
Print Assumptions C26_any_factor_above_one.

Example C26_factor_example : 0 < 2 < 3 /\ ceil_grow 3 2 1024 = 1536 /\ ceil_grow 11 10 1 = 2.
Proof. repeat split. Qed.

(** The options are not checked: a buffer that starts with no room, or a factor of one, writes outside its block. *)
Theorem C26_unchecked_options_refuted :
  (forall (T : Type) (of_int : Z -> T) p q x, 0 < q < p ->
     performs of_int (mkOptions 0 (ceil_grow p q)) nothing [ONew; OAppend 0 x] = UB)
  /\ (forall (T : Type) (of_int : Z -> T) x,
     performs of_int (mkOptions 1 (ceil_grow 1 1)) nothing [ONew; OAppend 0 x; OAppend 0 x] = UB).
Proof.
  split.
  - intros T of_int p q x H.
    assert (ceil_grow p q 0 = 0) as E by (unfold ceil_grow; apply Z.div_small; lia).
    lazy -[ceil_grow]. rewrite E. reflexivity.
  - intros. vm_compute. reflexivity.
Qed.
Print Assumptions C26_unchecked_options_refuted.
