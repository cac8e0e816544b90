(** C35: a virtual array answers every request with the values of the array that its generator gives, whatever its cache keeps or drops;
    a generator that raises, gives too short an array or one of another form makes every access raise. *)
From Verif Require Import Base Content Core KRange SpecArray SpecForm SpecSlice Getitem SpecGetitem Virtual SpecVirtual PVirtual PVirtual3 PVirtual4.
From Coq Require Import String.
From Coq Require Import List.
Import ListNotations.
Local Open Scope string_scope.
Local Open Scope list_scope.
Local Open Scope Z_scope.

(** no array is cached, no form inferred, and [n] names given out *)
Definition start (n : Z) : world := World 0 n [] [].

(** Missing for the full property: BitMaskedArrays and UnionArrays inside, fields of records with equal names, slices by several fields at
    once or by more than one item, virtual arrays inside other arrays, and generators that give a longer array than declared: for these the
    property does not hold, see the refutations below.  [expected] lists the types and the values of the arrays that the generators give,
    [expected'] those of the arrays that the history should obtain.  [lost] decides at each lookup whether the cache still has the entry. *)
Theorem C35_same_values_partial : forall is64 fuel make lost n arrays expected acts expected',
  (2 <= fuel)%nat ->
  Forall2 (fun v fv => exists id form len cached c, v = VUser id form len cached /\ id < n /\ make id = Ok c /\
             declared v c /\ steady (layout c) = true /\ form_of c = fst fv /\ den c = Some (snd fv)) arrays expected ->
  outcomes acts expected = Some expected' ->
  (forall fv, In fv expected' -> zlen (snd fv) < kSliceNone) ->
  exists pool w, history is64 fuel make lost acts (map Lazy arrays) (start n) = Ok (pool, w) /\
    Forall2 (fun x fv =>
      (exists c w', read is64 fuel make lost x w = Ok (IArray c, w') /\ den c = Some (snd fv)) /\
      (exists w', ask_length is64 fuel make lost x w = Ok (zlen (snd fv), w')) /\
      (forall i, match elem (snd fv) i with
                 | Some v => exists it w', ask_at is64 fuel make lost x i w = Ok (Now it, w') /\ item_den it = Some v
                 | None => exists m, ask_at is64 fuel make lost x i w = Err m
                 end) /\
      (forall idx, omap (elem (snd fv)) idx = None ->
         (exists m, ask is64 fuel make lost x (RIndex idx) w = Err m) \/
         (exists y w' m, ask is64 fuel make lost x (RIndex idx) w = Ok (y, w') /\ read is64 fuel make lost y w' = Err m)))
      pool expected'.
Proof.
  intros is64 fuel make lost n arrays expected acts expected' Hf H0 Ho Hn.
  set (g := fun id => if id <? n then match make id with Ok c => Some c | _ => None end else None).
  assert (G : good g (start n)). { split; [discriminate|]. split; [discriminate|]. intros id c. unfold g. destruct (Z.ltb_spec id n); [|discriminate]. intros _. cbn [fresh start]. assumption. }
  assert (F : Forall2 (shows is64 fuel make g) (map Lazy arrays) expected).
  { clear Ho Hn. induction H0 as [|v fv arrays expected Hv _ IH]; cbn [map]; constructor; [|exact IH]. destruct Hv as (id & form & len & cached & c & -> & Hi & Hm & Hd & HS & Hfo & HD). exists c. split; [split; [exact HD|]; split; [rewrite Hfo; reflexivity|exact HS]|].
    constructor; [exact Hm| |exact Hd|exact HS]. unfold g. destruct (Z.ltb_spec id n); [|lia]. rewrite Hm. reflexivity. }
  destruct (history_ok is64 fuel make lost Hf acts g (start n) (map Lazy arrays) expected expected' G F Ho Hn) as (pool & w & g' & E & G' & F'). exists pool, w. split; [exact E|].
  clear -Hf G' F'. induction F' as [|x [f vs] pool ex Hx _ IH]; constructor; [|exact IH]. cbn [snd]. destruct (read_ok is64 fuel make lost Hf g' w x (f, vs) G' Hx) as (c & w1 & E1 & _ & Fc). destruct (ask_length_ok is64 fuel make lost Hf g' w x (f, vs) G' Hx) as (w2 & E2 & _).
  split; [exists c, w1; split; [exact E1|exact (proj1 Fc)]|]. split; [exists w2; exact E2|]. split.
  - intros i. pose proof (ask_at_ok is64 fuel make lost Hf g' w x f vs i G' Hx) as R. destruct (elem vs i); [|exact R]. destruct R as (it & w' & R1 & _ & R2). eauto.
  - intros idx Hi. exact (bad_index is64 fuel make lost g' w x f vs idx Hf G' Hx Hi).
Qed.
Print Assumptions C35_same_values_partial.

(** records with a list, a field that may be missing and a tuple in it *)
Definition ex_content : content :=
  Record (Some ["x"; "y"]) 4
    [ListOffset [1; 3; 3; 4; 6] (Numpy DInt [0; 1; 2; 3; 4; 5]);
     IndexedOption [2; -1; 0; 1] (Record None 3 [Numpy DReal [7; 8; 9]])].
Definition ex_values : list value := match den ex_content with Some vs => vs | None => [] end.
Definition ex_make (id : Z) : res content := if id =? 0 then Ok ex_content else Err "no such generator".
Definition ex_arrays : list varray := [VUser 0 (Some (layout ex_content)) 4 true; VUser 0 None (-1) false].
(** a[1:], a[1:]["y"], b["x"], b["x"][::-2], a[[0, -1, 0]], a[1:]["y"][[2, 1]] as an internal carry, with reads in between *)
Definition ex_acts : list action :=
  [ARequest 0 (RRange 1 kSliceNone); ARequest 2 (RField "y"); ALength 1; ARequest 1 (RField "x"); ARead 0; ARequest 4 (RSlice kSliceNone kSliceNone (-2));
   AAt 1 (-1); ARequest 0 (RIndex [0; -1; 0]); ARequest 3 (RCarry [2; 1]); ARequest 0 (RField "y"); ARequest 8 (RField "0")].
Example C35_same_values_ex :
  Forall2 (fun v fv => exists id form len cached c, v = VUser id form len cached /\ id < 1 /\ ex_make id = Ok c /\
             declared v c /\ steady (layout c) = true /\ form_of c = fst fv /\ den c = Some (snd fv))
    ex_arrays [(form_of ex_content, ex_values); (form_of ex_content, ex_values)] /\
  option_map (map snd) (outcomes ex_acts [(form_of ex_content, ex_values); (form_of ex_content, ex_values)]) =
  Some [ex_values; ex_values; slice 1 4 ex_values;
        [VNone; VTuple [VReal 7]; VTuple [VReal 8]];
        [VList [VInt 1; VInt 2]; VList []; VList [VInt 3]; VList [VInt 4; VInt 5]];
        [VList [VInt 4; VInt 5]; VList []];
        match ex_values with [a; _; _; d] => [a; d; a] | _ => [] end;
        [VTuple [VReal 8]; VTuple [VReal 7]];
        [VTuple [VReal 9]; VNone; VTuple [VReal 7]; VTuple [VReal 8]];
        [VReal 9; VNone; VReal 7; VReal 8]].
Proof.
  split; [|vm_compute; reflexivity]. repeat constructor.
  - exists 0, (Some (layout ex_content)), 4, true, ex_content. repeat split; auto; right; reflexivity.
  - exists 0, None, (-1), false, ex_content. repeat split; auto; left; reflexivity.
Qed.

(** A generator that raises, or gives an array that is shorter than declared or of another form than declared: whatever the history of
    requests that have not raised yet, reading any of the arrays obtained raises. *)
Theorem C35_inconsistent_generator_raises : forall is64 fuel make lost n id form len cached acts pool w,
  match make id with
  | Ok c => 0 <= len /\ length_ c < len \/ exists f, form = Some f /\ form_equal f (layout c) = false
  | Err _ => True
  | UB => False
  end ->
  history is64 fuel make lost acts [Lazy (VUser id form len cached)] (start n) = Ok (pool, w) ->
  forall x, In x pool -> exists m, read is64 fuel make lost x w = Err m.
Proof.
  intros is64 fuel make lost n id form len cached acts pool w Hb E x Hx. pose proof (inconsistent_array is64 fuel make lost id form len cached Hb) as B.
  destruct (bad_history is64 fuel make lost (VUser id form len cached) B acts [Lazy (VUser id form len cached)] (start n) pool w) as [F Hw]; [constructor; [eexists; split; reflexivity|constructor]|reflexivity|exact E|].
  rewrite Forall_forall in F. destruct (F x Hx) as (u & -> & Hr). cbn [read]. destruct (bad_array is64 fuel make lost (VUser id form len cached) B u w Hr Hw) as [m ->]. cbn [bind]. eauto.
Qed.
Print Assumptions C35_inconsistent_generator_raises.
Example C35_inconsistent_generator_raises_ex :
  let make (id : Z) : res content := Ok (Numpy DInt [1; 2; 3]) in
  (exists pool w, history (fun _ => true) 2 make (fun _ => false) [ARequest 0 (RRange 1 3); ARequest 1 (RIndex [0]); ALength 2] [Lazy (VUser 0 None 4 true)] (start 1) = Ok (pool, w) /\ zlen pool = 3) /\
  (exists pool w, history (fun _ => true) 2 make (fun _ => false) [ARequest 0 (RRange 1 3); ARequest 1 (RIndex [0]); ALength 2] [Lazy (VUser 0 (Some (LNumpy DReal)) 3 true)] (start 1) = Ok (pool, w) /\ zlen pool = 3).
Proof. split; eexists _, _; split; vm_compute; reflexivity. Qed.

(** ** What does not hold *)
(** The result of a history, read, for one virtual array *)
Definition last_values (lost : nat -> bool) (c : content) (v : varray) (acts : list action) : res (option value) :=
  let make (id : Z) : res content := Ok c in
  let* pw := history (fun _ => true) 2 make lost acts [Lazy v] (start 1) in
  let* x := rd (fst pw) (zlen (fst pw) - 1) in
  let* iw := read (fun _ => true) 2 make lost x (snd pw) in
  Ok (item_den (fst iw)).
Definition raises {A} (r : res A) : Prop := match r with Err _ => True | _ => False end.

(** An array that is longer than declared is accepted, and then v[-2:] depends on the cache. *)
Theorem C35_longer_than_declared_refuted :
  let c := Numpy DInt [1; 2; 3; 4; 5] in
  let v := VUser 0 None 3 true in
  let acts := [ARead 0; ARequest 0 (RRange (-2) kSliceNone)] in
  last_values (fun _ => false) c v acts = Ok (Some (VList [VInt 4; VInt 5])) /\
  last_values (fun _ => true) c v acts = Ok (Some (VList [VInt 2; VInt 3])).
Proof. split; vm_compute; reflexivity. Qed.
Print Assumptions C35_longer_than_declared_refuted.

(** With the right form and length declared, a field that is a BitMaskedArray, or a range of records that have one, can only be read while
    the cache has the whole array. *)
Definition ex_bits : content := Record (Some ["x"]) 2 [BitMasked [1] true true 2 (Numpy DInt [5; 6])].
Theorem C35_bitmasked_refuted :
  let v := VUser 0 (Some (layout ex_bits)) 2 true in
  let field := [ARead 0; ARequest 0 (RField "x")] in
  let range := [ARead 0; ARequest 0 (RRange 1 2)] in
  last_values (fun _ => false) ex_bits v field = Ok (Some (VList [VInt 5; VNone])) /\ raises (last_values (fun _ => true) ex_bits v field) /\
  last_values (fun _ => false) ex_bits v range = Ok (Some (VList [VRec [("x", VNone)]])) /\ raises (last_values (fun _ => true) ex_bits v range).
Proof. repeat split. Qed.
Print Assumptions C35_bitmasked_refuted.

(** The same with no form declared: the form that is inferred when the array is read makes the field raise later on, when the cache has
    dropped the array, although it could be read before. *)
Theorem C35_inferred_form_refuted :
  let v := VUser 0 None 2 true in
  last_values (fun _ => true) ex_bits v [ARequest 0 (RField "x")] = Ok (Some (VList [VInt 5; VNone])) /\
  raises (last_values (fun _ => true) ex_bits v [ARead 0; ARequest 0 (RField "x")]).
Proof. repeat split. Qed.
Print Assumptions C35_inferred_form_refuted.

(** Fields of records in a union cannot be asked for when the form is known. *)
Theorem C35_union_field_refuted :
  let c := Union [0; 1] [0; 0] [Record (Some ["x"]) 1 [Numpy DInt [1]]; Record (Some ["x"]) 1 [Numpy DInt [2]]] in
  let v := VUser 0 (Some (layout c)) 2 true in
  raises (history (fun _ => true) 2 (fun _ => Ok c) (fun _ => true) [ARequest 0 (RField "x")] [Lazy v] (start 1)).
Proof. exact I. Qed.
Print Assumptions C35_union_field_refuted.
