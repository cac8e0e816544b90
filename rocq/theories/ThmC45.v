(** C45: ak.values_astype converts every number and keeps the structure of the array. *)
From Verif Require Import Base BaseLemmas OmapLemmas Content KCore Core KOption Option Strided SpecArray SpecForm Astype SpecAstype PForm PAstype.
Local Open Scope string_scope. Local Open Scope list_scope. Local Open Scope Z_scope.

(** The whole property: it fails for negative numbers as truth values, for numbers outside of the lists that do not fit, and for more than
    one dimension (see below). *)
Definition C45_claim : Prop :=
  forall (positive zero : Z -> bool) (whole : Z -> option Z) (nearest : Z -> Z) t c vs ws,
  (forall x, positive x = true -> zero x = false) -> proper_type t ->
  den c = Some vs -> Forall2 (value_as zero whole nearest t) vs ws ->
  exists c' ws', numbers_to_type positive whole nearest t c = Ok c' /\ den c' = Some ws' /\ Forall2 (value_as zero whole nearest t) vs ws'.

(** Every number is converted; lists, records, unions and missing values stay as they are; the type changes in its numbers only.
    Proved for arrays whose buffers hold numbers that can be converted: floating-point numbers that fit the integer type, and for truth values
    numbers that are not negative.  Missing: strings, float32, complex numbers and dates are not modelled; several dimensions. *)
Theorem C45_values_astype_partial : forall positive zero whole nearest t c vs,
  (forall x, positive x = true -> zero x = false) -> proper_type t ->
  den c = Some vs -> all_numbers (convertible positive zero whole t) c ->
  exists c' ws, numbers_to_type positive whole nearest t c = Ok c' /\ den c' = Some ws /\
    Forall2 (value_as zero whole nearest t) vs ws /\ form_of c' = retype t (form_of c).
Proof. intros positive zero whole nearest t c vs Hpz Ht Hd HA. exact (all_good positive zero whole nearest Hpz t Ht c vs Hd HA). Qed.
Print Assumptions C45_values_astype_partial.

(** numbers in tenths; 99 is not a number *)
Definition positive10 (x : Z) : bool := 0 <? x.
Definition zero10 (x : Z) : bool := x =? 0.
Definition whole10 (x : Z) : option Z := if x =? 99 then None else Some (Z.quot x 10).
Definition nearest10 (z : Z) : Z := 10 * z.
Notation to10 := (numbers_to_type positive10 whole10 nearest10).
Example C45_values_astype_demo :
  let c := Record (Some ["x"; "y"]) 2 [ListOffset [0; 2; 3] (BitMasked [5] true true 3 (Numpy DReal [11; 22; -37])); Numpy DInt [300; -1]] in
  (forall x, positive10 x = true -> zero10 x = false) /\ all_numbers (convertible positive10 zero10 whole10 (TInt false 8)) (Numpy DReal [11; 22; 37]) /\
  option_map (fun vs => vs) (den c) = Some [VRec [("x", VList [VReal 11; VNone]); ("y", VInt 300)]; VRec [("x", VList [VReal (-37)]); ("y", VInt (-1))]] /\
  match to10 (TInt true 8) c with Ok c' => den c' | _ => None end =
    Some [VRec [("x", VList [VInt 1; VNone]); ("y", VInt 44)]; VRec [("x", VList [VInt (-3)]); ("y", VInt (-1))]].
Proof.
  split; [intros x; unfold positive10, zero10; destruct (Z.ltb_spec 0 x), (Z.eqb_spec x 0); intros; try reflexivity; try lia; discriminate|].
  split; [cbn; repeat constructor; eexists; (split; [reflexivity|]); cbn; lia|]. split; vm_compute; reflexivity.
Qed.
(** integers that fit the type are kept *)
Lemma C45_fitting_integers : forall zero whole nearest s n z w, 1 < n -> in_type s n z -> value_as zero whole nearest (TInt s n) (VInt z) w -> w = VInt z.
Proof.
  intros zero whole nearest s n z w Hn Hz H. inversion H as [v w' N| | | |]; subst. destruct w; cbn in N; try contradiction. destruct N as (Hw & k & ->). f_equal.
  unfold in_type in *. assert (E : 2 ^ n = 2 * 2 ^ (n - 1)) by (rewrite <- Z.pow_succ_r by lia; f_equal; lia). assert (0 < 2 ^ (n - 1)) by (apply Z.pow_pos_nonneg; lia).
  assert (k = 0) by (destruct s; nia). lia.
Qed.

(** types that are not supported are refused, unless there are no numbers *)
Fixpoint has_numbers (f : form) : bool :=
  match f with
  | FUnknown => false
  | FNum _ => true
  | FList f | FOption f => has_numbers f
  | FRecord _ fs | FUnion fs => existsb has_numbers fs
  end.
Theorem C45_refused : forall positive whole nearest c c',
  numbers_to_type positive whole nearest TRefused c = Ok c' -> has_numbers (form_of c) = false.
Proof.
  intros positive whole nearest c. assert (HM : forall cs cs', Forall (fun c => forall c', numbers_to_type positive whole nearest TRefused c = Ok c' -> has_numbers (form_of c) = false) cs ->
    mapres (numbers_to_type positive whole nearest TRefused) cs = Ok cs' -> existsb has_numbers (map form_of cs) = false).
  { intros cs cs' H. revert cs'. induction H as [|x cs Hx _ IH]; intros cs' E; [reflexivity|]. cbn [mapres] in E. binv E. cbn. rewrite (Hx _ E0), (IH _ E1). reflexivity. }
  induction c using content_ind'; intros r Hr; cbn [numbers_to_type] in Hr; cbn [form_of has_numbers]; try reflexivity; binv Hr; try (eapply IHc; eassumption); try (eapply HM; eassumption); try discriminate.
  destruct a; try discriminate. binv Hr. eapply IHc; eassumption.
Qed.
Print Assumptions C45_refused.
Example C45_refused_demo : (exists m, to10 TRefused (ListOffset [0; 0] (Numpy DInt [])) = Err m) /\ to10 TRefused (ListOffset [0; 0] Empty) = Ok (ListOffset [0; 0] Empty).
Proof. split; [eexists|]; vm_compute; reflexivity. Qed.

(** negative numbers become False *)
Theorem C45_negative_refuted : exists c c', den c = Some [VInt (-1)] /\ to10 TBool c = Ok c' /\ den c' = Some [VBool false] /\
  ~ value_as zero10 whole10 nearest10 TBool (VInt (-1)) (VBool false).
Proof.
  exists (Numpy DInt [-1]), (Numpy DBool [0]). split; [reflexivity|]. split; [vm_compute; reflexivity|]. split; [vm_compute; reflexivity|].
  intros H. inversion H as [v w N| | | |]; subst. cbn in N. destruct N as [_ N]. discriminate N. lia.
Qed.
Print Assumptions C45_negative_refuted.

(** a number that no list holds is converted too, which is undefined when it does not fit *)
Theorem C45_unreachable_refuted : exists c, den c = Some [VList [VReal 11]] /\
  Forall2 (value_as zero10 whole10 nearest10 (TInt true 64)) [VList [VReal 11]] [VList [VInt 1]] /\ to10 (TInt true 64) c = UB.
Proof.
  exists (ListOffset [0; 1] (Numpy DReal [11; 99])). split; [reflexivity|]. split; [|vm_compute; reflexivity].
  repeat constructor; cbn; lia.
Qed.
Print Assumptions C45_unreachable_refuted.
Theorem C45_claim_refuted : ~ C45_claim.
Proof.
  intros H. destruct C45_unreachable_refuted as (c & Hd & HF & HU).
  assert (HP : forall x, positive10 x = true -> zero10 x = false) by (intros x; unfold positive10, zero10; destruct (Z.ltb_spec 0 x), (Z.eqb_spec x 0); intros; try reflexivity; try lia; discriminate).
  destruct (H positive10 zero10 whole10 nearest10 (TInt true 64) c _ _ HP ltac:(cbn; lia) Hd HF) as (c' & ws & E & _). rewrite HU in E. discriminate.
Qed.
Print Assumptions C45_claim_refuted.

(** two dimensions: only as many numbers are converted as the first dimension is long; the result says it has all of them, and reading it
    goes past the end of its buffer.  Here a number is one byte. *)
Theorem C45_dimensions_refuted : exists a b,
  nd_toRegularArray (hd 0) DInt a = Ok (Regular 3 2 (Numpy DInt [1; 2; 3; 4; 5; 6])) /\
  nd_to_type positive10 whole10 nearest10 (hd 0) (fun z => [z]) DInt (TInt true 8) 1 a = Ok b /\ nd_shape b = [2; 3] /\ nd_mem b = [1; 2] /\
  nd_toRegularArray (hd 0) DInt b = UB.
Proof. exists (mkND [1; 2; 3; 4; 5; 6] [2; 3] [3; 1] 0 1). eexists. split; [vm_compute; reflexivity|]. split; [vm_compute; reflexivity|]. repeat split; vm_compute; reflexivity. Qed.
Print Assumptions C45_dimensions_refuted.
(** one dimension, every second number of a buffer *)
Example C45_strided_demo : exists b, nd_to_type positive10 whole10 nearest10 (hd 0) (fun z => [z]) DInt (TInt false 8) 1 (mkND [7; -1; 8; -2; 9] [2] [2] 1 1) = Ok b /\ nd_toRegularArray (hd 0) DInt b = Ok (Numpy DInt [255; 254]).
Proof. eexists. split; [vm_compute; reflexivity|]. vm_compute; reflexivity. Qed.
