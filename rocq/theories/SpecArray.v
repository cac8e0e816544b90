(** Specification: the values an array stands for.  [den c] is the Python list that ak.to_list shows,
    or [None] if some buffer of [c] does not fit together (an index out of range, a content that is too short).
    Nothing here uses the model of the methods. *)
From Verif Require Import Base Content.

Inductive value : Type :=
| VInt (z : Z)
| VBool (b : bool)
| VReal (code : Z)          (* a floating point number; [code] identifies it *)
| VNone
| VList (l : list value)
| VRec (fields : list (string * value))
| VTuple (l : list value).

Definition scalar (dt : dtype) (z : Z) : value :=
  match dt with DBool => VBool (negb (z =? 0)) | DInt => VInt z | DReal => VReal z end.

Section Omap.
  Context {A B : Type} (f : A -> option B).
  Fixpoint omap (l : list A) : option (list B) :=
    match l with
    | [] => Some []
    | x :: t => match f x, omap t with Some y, Some ys => Some (y :: ys) | _, _ => None end
    end.
End Omap.

(** The elements a, ..., b-1 of [vs], if they exist; empty whenever a = b. *)
Definition sublist (vs : list value) (a b : Z) : option value :=
  if a =? b then Some (VList [])
  else if (0 <=? a) && (a <=? b) && (b <=? zlen vs) then Some (VList (slice a b vs)) else None.

(** consecutive pairs *)
Fixpoint pairs (l : list Z) : list (Z * Z) :=
  match l with
  | a :: t => match t with b :: _ => (a, b) :: pairs t | [] => [] end
  | [] => []
  end.

(** bit [i] of a bit mask stored in bytes, least or most significant bit first *)
Definition mask_bit (mask : list Z) (lsb : bool) (i : Z) : option bool :=
  match nthZ mask (i / 8) with
  | Some byte => Some (Z.testbit byte (if lsb then i mod 8 else 7 - i mod 8))
  | None => None
  end.

Definition mkrow (keys : option (list string)) (vals : list value) : value :=
  match keys with Some ks => VRec (combine ks vals) | None => VTuple vals end.

Definition keys_ok (keys : option (list string)) (n : Z) : bool :=
  match keys with Some ks => zlen ks =? n | None => true end.

Fixpoint den (c : content) : option (list value) :=
  match c with
  | Empty => Some []
  | Numpy dt data => Some (map (scalar dt) data)
  | ListA starts stops c =>
      match den c with
      | Some vs => if zlen starts <=? zlen stops
                   then omap (fun ab => sublist vs (fst ab) (snd ab)) (combine starts stops) else None
      | None => None
      end
  | ListOffset offsets c =>
      match den c with
      | Some vs => if 1 <=? zlen offsets
                   then omap (fun ab => sublist vs (fst ab) (snd ab)) (pairs offsets) else None
      | None => None
      end
  | Regular size zl c =>
      match den c with
      | Some vs => if 0 <? size then omap (fun i => sublist vs (i * size) ((i + 1) * size)) (zseq 0 (zlen vs / size))
                   else if (size =? 0) && (0 <=? zl) then Some (repeat (VList []) (Z.to_nat zl)) else None
      | None => None
      end
  | Indexed index c =>
      match den c with Some vs => omap (nthZ vs) index | None => None end
  | IndexedOption index c =>
      match den c with
      | Some vs => omap (fun i => if i <? 0 then Some VNone else nthZ vs i) index
      | None => None
      end
  | ByteMasked mask vw c =>
      match den c with
      | Some vs => if zlen mask <=? zlen vs
                   then Some (map (fun mv => if Bool.eqb (negb (fst mv =? 0)) vw then snd mv else VNone) (combine mask vs))
                   else None
      | None => None
      end
  | BitMasked mask vw lsb len c =>
      match den c with
      | Some vs => if (0 <=? len) && (len <=? zlen vs) && (len <=? 8 * zlen mask)
                   then omap (fun i => match mask_bit mask lsb i, nthZ vs i with
                                       | Some b, Some v => Some (if Bool.eqb b vw then v else VNone)
                                       | _, _ => None
                                       end) (zseq 0 len)
                   else None
      | None => None
      end
  | Unmasked c => den c
  | Record keys len cs =>
      match omap den cs with
      | Some vss => if (0 <=? len) && keys_ok keys (zlen cs)
                    then omap (fun i => option_map (mkrow keys) (omap (fun vs => nthZ vs i) vss)) (zseq 0 len)
                    else None
      | None => None
      end
  | Union tags index cs =>
      match omap den cs with
      | Some vss => if (1 <=? zlen cs) && (zlen tags <=? zlen index)
                    then omap (fun ti => match nthZ vss (fst ti) with Some vs => nthZ vs (snd ti) | None => None end)
                              (combine tags index)
                    else None
      | None => None
      end
  end.

(** the value of one element handed out by getitem_at *)
Definition item_den (it : item) : option value :=
  match it with
  | IScalar dt z => Some (scalar dt z)
  | INone => Some VNone
  | IArray c => option_map VList (den c)
  | IRecord c i => match c, den c with Record _ _ _, Some vs => nthZ vs i | _, _ => None end
  end.
