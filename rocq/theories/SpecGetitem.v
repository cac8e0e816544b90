(** Specification: what a slice means for one value, as NumPy defines it for arrays, extended to missing values and to records:
    a missing value stays missing and a slice of a record is the record of the slices.  Nothing here uses the model of the methods;
    [sliceitem] is the type of the arguments. *)
From Verif Require Import Base Content SpecArray SpecForm SpecSlice KRange Getitem.
From Coq Require Import String.
From Coq Require Import List.
Import ListNotations.
Local Open Scope Z_scope.

(** position [i] of [n], counted from the end when negative *)
Definition wrap (i n : Z) : option Z :=
  let k := if i <? 0 then i + n else i in if (0 <=? k) && (k <? n) then Some k else None.
Definition elem (l : list value) (i : Z) : option value := match wrap i (zlen l) with Some k => nthZ l k | None => None end.

(** apply [f] below missing values and records *)
Fixpoint thru (f : value -> option value) (v : value) : option value :=
  match v with
  | VNone => Some VNone
  | VRec fs =>
      option_map VRec ((fix go (fs : list (string * value)) : option (list (string * value)) :=
        match fs with
        | [] => Some []
        | (k, x) :: t => match thru f x, go t with Some y, Some t' => Some ((k, y) :: t') | _, _ => None end
        end) fs)
  | VTuple l =>
      option_map VTuple ((fix go (l : list value) : option (list value) :=
        match l with
        | [] => Some []
        | x :: t => match thru f x, go t with Some y, Some t' => Some (y :: t') | _, _ => None end
        end) l)
  | _ => f v
  end.

(** the field of a record, taken from all records in a value; a field of a tuple is named by its number *)
Fixpoint proj (key : string) (v : value) : option value :=
  match v with
  | VNone => Some VNone
  | VList l => option_map VList (omap (proj key) l)
  | VRec fs => option_map snd (find (fun kx => String.eqb (fst kx) key) fs)
  | VTuple l => match stoi key with Some i => nthZ l i | None => None end
  | _ => None
  end.

(** The slice [items] of the value [v].  Index arrays are iterated over together: [k] is the position in all of them
    once the first one has been met. *)
Fixpoint pick (items : list sliceitem) (k : option Z) (v : value) {struct items} : option value :=
  match items with
  | [] => Some v
  | SAt i :: t =>
      thru (fun v => match v with VList l => match elem l i with Some x => pick t k x | None => None end | _ => None end) v
  | SRange start stop step :: t =>
      thru (fun v => match v with
                     | VList l => match omap (nthZ l) (py_slice (opt64 start) (opt64 stop) step (zlen l)) with
                                  | Some xs => option_map VList (omap (pick t k) xs)
                                  | None => None
                                  end
                     | _ => None
                     end) v
  | SArray _ index :: t =>
      thru (fun v => match v with
                     | VList l =>
                         let at_ j := match nthZ index j with
                                      | Some i => match elem l i with Some x => pick t (Some j) x | None => None end
                                      | None => None
                                      end in
                         match k with
                         | None => option_map VList (omap at_ (zseq 0 (zlen index)))
                         | Some j => at_ j
                         end
                     | _ => None
                     end) v
  | SNewAxis :: t => option_map (fun x => VList [x]) (pick t k v)
  | SField key :: t => match proj key v with Some x => pick t k x | None => None end
  | _ => None
  end.

(** no list in [v] is longer than [m] *)
Fixpoint short (m : Z) (v : value) : Prop :=
  match v with
  | VList l => zlen l <= m /\ fold_right and True (map (short m) l)
  | VRec fs => fold_right and True (map (fun kx : string * value => short m (snd kx)) fs)
  | VTuple l => fold_right and True (map (short m) l)
  | _ => True
  end.

(** the number of index arrays *)
Definition arrays (items : list sliceitem) : Z := zlen (filter (fun it => match it with SArray _ _ => true | _ => false end) items).

(** Does an array of this type have the field? *)
Fixpoint has_field (key : string) (f : form) : bool :=
  match f with
  | FList f => has_field key f
  | FOption f => has_field key f
  | FRecord (Some ks) fs => (zlen ks =? zlen fs) && existsb (String.eqb key) ks
  | FRecord None fs => match stoi key with Some i => (0 <=? i) && (i <? zlen fs) | None => false end
  | _ => false
  end.

(** The slices that the theorem is about, by the type of the elements they apply to.  [adv] says that an index array has been met before;
    [n] is the length of the index arrays and [m] bounds the lengths of the lists.  Ranges have steps whose sum with a position fits
    in 64 bits; index arrays are one-dimensional, not empty and next to each other (as Slice::become_sealed ensures), with no missing values
    between the dimensions they apply to, and three or more only as the first items; records meet only the last item. *)
Inductive fits (n m : Z) : bool -> list sliceitem -> form -> Prop :=
| fits_nil adv f : fits n m adv (@nil sliceitem) f
| fits_at i (t : list sliceitem) (f : form) : fits n m false t f -> fits n m false (SAt i :: t) (FList f)
| fits_range (adv : bool) a b s (t : list sliceitem) (f : form) : s <> 0 -> int64_min <= s - m - 2 -> s + m + 2 <= int64_max ->
    arrays t <= (if adv then 0 else 2) -> fits n m adv t f -> fits n m adv (SRange a b s :: t) (FList f)
| fits_array adv index t f : zlen index = n -> 0 < n ->
    fits n m true t f -> fits n m adv (SArray [n] index :: t) (FList f)
| fits_option adv it t f : it <> SNewAxis -> (forall key, it <> SField key) ->
    (adv = true -> arrays (it :: t) = 0) -> fits n m adv (it :: t) f -> fits n m adv (it :: t) (FOption f)
| fits_record adv it keys fs : it <> SNewAxis -> (forall key, it <> SField key) -> fs <> [] -> Forall (fits n m adv [it]) fs -> fits n m adv [it] (FRecord keys fs)
| fits_newaxis adv t f : (forall keys fs, f <> FRecord keys fs) -> (forall fs, f <> FUnion fs) -> fits n m adv t f -> fits n m adv (SNewAxis :: t) f
| fits_field adv key f : has_field key f = true -> fits n m adv [SField key] f.

(** every record has a field, and no field is longer than the array of records *)
Fixpoint exact (c : content) : Prop :=
  match c with
  | Empty | Numpy _ _ => True
  | ListA _ _ c | ListOffset _ c | Regular _ _ c | Indexed _ c | IndexedOption _ c | ByteMasked _ _ c | BitMasked _ _ _ _ c | Unmasked c => exact c
  | Record _ len cs => cs <> [] /\ fold_right and True (map (fun x : content => length_ x = len /\ exact x) cs)
  | Union _ _ cs => fold_right and True (map exact cs)
  end.

Fixpoint has_regular (c : content) : bool :=
  match c with
  | Empty | Numpy _ _ => false
  | Regular _ _ _ => true
  | ListA _ _ c | ListOffset _ c | Indexed _ c | IndexedOption _ c | ByteMasked _ _ c | BitMasked _ _ _ _ c | Unmasked c => has_regular c
  | Record _ _ cs | Union _ _ cs => existsb has_regular cs
  end.
