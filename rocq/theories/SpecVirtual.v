(** Specification: what a request to an array means for its values, and what a history of requests gives.  Nothing here uses the model of
    virtual arrays except the type of the requests. *)
From Verif Require Import Base Content SpecArray SpecForm SpecSlice Getitem SpecGetitem Virtual.
From Coq Require Import String.
From Coq Require Import List.
Import ListNotations.
Local Open Scope Z_scope.

(** The type of a field *)
Fixpoint field_form (key : string) (f : form) : form :=
  match f with
  | FList f => FList (field_form key f)
  | FOption f => FOption (field_form key f)
  | FRecord (Some ks) fs => match find (fun kf => String.eqb (fst kf) key) (combine ks fs) with Some kf => snd kf | None => FUnknown end
  | FRecord None fs => match stoi key with Some i => match nthZ fs i with Some g => g | None => FUnknown end | None => FUnknown end
  | f => f
  end.

(** The type and the values of array[start:stop], array[start:stop:step], array[index] and array["key"]; carry is array[index] for
    positions that do not count from the end.  [None]: there is no answer, because an index is out of range, the step is zero or the field
    does not exist. *)
Definition answer (r : request) (fv : form * list value) : option (form * list value) :=
  let '(f, vs) := fv in
  match r with
  | RRange start stop => option_map (pair f) (omap (nthZ vs) (py_slice (opt64 start) (opt64 stop) 1 (zlen vs)))
  | RSlice start stop step => if step =? 0 then None else option_map (pair f) (omap (nthZ vs) (py_slice (opt64 start) (opt64 stop) step (zlen vs)))
  | RIndex index => option_map (pair f) (omap (elem vs) index)
  | RField key => if has_field key f then option_map (pair (field_form key f)) (omap (proj key) vs) else None
  | RCarry index => option_map (pair f) (omap (nthZ vs) index)
  end.

(** The arrays that a history of requests obtains, by their types and values; [None] when one of the requests has no answer *)
Definition after (a : action) (pool : list (form * list value)) : option (list (form * list value)) :=
  match a with
  | ARequest k r => match nthZ pool k with Some x => option_map (fun y => pool ++ [y]) (answer r x) | None => None end
  | ARead k | ALength k => match nthZ pool k with Some _ => Some pool | None => None end
  | AAt k i => match nthZ pool k with Some (_, vs) => match elem vs i with Some _ => Some pool | None => None end | None => None end
  end.
Fixpoint outcomes (acts : list action) (pool : list (form * list value)) : option (list (form * list value)) :=
  match acts with
  | [] => Some pool
  | a :: acts => match after a pool with Some pool => outcomes acts pool | None => None end
  end.

(** The arrays that the theorems are about: no BitMaskedArray and no UnionArray inside, and the fields of a record have different names. *)
Fixpoint distinct (ks : list string) : bool := match ks with [] => true | k :: t => negb (existsb (String.eqb k) t) && distinct t end.
Fixpoint steady (f : lform) : bool :=
  match f with
  | LEmpty | LNumpy _ => true
  | LList f | LListOffset f | LRegular _ f | LIndexed f | LIndexedOption f | LByteMasked _ f | LUnmasked f => steady f
  | LBitMasked _ _ _ | LUnion _ => false
  | LRecord keys fs => match keys with Some ks => (zlen ks =? zlen fs) && distinct ks | None => true end && forallb steady fs
  end.

(** The virtual array declares no form or the form of the array that its generator gives, and no length or the length of it. *)
Definition declared (v : varray) (c : content) : Prop :=
  (vform v = None \/ vform v = Some (layout c)) /\ (vlen v < 0 \/ vlen v = length_ c).
