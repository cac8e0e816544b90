(** Kernels behind combinations. *)
From Verif Require Import Base KCore.

(** while (cond) body, with a bound on the number of rounds; running out of it is [UB] *)
Fixpoint while_ {S} (fuel : nat) (cond : S -> res bool) (body : S -> res S) (s : S) : res S :=
  match fuel with
  | O => UB
  | S fuel => let* b := cond s in if b then let* s := body s in while_ fuel cond body s else Ok s
  end.

(** kernel-utils.cpp:143-181.  [level] is n - j (the recursion depth); tocarry is the vector of the n output buffers.
    The while loop runs stop - fromindex[j] times, because the calls below only change fromindex[k] with k > j. *)
Definition comb_state : Type := list (list Z) * list Z * list Z. (* tocarry, toindex, fromindex *)
Fixpoint awkward_ListArray_combinations_step (level : nat) (j stop n : Z) (replacement : bool) (s : comb_state) : res comb_state :=
  match level with
  | O => UB
  | S level =>
      let '(_, _, fromindex) := s in
      let* first := rd fromindex j in
      while_ (S (Z.to_nat (stop - first)))
        (fun s => let '(_, _, fromindex) := s in let* x := rd fromindex j in Ok (x <? stop))
        (fun s =>
           let '(tocarry, toindex, fromindex) := s in
           let* fromindex := for_ (j + 1) n (fun k fromindex =>
             let* x := rd fromindex j in
             wr fromindex k (if replacement then x else x + (k - j))) fromindex in
           let* s :=
             if j + 1 =? n then
               let* st := for_ 0 n (fun k st =>
                 let '(tocarry, toindex) := st in
                 let* t := rd toindex k in
                 let* f := rd fromindex k in
                 let* row := rd tocarry k in
                 let* row := wr row t f in
                 let* tocarry := wr tocarry k row in
                 let* toindex := wr toindex k (t + 1) in
                 Ok (tocarry, toindex)) (tocarry, toindex) in
               let '(tocarry, toindex) := st in Ok (tocarry, toindex, fromindex)
             else awkward_ListArray_combinations_step level (j + 1) stop n replacement (tocarry, toindex, fromindex) in
           let '(tocarry, toindex, fromindex) := s in
           let* x := rd fromindex j in
           let* fromindex := wr fromindex j (x + 1) in
           Ok (tocarry, toindex, fromindex)) s
  end.

(** awkward_ListArray_combinations.cpp:9-35 *)
Definition awkward_ListArray_combinations (tocarry : list (list Z)) (toindex fromindex : list Z) (n : Z) (replacement : bool)
    (starts stops : list Z) (length : Z) : res (list (list Z)) :=
  let* toindex := for_ 0 n (fun j toindex => wr toindex j 0) toindex in
  let* s := for_ 0 length (fun i s =>
    let '(tocarry, toindex, fromindex) := s in
    let* start := rd starts i in
    let* stop := rd stops i in
    let* fromindex := wr fromindex 0 start in
    awkward_ListArray_combinations_step (Z.to_nat n) 0 stop n replacement (tocarry, toindex, fromindex)) (tocarry, toindex, fromindex) in
  let '(tocarry, _, _) := s in Ok tocarry.

(** awkward_RegularArray_combinations.cpp:8-33 *)
Definition awkward_RegularArray_combinations (tocarry : list (list Z)) (toindex fromindex : list Z) (n : Z) (replacement : bool)
    (size length : Z) : res (list (list Z)) :=
  let* toindex := for_ 0 n (fun j toindex => wr toindex j 0) toindex in
  let* s := for_ 0 length (fun i s =>
    let '(tocarry, toindex, fromindex) := s in
    let start := size*i in
    let stop := start + size in
    let* fromindex := wr fromindex 0 start in
    awkward_ListArray_combinations_step (Z.to_nat n) 0 stop n replacement (tocarry, toindex, fromindex)) (tocarry, toindex, fromindex) in
  let '(tocarry, _, _) := s in Ok tocarry.

(** The number of combinations, computed in awkward_ListArray_combinations_length.cpp:19-40, Content.cpp:1310-1331 and
    RegularArray.cpp:1185-1206 by the same statements.  Unbounded integers instead of int64_t. *)
Definition combinationslen (n : Z) (replacement : bool) (size : Z) : Z :=
  let size := if replacement then size + (n - 1) else size in
  let thisn := n in
  if size <? thisn then 0
  else if thisn =? size then 1
  else
    let thisn := if size <? thisn * 2 then size - thisn else thisn in
    match for_ 2 (thisn + 1) (fun j combinationslen => Ok (Z.quot (combinationslen * (size - j + 1)) j)) size with
    | Ok r => r
    | _ => 0
    end.

(** awkward_ListArray_combinations_length.cpp:8-45; returns (totallen, tooffsets) *)
Definition awkward_ListArray_combinations_length (tooffsets : list Z) (n : Z) (replacement : bool) (starts stops : list Z) (length : Z) : res (Z * list Z) :=
  let* tooffsets := wr tooffsets 0 0 in
  for_ 0 length (fun i st =>
    let '(totallen, tooffsets) := st in
    let* start := rd starts i in
    let* stop := rd stops i in
    let len := combinationslen n replacement (stop - start) in
    let* o := rd tooffsets i in
    let* tooffsets := wr tooffsets (i + 1) (o + len) in
    Ok (totallen + len, tooffsets)) (0, tooffsets).
