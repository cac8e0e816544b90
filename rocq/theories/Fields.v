(** Several fields at once: getitem_fields(keys), which is array[["x", "y"]]. *)
From Verif Require Import Base Content KCore Core KOption Option Getitem.
From Coq Require Import String.
From Coq Require Import List.
Import ListNotations.
Local Open Scope string_scope.
Local Open Scope list_scope.
Local Open Scope Z_scope.

(** RecordArray::field(key): RecordArray.cpp:1562-1564 *)
Definition record_column (names : option (list string)) (cs : list content) (key : string) : res content :=
  let* i := fieldindex names key (zlen cs) in rd cs i.

(** getitem_fields(keys): BitMaskedArray.cpp:708-717, ByteMaskedArray.cpp:686-693, EmptyArray.cpp:358-362, IndexedArray.cpp:1351-1360,
    ListArray.cpp:777-784, ListOffsetArray.cpp:761-769, NumpyArray.cpp:1302-1306, RecordArray.cpp:875-893, RegularArray.cpp:678-685,
    UnmaskedArray.cpp:576-581.  The fields of a record are kept whole, whatever is beyond the last record.  Union arrays are not modelled. *)
Fixpoint getitem_fields (keys : list string) (c : content) : res content :=
  match c with
  | Empty => Err "cannot slice EmptyArray by field names"
  | Numpy _ _ => Err "cannot slice NumpyArray by field names"
  | ListA starts stops c' => let* next := getitem_fields keys c' in mkListA starts stops next
  | ListOffset offsets c' => let* next := getitem_fields keys c' in mkListOffset offsets next
  | Regular size zl c' => let* next := getitem_fields keys c' in mkRegular size (length_ c) next
  | Indexed index c' => let* next := getitem_fields keys c' in simplify_optiontype (Indexed index next)
  | IndexedOption index c' => let* next := getitem_fields keys c' in simplify_optiontype (IndexedOption index next)
  | ByteMasked mask vw c' => let* next := getitem_fields keys c' in let* m := mkByteMasked mask vw next in simplify_optiontype m
  | BitMasked mask vw lsb len c' => let* next := getitem_fields keys c' in let* m := mkBitMasked mask vw lsb len next in simplify_optiontype m
  | Unmasked c' => let* next := getitem_fields keys c' in simplify_optiontype (Unmasked next)
  | Record names len cs =>
      let* cs' := mapres (record_column names cs) keys in
      Ok (Record (match names with Some _ => Some keys | None => None end) len cs')
  | Union _ _ _ => UB
  end.
