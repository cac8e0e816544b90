(** More loop lemmas: loops that append to an output buffer at a cursor. *)
From Verif Require Export BaseLemmas.

(** for (j = a; j < b; j++) { to[k] = g(j); k++; } *)
Lemma for_append (g : Z -> Z) a b (body : Z -> Z * list Z -> res (Z * list Z)) d r :
  (forall j k o, a <= j < b -> body j (k, o) = let* o := wr o k (g j) in Ok (k + 1, o)) ->
  a <= b -> b - a <= zlen r ->
  exists r', for_ a b body (zlen d, d ++ r) = Ok (zlen d + (b - a), (d ++ map g (zseq a b)) ++ r') /\ zlen r = b - a + zlen r'.
Proof.
  intros Hb Hab Hr.
  destruct (for_inv (fun j st => exists r', st = (zlen d + (j - a), (d ++ map g (zseq a j)) ++ r') /\ zlen r = j - a + zlen r') a b body (zlen d, d ++ r))
    as (st & Hst & r' & -> & Hr').
  - lia.
  - exists r. rewrite zseq_nil, app_nil_r by lia. split; [f_equal; lia|lia].
  - intros j st Hj (r' & -> & Hr'). rewrite Hb by lia.
    destruct (wr_push' (d ++ map g (zseq a j)) r' (g j)) as (r'' & Hw & Hl); [lia|].
    rewrite zlen_app, zlen_map, zlen_zseq in Hw by lia. rewrite Hw. cbn [bind]. eexists; split; [reflexivity|].
    exists r''. rewrite zseq_snoc, map_app, !app_assoc by lia. cbn [map]. split; [f_equal; lia|lia].
  - exists r'; auto.
Qed.

(** a loop over [xs] each of whose iterations appends [emit x] *)
Lemma for_emit {X} (xs : list X) (emit : X -> list Z) (body : Z -> Z * list Z -> res (Z * list Z)) out n :
  n = zlen xs -> zlen (concat (map emit xs)) <= zlen out ->
  (forall i x d r, nthZ xs i = Some x -> zlen (emit x) <= zlen r ->
     exists r', body i (zlen d, d ++ r) = Ok (zlen d + zlen (emit x), (d ++ emit x) ++ r') /\ zlen r = zlen (emit x) + zlen r') ->
  exists rest, for_ 0 n body (0, out) = Ok (zlen (concat (map emit xs)), concat (map emit xs) ++ rest)
    /\ zlen out = zlen (concat (map emit xs)) + zlen rest.
Proof.
  intros -> Hout Hb.
  destruct (for_list xs (fun d st => exists r, st = (zlen (concat (map emit d)), concat (map emit d) ++ r) /\ zlen out = zlen (concat (map emit d)) + zlen r) body (0, out))
    as (st & Hst & r & -> & Hr).
  - exists out. split; [reflexivity|]. cbn. change (zlen (@nil Z)) with 0. lia.
  - intros d x r st Hd (r0 & -> & Hr0).
    assert (nthZ xs (zlen d) = Some x) as Hx by (rewrite <- Hd; apply nthZ_mid).
    destruct (Hb (zlen d) x (concat (map emit d)) r0 Hx) as (r' & Hb' & Hl).
    + rewrite <- Hd, map_app, concat_app, zlen_app in Hout. cbn [map concat] in Hout. rewrite zlen_app in Hout.
      pose proof (zlen_nonneg (concat (map emit r))). lia.
    + rewrite Hb'. eexists; split; [reflexivity|]. exists r'. rewrite map_app, concat_app. cbn [map concat]. rewrite app_nil_r, zlen_app.
      split; [reflexivity|lia].
  - exists r; auto.
Qed.
Lemma for_emit_exact {X} (xs : list X) (emit : X -> list Z) (body : Z -> Z * list Z -> res (Z * list Z)) out n :
  n = zlen xs -> zlen out = zlen (concat (map emit xs)) ->
  (forall i x d r, nthZ xs i = Some x -> zlen (emit x) <= zlen r ->
     exists r', body i (zlen d, d ++ r) = Ok (zlen d + zlen (emit x), (d ++ emit x) ++ r') /\ zlen r = zlen (emit x) + zlen r') ->
  for_ 0 n body (0, out) = Ok (zlen (concat (map emit xs)), concat (map emit xs)).
Proof.
  intros Hn Hout Hb. destruct (for_emit xs emit body out n Hn ltac:(lia) Hb) as (rest & -> & Hl).
  rewrite (zlen_0 rest) by lia. now rewrite app_nil_r.
Qed.

(** filling a whole buffer *)
Lemma for_fill_all {A} (body : Z -> list A -> res (list A)) (g : Z -> A) n out :
  zlen out = n ->
  (forall i out', 0 <= i < n -> zlen out' = n -> body i out' = wr out' i (g i)) ->
  for_ 0 n body out = Ok (map g (zseq 0 n)).
Proof.
  intros Hn Hb. pose proof (zlen_nonneg out). rewrite (for_fill body g n out) by (try lia; intros; apply Hb; lia).
  rewrite <- Hn, slice_nil, app_nil_r. reflexivity.
Qed.

(** a loop that counts *)
Lemma for_count {X} (xs : list X) (p : X -> bool) (body : Z -> Z -> res Z) n :
  n = zlen xs -> (forall i x k, nthZ xs i = Some x -> body i k = Ok (if p x then k + 1 else k)) ->
  for_ 0 n body 0 = Ok (zlen (filter p xs)).
Proof.
  intros -> Hb. pose proof (zlen_nonneg xs).
  destruct (for_inv (fun i k => k = zlen (filter p (slice 0 i xs))) 0 (zlen xs) body 0) as (k & E & ->).
  - lia.
  - rewrite slice_nil. reflexivity.
  - intros i k Hi ->. destruct (nthZ_lt xs i) as [x Hx]; [lia|]. rewrite (Hb i x _ Hx). eexists; split; [reflexivity|].
    rewrite (slice_snoc_nth 0 i xs x) by (try assumption; lia). rewrite filter_app, zlen_app. cbn [filter].
    destruct (p x); [change (zlen [x]) with 1|change (zlen (@nil X)) with 0]; lia.
  - rewrite E, slice_full. reflexivity.
Qed.

(** a loop that keeps the entries passing [p] *)
Lemma for_filter {X} (xs : list X) (p : X -> bool) (h : X -> Z) (body : Z -> Z * list Z -> res (Z * list Z)) out n :
  n = zlen xs -> zlen out = zlen (filter p xs) ->
  (forall i x k o, nthZ xs i = Some x -> body i (k, o) = if p x then let* o := wr o k (h x) in Ok (k + 1, o) else Ok (k, o)) ->
  for_ 0 n body (0, out) = Ok (zlen (filter p xs), map h (filter p xs)).
Proof.
  intros Hn Ho Hb.
  assert (Hc : concat (map (fun x => if p x then [h x] else []) xs) = map h (filter p xs)).
  { clear. induction xs as [|x xs IH]; [reflexivity|]. cbn [map concat filter]. rewrite IH. destruct (p x); reflexivity. }
  rewrite (for_emit_exact xs (fun x => if p x then [h x] else []) body out n Hn).
  - rewrite Hc, zlen_map. reflexivity.
  - now rewrite Hc, zlen_map.
  - intros i x d r Hx Hr. rewrite (Hb i x _ _ Hx). destruct (p x).
    + change (zlen [h x]) with 1 in *. destruct r as [|y r]; [exfalso; change (zlen (@nil Z)) with 0 in Hr; lia|].
      rewrite wr_push. cbn [bind]. eexists; split; [reflexivity|]. rewrite zlen_cons. lia.
    + exists r. change (zlen (@nil Z)) with 0. rewrite app_nil_r, Z.add_0_r. split; [reflexivity|lia].
Qed.
