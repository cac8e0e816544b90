(** Arrays as slices: booleans with missing values. *)
From Verif Require Import Base BaseLemmas LoopLemmas OmapLemmas Content KCore Core KRange KConvert Convert KOption Option KAxis Axis KCombinations Combinations KGetitem
  SpecArray SpecForm SpecSlice SpecOption PCore PRange PCarry PList PConvert POption PForm PAxis PNat Getitem SpecGetitem KAsSlice AsSlice SpecAsSlice PAsSlice1.
Local Open Scope list_scope.
Local Open Scope Z_scope.

Ltac fq := repeat (first [reflexivity | match goal with |- @eq Z _ _ => lia | |- _ => progress f_equal end]).
Fixpoint keep {A} (obs : list (option A)) : list A := match obs with [] => [] | Some b :: t => b :: keep t | None :: t => keep t end.
Fixpoint oranks {A} (k : Z) (obs : list (option A)) : list Z := match obs with [] => [] | Some _ :: t => k :: oranks (k + 1) t | None :: t => -1 :: oranks k t end.
Fixpoint oidx (j : Z) (obs : list (option bool)) : list Z :=
  match obs with [] => [] | None :: t => -1 :: oidx j t | Some true :: t => j :: oidx (j + 1) t | Some false :: t => oidx j t end.
Fixpoint otrues (k : Z) (obs : list (option bool)) : list Z :=
  match obs with [] => [] | Some true :: t => k :: otrues (k + 1) t | _ :: t => otrues (k + 1) t end.
Definition isnone {A} (o : option A) : Z := match o with None => 1 | Some _ => 0 end.
Definition omask {A} (obs : list (option A)) : list Z := map isnone obs.
Definition nnull {A} (obs : list (option A)) : Z := sumZ (map isnone obs).

Lemma nnull_cons {A} (o : option A) t : nnull (o :: t) = isnone o + nnull t. Proof. reflexivity. Qed.
Lemma nnull_nonneg {A} (obs : list (option A)) : 0 <= nnull obs.
Proof. induction obs as [|o t IH]; [cbv; discriminate|]. rewrite nnull_cons. destruct o; cbn [isnone]; lia. Qed.
Lemma nnull_app {A} (a b : list (option A)) : nnull (a ++ b) = nnull a + nnull b. Proof. unfold nnull. rewrite map_app, sumZ_app. reflexivity. Qed.
Lemma keep_app {A} (a b : list (option A)) : keep (a ++ b) = keep a ++ keep b.
Proof. induction a as [|[x|] a IH]; cbn [keep app]; [reflexivity|rewrite IH; reflexivity|exact IH]. Qed.
Lemma zlen_keep {A} (a : list (option A)) : zlen (keep a) + nnull a = zlen a.
Proof. induction a as [|[x|] a IH]; [reflexivity| |]; cbn [keep]; rewrite ?zlen_cons, nnull_cons; cbn [isnone]; lia. Qed.
Lemma oranks_app {A} (a : list (option A)) : forall b k, oranks k (a ++ b) = oranks k a ++ oranks (k + zlen (keep a)) b.
Proof.
  induction a as [|[x|] a IH]; intros b k; cbn [keep app oranks]; [f_equal; change (zlen (@nil A)) with 0; lia| |]; rewrite IH; rewrite ?zlen_cons; cbn [app]; fq.
Qed.
Lemma zlen_oranks {A} (a : list (option A)) : forall k, zlen (oranks k a) = zlen a.
Proof. induction a as [|[x|] a IH]; intros k; cbn [oranks]; [reflexivity| |]; rewrite !zlen_cons, IH; reflexivity. Qed.
Lemma zlen_otrues a : forall k, zlen (otrues k a) = ntrues (keep a).
Proof.
  induction a as [|[[|]|] a IH]; intros k; cbn [otrues keep]; [reflexivity| | |]; rewrite ?zlen_cons, IH; auto; unfold ntrues; cbn [trues app]; rewrite ?zlen_cons, (zlen_trues _ (0 + 1)); reflexivity.
Qed.
Lemma zlen_oidx a : forall j, zlen (oidx j a) = ntrues (keep a) + nnull a.
Proof.
  induction a as [|[[|]|] a IH]; intros j; cbn [oidx keep]; [reflexivity| | |]; rewrite ?zlen_cons, nnull_cons, IH; cbn [isnone]; unfold ntrues; cbn [trues app]; rewrite ?zlen_cons, ?(zlen_trues _ (0 + 1)); unfold ntrues; lia.
Qed.
Lemma otrues_app a : forall b k, otrues k (a ++ b) = otrues k a ++ otrues (k + zlen a) b.
Proof.
  induction a as [|[[|]|] a IH]; intros b k; cbn [app otrues]; [f_equal; change (zlen (@nil (option bool))) with 0; lia| | |]; rewrite IH, zlen_cons; cbn [app]; fq.
Qed.
Lemma oidx_app a : forall b j, oidx j (a ++ b) = oidx j a ++ oidx (j + ntrues (keep a)) b.
Proof.
  induction a as [|[[|]|] a IH]; intros b j; cbn [app oidx keep]; [f_equal; change (ntrues []) with 0; lia| | |]; rewrite IH; unfold ntrues; cbn [trues app]; rewrite ?zlen_cons, ?(zlen_trues _ (0 + 1)); unfold ntrues; fq.
Qed.
Lemma ntrues_app a b : ntrues (a ++ b) = ntrues a + ntrues b.
Proof. unfold ntrues. rewrite trues_app, zlen_app, !zlen_trues. reflexivity. Qed.
Lemma ntrues_nonneg a : 0 <= ntrues a. Proof. apply zlen_nonneg. Qed.
Lemma otrues_range obs : forall k x, In x (otrues k obs) -> k <= x < k + zlen obs.
Proof.
  induction obs as [|[[|]|] t IH]; intros k x; cbn [otrues]; [intros []| | |]; rewrite zlen_cons; pose proof (zlen_nonneg t).
  - intros [<-|H1]; [lia|]. apply IH in H1. lia.
  - intros H1. apply IH in H1. lia.
  - intros H1. apply IH in H1. lia.
Qed.
Lemma otrues_shift obs : forall k j, otrues (k + j) obs = map (fun x => x + j) (otrues k obs).
Proof. induction obs as [|[[|]|] t IH]; intros k j; cbn [otrues map]; [reflexivity| | |]; rewrite <- ?IH; fq. Qed.

Ltac push := match goal with |- context [wr (?d ++ ?r) ?i ?x] => let E := fresh "E" in let L := fresh "L" in let r' := fresh "r" in
  destruct (wr_push' d r x) as (r' & E & L) end.

Lemma adjust_outindex_spec obs n : n = ntrues (keep obs) + nnull obs ->
  awkward_IndexedArray_getitem_adjust_outindex (alloc (zlen (oranks 0 obs))) (alloc n) (alloc (zlen (trues 0 (keep obs)))) (oranks 0 obs) (zlen (oranks 0 obs)) (trues 0 (keep obs)) (zlen (trues 0 (keep obs)))
  = Ok (omask obs, oidx 0 obs, otrues 0 obs).
Proof.
  intros Hn. unfold awkward_IndexedArray_getitem_adjust_outindex. rewrite zlen_oranks. set (nz := trues 0 (keep obs)). set (fi := oranks 0 obs).
  pose proof (zlen_nonneg obs). pose proof (nnull_nonneg obs). pose proof (ntrues_nonneg (keep obs)).
  match goal with |- (let* st := for_ _ _ ?body ?s0 in _) = _ =>
  destruct (for_list obs (fun d st => exists t1 t2 t3, st = (ntrues (keep d), ntrues (keep d) + nnull d, omask d ++ t1, oidx 0 d ++ t2, otrues 0 d ++ t3)
     /\ zlen t1 = zlen obs - zlen d /\ zlen t2 = n - (ntrues (keep d) + nnull d) /\ zlen t3 = ntrues (keep obs) - ntrues (keep d)) body s0) as (st & E & t1 & t2 & t3 & -> & L1 & L2 & L3) end.
  - exists (alloc (zlen obs)), (alloc n), (alloc (zlen nz)). change (zlen (@nil (option bool))) with 0. change (ntrues (keep [])) with 0. change (nnull (@nil (option bool))) with 0. split; [reflexivity|]. rewrite !zlen_alloc by (subst n nz; fold (ntrues (keep obs)); lia). subst nz. fold (ntrues (keep obs)). lia.
  - intros d o r st Hd (t1 & t2 & t3 & -> & L1 & L2 & L3). assert (Ld : zlen d = zlen (omask d)) by (unfold omask; rewrite zlen_map; reflexivity).
    assert (F : nthZ fi (zlen d) = Some (match o with Some _ => zlen (keep d) | None => -1 end)).
    { unfold fi. rewrite <- Hd, oranks_app, nthZ_app, zlen_oranks, Z.ltb_irrefl, Z.sub_diag. destruct o; cbn [oranks]; rewrite nthZ_cons; cbn; reflexivity. }
    rewrite (proj2 (rd_Ok _ _ _) F). cbn [bind].
    assert (Lo : zlen obs = zlen d + 1 + zlen r) by (rewrite <- Hd, zlen_app, zlen_cons; lia). pose proof (zlen_nonneg r). pose proof (zlen_nonneg (keep d)).
    assert (Ks : keep obs = keep d ++ keep (o :: r)) by (rewrite <- Hd; apply keep_app).
    assert (Nn : nnull obs = nnull d + (isnone o + nnull r)) by (rewrite <- Hd, nnull_app, nnull_cons; reflexivity). pose proof (nnull_nonneg r). pose proof (nnull_nonneg d).
    assert (Tn : ntrues (keep obs) = ntrues (keep d) + ntrues (keep (o :: r))) by (rewrite Ks; apply ntrues_app). pose proof (ntrues_nonneg (keep d)).
    destruct (wr_push' (omask d) t1 (isnone o)) as (u1 & E1 & Z1); [lia|]. rewrite <- Ld in E1.
    destruct o as [b|].
    + destruct (Z.ltb_spec (zlen (keep d)) 0); [lia|]. cbn [isnone] in E1. rewrite E1. cbn [bind].
      assert (Enz : nz = trues 0 (keep d) ++ trues (zlen (keep d)) (b :: keep r)) by (unfold nz; rewrite Ks, trues_app; reflexivity).
      assert (Zt : zlen (trues 0 (keep d)) = ntrues (keep d)) by reflexivity. fold (ntrues (keep obs)) in Tn. assert (Zn : zlen nz = ntrues (keep obs)) by reflexivity. rewrite Zn.
      assert (Zk : zlen (keep d) + nnull d = zlen d) by apply zlen_keep. pose proof (ntrues_nonneg (keep r)). cbn [isnone] in Nn.
      destruct b.
      * assert (Nb : ntrues (keep (Some true :: r)) = 1 + ntrues (keep r)) by (unfold ntrues; cbn [keep trues app]; rewrite zlen_cons, zlen_trues; unfold ntrues; lia).
        destruct (Z.ltb_spec (ntrues (keep d)) (ntrues (keep obs))); [|lia].
        rewrite (proj2 (rd_Ok nz (ntrues (keep d)) (zlen (keep d)))) by (rewrite Enz, <- Zt; cbn [trues app]; apply nthZ_mid). cbn [bind]. rewrite Z.eqb_refl.
        assert (Zo : zlen (otrues 0 d) = ntrues (keep d)) by apply zlen_otrues. assert (Zi : zlen (oidx 0 d) = ntrues (keep d) + nnull d) by apply zlen_oidx.
        destruct (wr_push' (otrues 0 d) t3 (zlen (keep d) + (ntrues (keep d) + nnull d - ntrues (keep d)))) as (u3 & E3 & Z3); [lia|]. rewrite Zo in E3. rewrite E3. cbn [bind].
        destruct (wr_push' (oidx 0 d) t2 (ntrues (keep d))) as (u2 & E2 & Z2); [lia|]. rewrite Zi in E2. rewrite E2. cbn [bind].
        eexists. split; [reflexivity|]. exists u1, u2, u3. rewrite keep_app, ntrues_app, nnull_app, zlen_app. change (ntrues (keep [Some true])) with 1. change (nnull [Some true]) with 0. change (zlen [Some true]) with 1. split; [|lia].
        unfold omask. rewrite map_app, oidx_app, otrues_app. cbn [map oidx otrues isnone]. rewrite !Z.add_0_l. replace (zlen d) with (zlen (keep d) + (ntrues (keep d) + nnull d - ntrues (keep d))) by lia. replace (ntrues (keep d) + 1 + (nnull d + 0)) with (ntrues (keep d) + nnull d + 1) by lia. reflexivity.
      * assert (Nb : ntrues (keep (Some false :: r)) = ntrues (keep r)) by (unfold ntrues; cbn [keep trues app]; rewrite zlen_trues; reflexivity).
        assert (G : exists v, (if ntrues (keep d) <? ntrues (keep obs) then let* x := rd nz (ntrues (keep d)) in
             (if zlen (keep d) =? x then let* tononzero := wr (otrues 0 d ++ t3) (ntrues (keep d)) (zlen (keep d) + (ntrues (keep d) + nnull d - ntrues (keep d))) in
                let* toindex := wr (oidx 0 d ++ t2) (ntrues (keep d) + nnull d) (ntrues (keep d)) in Ok (ntrues (keep d) + 1, ntrues (keep d) + nnull d + 1, (omask d ++ [0]) ++ u1, toindex, tononzero)
              else Ok (ntrues (keep d), ntrues (keep d) + nnull d, (omask d ++ [0]) ++ u1, oidx 0 d ++ t2, otrues 0 d ++ t3))
            else Ok (ntrues (keep d), ntrues (keep d) + nnull d, (omask d ++ [0]) ++ u1, oidx 0 d ++ t2, otrues 0 d ++ t3)) = Ok v
            /\ v = (ntrues (keep d), ntrues (keep d) + nnull d, (omask d ++ [0]) ++ u1, oidx 0 d ++ t2, otrues 0 d ++ t3)).
        { eexists. split; [|reflexivity]. destruct (Z.ltb_spec (ntrues (keep d)) (ntrues (keep obs))); [|reflexivity].
          destruct (nthZ_lt nz (ntrues (keep d)) ltac:(lia)) as (x & Hx). rewrite (proj2 (rd_Ok _ _ _) Hx). cbn [bind].
          rewrite Enz in Hx. cbn [trues app] in Hx. rewrite nthZ_app, Zt, Z.ltb_irrefl, Z.sub_diag in Hx. apply nthZ_In, trues_range in Hx. destruct (Z.eqb_spec (zlen (keep d)) x); [lia|]. reflexivity. }
        destruct G as (v & G & ->). rewrite G. eexists. split; [reflexivity|]. exists u1, t2, t3. rewrite keep_app, ntrues_app, nnull_app, zlen_app. change (ntrues (keep [Some false])) with 0. change (nnull [Some false]) with 0. change (zlen [Some false]) with 1. split; [|lia].
        unfold omask. rewrite map_app, oidx_app, otrues_app. cbn [map oidx otrues isnone]. rewrite !app_nil_r. fq.
    + change (-1 <? 0) with true. cbn match. cbn [isnone] in E1, Nn. rewrite E1. cbn [bind]. assert (Zi : zlen (oidx 0 d) = ntrues (keep d) + nnull d) by apply zlen_oidx. pose proof (ntrues_nonneg (keep (None :: r))).
      destruct (wr_push' (oidx 0 d) t2 (-1)) as (u2 & E2 & Z2); [lia|]. rewrite Zi in E2. rewrite E2. cbn [bind].
      eexists. split; [reflexivity|]. exists u1, u2, t3. rewrite keep_app, ntrues_app, nnull_app, zlen_app. change (ntrues (keep [@None bool])) with 0. change (nnull [@None bool]) with 1. change (zlen [@None bool]) with 1. split; [|lia].
      unfold omask. rewrite map_app, oidx_app, otrues_app. cbn [map oidx otrues isnone]. rewrite !app_nil_r. fq.
  - rewrite E. cbn [bind]. rewrite Z.sub_diag in L1, L3. apply zlen_0 in L1, L3. assert (t2 = []) as -> by (apply zlen_0; lia). subst t1 t3. rewrite !app_nil_r. reflexivity.
Qed.

(** sums over a part of a buffer *)
Lemma for_sum (l : list Z) (f : Z -> Z) a b s0 (body : Z -> Z -> res Z) : 0 <= a <= b -> b <= zlen l ->
  (forall i s x, nthZ l i = Some x -> body i s = Ok (s + f x)) -> for_ a b body s0 = Ok (s0 + sumZ (map f (slice a b l))).
Proof.
  intros Hab Hb Hbody. destruct (for_inv (fun i s => s = s0 + sumZ (map f (slice a i l))) a b body s0) as (s & E & ->); [lia|rewrite slice_nil; cbn; lia| |exact E].
  intros i t Hi ->. destruct (nthZ_lt l i ltac:(lia)) as (x & Hx). eexists. split; [apply Hbody, Hx|]. rewrite (slice_snoc_nth a i l x) by (auto; lia). rewrite map_app, sumZ_app. cbn. lia.
Qed.

Lemma adjust_index_inner_spec start stop numnull n : forall (mine rest : list (option bool)) (di dn o r : list Z) index nz p k nullcount count,
  index = di ++ oidx (zlen dn) mine ++ oidx (zlen dn + ntrues (keep mine)) rest -> nz = dn ++ otrues (start + p) mine ++ otrues (start + p + zlen mine) rest -> stop = start + p + zlen mine ->
  (length (oidx 0 mine) <= n)%nat -> k = zlen di -> zlen o = zlen dn -> zlen r = zlen (otrues 0 mine) + zlen (otrues 0 rest) -> nullcount + nnull mine = numnull ->
  exists r', adjust_index_inner n start stop numnull index (zlen index) nz (zlen nz) k nullcount count (o ++ r) = Ok (k + zlen (oidx 0 mine), count + zlen (oidx 0 mine), (o ++ otrues p mine) ++ r')
    /\ zlen r' = zlen (otrues 0 rest).
Proof.
  intros mine. revert n. induction mine as [|m mine IH]; intros n rest di dn o r index nz p k nullcount count Hi Hz Hs Hn Hk Ho Hr Hc; subst k.
  - cbn [oidx otrues app keep] in *. change (zlen (@nil Z)) with 0 in *. change (zlen (@nil (option bool))) with 0 in *. change (ntrues []) with 0 in *. change (nnull (@nil (option bool))) with 0 in Hc. rewrite !Z.add_0_r in *.
    exists r. rewrite app_nil_r. split; [|lia].
    assert (G : forall n, (if zlen index <=? zlen di then Ok (zlen di, count, o ++ r) else let* j := rd index (zlen di) in let* go := if j <? 0 then Ok (nullcount <? numnull) else if j <? zlen nz then let* x := rd nz j in Ok (x <? stop) else Ok false in
       if negb go then Ok (zlen di, count, o ++ r) else n j) = Ok (zlen di, count, o ++ r)).
    { intros kk. destruct (Z.leb_spec (zlen index) (zlen di)); [reflexivity|]. subst index. rewrite zlen_app in *. destruct (oidx (zlen dn) rest) as [|y ys] eqn:Ey; [change (zlen (@nil Z)) with 0 in *; lia|].
      rewrite (proj2 (rd_Ok _ _ _) (nthZ_mid di y ys)). cbn [bind]. destruct (Z.ltb_spec y 0); [cbn [bind]; destruct (Z.ltb_spec nullcount numnull); [lia|reflexivity]|].
      assert (Y : y = zlen dn). { clear - Ey H0. revert y ys Ey H0. induction rest as [|[[|]|] rest IH]; intros; cbn [oidx] in Ey; [discriminate|congruence|eapply IH; eauto|injection Ey as <- _; lia]. }
      subst y. destruct (Z.ltb_spec (zlen dn) (zlen nz)); [|reflexivity]. destruct (nthZ_lt nz (zlen dn)) as (x & Hx); [pose proof (zlen_nonneg dn); lia|]. rewrite (proj2 (rd_Ok _ _ _) Hx). cbn [bind].
      rewrite Hz, nthZ_app, Z.ltb_irrefl, Z.sub_diag in Hx. apply nthZ_In, otrues_range in Hx. destruct (Z.ltb_spec x stop); [lia|reflexivity]. }
    destruct n; cbn [adjust_index_inner]; apply (G (fun j => _)).
  - rewrite zlen_cons in Hs. destruct m as [[|]|].
    + cbn [oidx otrues keep] in *. unfold ntrues in Hi. cbn [trues app] in Hi. rewrite zlen_cons, zlen_trues in Hi. rewrite zlen_cons in Hr. cbn [length] in Hn.
      assert (Ln : length (oidx (0 + 1) mine) = length (oidx 0 mine)) by (pose proof (zlen_oidx mine (0 + 1)); pose proof (zlen_oidx mine 0); unfold zlen in *; lia). rewrite Ln in Hn. destruct n as [|n]; [lia|]. cbn [adjust_index_inner].
      assert (L : zlen di < zlen index) by (subst index; rewrite zlen_app; cbn [app]; rewrite zlen_cons; pose proof (zlen_nonneg (oidx (zlen dn + 1) mine ++ oidx (zlen dn + (ntrues (keep mine) + 1)) rest)); lia).
      destruct (Z.leb_spec (zlen index) (zlen di)); [lia|]. rewrite (proj2 (rd_Ok index (zlen di) (zlen dn))) by (subst index; apply nthZ_mid). cbn [bind]. pose proof (zlen_nonneg dn). destruct (Z.ltb_spec (zlen dn) 0); [lia|].
      assert (L2 : zlen dn < zlen nz) by (subst nz; rewrite zlen_app; cbn [app]; rewrite zlen_cons; pose proof (zlen_nonneg (otrues (start + p + 1) mine ++ otrues (start + p + zlen (Some true :: mine)) rest)); lia).
      destruct (Z.ltb_spec (zlen dn) (zlen nz)); [|lia]. rewrite (proj2 (rd_Ok nz (zlen dn) (start + p))) by (subst nz; apply nthZ_mid). cbn [bind]. pose proof (zlen_nonneg mine). destruct (Z.ltb_spec (start + p) stop); [|lia]. cbn [negb].
      pose proof (zlen_nonneg (otrues (0 + 1) mine)). pose proof (zlen_nonneg (otrues 0 rest)). destruct r as [|y r]; [change (zlen (@nil Z)) with 0 in Hr; lia|]. rewrite zlen_cons in Hr. replace (wr (o ++ y :: r) (zlen dn)) with (wr (o ++ y :: r) (zlen o)) by (rewrite Ho; reflexivity). rewrite wr_push. cbn [bind].
      destruct (IH n rest (di ++ [zlen dn]) (dn ++ [start + p]) (o ++ [start + p - start]) r index nz (p + 1) (zlen di + 1) nullcount (count + 1)) as (r' & E & Er).
      * rewrite zlen_app. change (zlen [start + p]) with 1. rewrite <- app_assoc. cbn [app]. rewrite Hi. cbn [app]. do 4 f_equal. lia.
      * rewrite <- app_assoc. cbn [app]. rewrite Hz, zlen_cons. cbn [app]. do 3 f_equal; [f_equal; lia|f_equal; lia].
      * lia.
      * lia.
      * rewrite zlen_app. reflexivity.
      * rewrite !zlen_app. change (zlen [start + p - start]) with 1. change (zlen [start + p]) with 1. lia.
      * rewrite zlen_otrues in *. lia.
      * rewrite nnull_cons in Hc. cbn [isnone] in Hc. lia.
      * exists r'. split; [|exact Er]. rewrite E. rewrite zlen_cons, (zlen_oidx _ (0 + 1)), (zlen_oidx _ 0). f_equal. f_equal; [f_equal; lia|]. rewrite <- !app_assoc. cbn [app]. do 2 f_equal. lia.
    + cbn [oidx otrues keep] in *. unfold ntrues in Hi. cbn [trues app] in Hi. rewrite zlen_trues in Hi. rewrite zlen_cons in Hz. rewrite nnull_cons in Hc. cbn [isnone] in Hc.
      destruct (IH n rest di dn o r index nz (p + 1) (zlen di) nullcount count) as (r' & E & Er); auto; try lia.
      * rewrite Hz. f_equal. f_equal; f_equal; lia.
      * rewrite !zlen_otrues in *. lia.
      * exists r'. auto.
    + cbn [oidx otrues keep] in *. rewrite nnull_cons in Hc. cbn [isnone] in Hc. cbn [length] in Hn. rewrite zlen_cons in Hz. pose proof (nnull_nonneg mine). destruct n as [|n]; [lia|]. cbn [adjust_index_inner].
      assert (L : zlen di < zlen index) by (subst index; rewrite zlen_app; cbn [app]; rewrite zlen_cons; pose proof (zlen_nonneg (oidx (zlen dn) mine ++ oidx (zlen dn + ntrues (keep mine)) rest)); lia).
      destruct (Z.leb_spec (zlen index) (zlen di)); [lia|]. rewrite (proj2 (rd_Ok index (zlen di) (-1))) by (subst index; apply nthZ_mid). cbn [bind]. change (-1 <? 0) with true. cbn match. cbn [bind]. destruct (Z.ltb_spec nullcount numnull); [|lia]. cbn [negb].
      destruct (IH n rest (di ++ [-1]) dn o r index nz (p + 1) (zlen di + 1) (nullcount + 1) (count + 1)) as (r' & E & Er); auto; try lia.
      * rewrite <- app_assoc. cbn [app]. rewrite Hi. reflexivity.
      * rewrite Hz. f_equal. f_equal; f_equal; lia.
      * rewrite zlen_app. reflexivity.
      * rewrite !zlen_otrues in *. lia.
      * exists r'. split; [|exact Er]. rewrite E, zlen_cons. f_equal. f_equal. f_equal; lia.
Qed.

Definition nkept (obs : list (option bool)) : Z := zlen (oidx 0 obs).
Lemma keep_concat {A} (obss : list (list (option A))) : keep (concat obss) = concat (map keep obss).
Proof. induction obss as [|x t IH]; cbn [concat map]; [reflexivity|]. rewrite keep_app, IH. reflexivity. Qed.
Lemma zlen_oidx_concat obss j : zlen (oidx j (concat obss)) = sumZ (map nkept obss).
Proof.
  revert j. induction obss as [|x t IH]; intros j; cbn [concat map]; [reflexivity|]. change (sumZ (nkept x :: map nkept t)) with (nkept x + sumZ (map nkept t)). rewrite oidx_app, zlen_app, IH. unfold nkept. rewrite !zlen_oidx. reflexivity.
Qed.
Lemma zlen_otrues_concat obss k : zlen (otrues k (concat obss)) = zlen (concat (map (otrues 0) obss)).
Proof. revert k. induction obss as [|x t IH]; intros k; cbn [concat map]; [reflexivity|]. rewrite otrues_app, !zlen_app, IH, !zlen_otrues. reflexivity. Qed.
Lemma nth_offsets {A} (d : list (list A)) x r : nthZ (offsets_of (map zlen (d ++ x :: r))) (zlen d) = Some (zlen (concat d)) /\ nthZ (offsets_of (map zlen (d ++ x :: r))) (zlen d + 1) = Some (zlen (concat d) + zlen x).
Proof.
  pose proof (zlen_nonneg r). pose proof (zlen_nonneg d). split.
  - unfold offsets_of. rewrite nthZ_offsets_from by (rewrite zlen_map, zlen_app, zlen_cons; lia). rewrite map_app. rewrite slice_app_l by (rewrite ?zlen_map; lia). rewrite slice_full' by (rewrite zlen_map; reflexivity). rewrite sumZ_zlen_concat. f_equal.
  - unfold offsets_of. rewrite nthZ_offsets_from by (rewrite zlen_map, zlen_app, zlen_cons; lia). replace (d ++ x :: r) with ((d ++ [x]) ++ r) by (rewrite <- app_assoc; reflexivity). rewrite (map_app _ (d ++ [x])). rewrite slice_app_l by (rewrite ?zlen_map, ?zlen_app; change (zlen [x]) with 1; lia).
      rewrite slice_full' by (rewrite zlen_map, zlen_app; reflexivity). rewrite sumZ_zlen_concat, concat_app, zlen_app. cbn [concat]. rewrite app_nil_r. f_equal.
Qed.

Lemma adjust_offsets_index_spec obss : let all := concat obss in let offs := offsets_of (map zlen obss) in
  awkward_ListOffsetArray_getitem_adjust_offsets_index (alloc (zlen offs)) (alloc (zlen (otrues 0 all))) offs (zlen offs - 1) (oidx 0 all) (zlen (oidx 0 all)) (otrues 0 all) (zlen (otrues 0 all)) (omask all)
  = Ok (offsets_of (map nkept obss), concat (map (otrues 0) obss)).
Proof.
  intros all offs. assert (ZL : zlen offs = zlen obss + 1) by (unfold offs; rewrite zlen_offsets_of, zlen_map; reflexivity).
  unfold awkward_ListOffsetArray_getitem_adjust_offsets_index. rewrite (proj2 (rd_Ok offs 0 0)) by (unfold offs; apply nthZ_offsets_0). cbn [bind]. pose proof (zlen_nonneg obss).
  destruct (wr_push' (@nil Z) (alloc (zlen offs)) 0) as (t0 & E0 & Z0); [rewrite zlen_alloc; lia|]. cbn [app] in E0. change (zlen (@nil Z)) with 0 in E0. rewrite E0. cbn [bind]. rewrite zlen_alloc in Z0 by lia.
  replace (zlen offs - 1) with (zlen obss) by lia. set (index := oidx 0 all). set (nz := otrues 0 all).
  match goal with |- (let* st := for_ _ _ ?body ?s0 in _) = _ =>
  destruct (for_list obss (fun d st => exists t1 t2, st = (sumZ (map nkept d), offsets_of (map nkept d) ++ t1, concat (map (otrues 0) d) ++ t2) /\ zlen t1 = zlen obss - zlen d /\ zlen t2 = zlen nz - zlen (concat (map (otrues 0) d))) body s0) as (st & E & t1 & t2 & -> & L1 & L2) end.
  - exists t0, (alloc (zlen nz)). cbn [map concat]. split; [reflexivity|]. rewrite zlen_alloc by apply zlen_nonneg. change (zlen (@nil (list (option bool)))) with 0. change (zlen (@nil Z)) with 0. lia.
  - intros d x r t Hd (t1 & t2 & -> & L1 & L2). pose proof (nth_offsets d x r) as (S1 & S2). rewrite Hd in S1, S2. fold offs in S1, S2.
    rewrite (proj2 (rd_Ok _ _ _) S1), (proj2 (rd_Ok _ _ _) S2). cbn [bind]. pose proof (zlen_nonneg (concat d)). pose proof (zlen_nonneg x).
    assert (Ea : all = concat d ++ x ++ concat r) by (unfold all; rewrite <- Hd, concat_app; reflexivity).
    assert (Sm : slice (zlen (concat d)) (zlen (concat d) + zlen x) (omask all) = omask x).
    { unfold omask. rewrite Ea, !map_app. rewrite slice_app_shift by (rewrite zlen_map; lia). rewrite !zlen_map, Z.sub_diag. replace (zlen (concat d) + zlen x - zlen (concat d)) with (zlen (map isnone x)) by (rewrite zlen_map; lia). apply slice_app. }
    rewrite (for_sum (omask all) (fun m => if m =? 0 then 0 else 1)); [|lia|unfold omask; rewrite zlen_map, Ea, !zlen_app; pose proof (zlen_nonneg (concat r)); lia|intros i s y Hy; rewrite (proj2 (rd_Ok _ _ _) Hy); reflexivity].
    cbn [bind]. rewrite Sm. replace (sumZ (map (fun m => if m =? 0 then 0 else 1) (omask x))) with (nnull x) by (unfold nnull, omask; rewrite map_map; f_equal; apply map_ext; intros [b|]; reflexivity).
    assert (Ei : index = oidx 0 (concat d) ++ oidx (zlen (otrues 0 (concat d))) x ++ oidx (zlen (otrues 0 (concat d)) + ntrues (keep x)) (concat r)).
    { unfold index. rewrite Ea, !oidx_app, !zlen_otrues, Z.add_0_l. reflexivity. }
    assert (En : nz = otrues 0 (concat d) ++ otrues (zlen (concat d) + 0) x ++ otrues (zlen (concat d) + 0 + zlen x) (concat r)).
    { unfold nz. rewrite Ea, !otrues_app, !Z.add_0_r, Z.add_0_l. reflexivity. }
    destruct (adjust_index_inner_spec (zlen (concat d)) (zlen (concat d) + zlen x) (nnull x) (Z.to_nat (zlen index)) x (concat r) (oidx 0 (concat d)) (otrues 0 (concat d)) (concat (map (otrues 0) d)) t2 index nz 0 (sumZ (map nkept d)) 0 0) as (r' & E & Er); auto.
    + lia.
    + rewrite Ei, !zlen_app. pose proof (zlen_nonneg (oidx 0 (concat d))). pose proof (zlen_nonneg (oidx (zlen (otrues 0 (concat d)) + ntrues (keep x)) (concat r))). pose proof (zlen_oidx x 0). pose proof (zlen_oidx x (zlen (otrues 0 (concat d)))). unfold zlen in *. lia.
    + symmetry. apply zlen_oidx_concat.
    + symmetry. apply zlen_otrues_concat.
    + rewrite L2, En, !zlen_app, (zlen_otrues_concat d 0), !zlen_otrues. lia.
    + rewrite Z.add_0_l. rewrite E. cbn [bind].
      assert (S3 : nthZ (offsets_of (map nkept d) ++ t1) (zlen d) = Some (sumZ (map nkept d))).
      { rewrite nthZ_app. rewrite zlen_offsets_of, zlen_map. destruct (Z.ltb_spec (zlen d) (zlen d + 1)); [|lia]. unfold offsets_of. rewrite <- (zlen_map nkept d). rewrite nthZ_offsets_last. reflexivity. }
      rewrite (proj2 (rd_Ok _ _ _) S3). cbn [bind]. replace (zlen d + 1) with (zlen (offsets_of (map nkept d))) by (rewrite zlen_offsets_of, zlen_map; reflexivity).
      assert (Lo : zlen obss = zlen d + 1 + zlen r) by (rewrite <- Hd, zlen_app, zlen_cons; lia). pose proof (zlen_nonneg r).
      destruct (wr_push' (offsets_of (map nkept d)) t1 (sumZ (map nkept d) + (0 + zlen (oidx 0 x)))) as (t1' & E1 & Z1); [lia|]. rewrite E1. cbn [bind]. eexists. split; [reflexivity|]. exists t1', r'. split; [|split].
      * f_equal; [f_equal|].
        -- rewrite map_app, sumZ_app. cbn [map]. unfold nkept at 3. cbn. lia.
        -- rewrite map_app. cbn [map]. rewrite offsets_of_snoc. reflexivity.
        -- rewrite map_app, concat_app. cbn [map concat]. rewrite app_nil_r. reflexivity.
      * rewrite zlen_app. change (zlen [x]) with 1. lia.
      * rewrite map_app, concat_app, zlen_app. cbn [map concat]. rewrite app_nil_r. rewrite Er, En, !zlen_app, (zlen_otrues_concat d 0), !zlen_otrues. lia.
  - cbn [app] in E. rewrite E. cbn [bind]. rewrite Z.sub_diag in L1. apply zlen_0 in L1. subst t1.
    assert (t2 = []) as -> by (apply zlen_0; rewrite L2; unfold nz, all; rewrite zlen_otrues_concat; lia). rewrite !app_nil_r. reflexivity.
Qed.
