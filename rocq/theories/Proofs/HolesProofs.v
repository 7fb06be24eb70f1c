(** Proofs for C82. *)
From Coq Require Import ZArith List Bool Lia Permutation.
From Verif.Base Require Import Res GoNum.
From Verif.Model Require Import ContourGeom Contour Holes.
From Verif.Spec Require Import AreaSpec PlaneSpec HolesSpec.
From Verif.Proofs Require Import TriangulateProofs PlaneProofs.
Import ListNotations.
Open Scope Z_scope.

Lemma copyRing_run : forall c ia k i s, 0 <= ia + i -> Z.rem (ia + i) (zlen c) = Z.of_nat s -> (s + k <= length c)%nat ->
  copyRing c ia i k = Ok (firstn k (skipn s c)).
Proof.
  intros c ia k. induction k as [|k IH]; intros i s H0 Hr Hl; [reflexivity|]. cbn [copyRing].
  assert (N : zlen c = Z.of_nat (length c)) by reflexivity.
  destruct (Z.eqb_spec (zlen c) 0); [lia|]. cbn [bind]. rewrite Hr.
  destruct (nth_error c s) as [v|] eqn:E; [|apply nth_error_None in E; lia].
  rewrite (proj2 (get_ok c (Z.of_nat s) v)) by (rewrite Nat2Z.id; split; [lia|exact E]). cbn [bind].
  assert (T : skipn s c = v :: skipn (S s) c).
  { clear -E. revert s E. induction c as [|x c IH]; intros [|s] E; try discriminate; [now injection E as ->|].
    cbn [skipn]. now rewrite (IH s E). }
  rewrite T. cbn [firstn]. destruct k as [|k]; [reflexivity|].
  rewrite (IH (i + 1) (S s)); [reflexivity|lia| |lia].
  rewrite Z.rem_mod_nonneg in * by lia. rewrite Z.add_assoc.
  pose proof (Z.div_mod (ia + i) (zlen c) ltac:(lia)) as D. symmetry.
  apply (Z.mod_unique_pos _ _ ((ia + i) / zlen c)); lia.
Qed.
Lemma copyRing_app : forall c ia k1 k2 i l1 l2, copyRing c ia i k1 = Ok l1 -> copyRing c ia (i + Z.of_nat k1) k2 = Ok l2 ->
  copyRing c ia i (k1 + k2) = Ok (l1 ++ l2).
Proof.
  intros c ia k1. induction k1 as [|k1 IH]; intros k2 i l1 l2 H1 H2.
  - cbn in H1. apply Ok_inj in H1. subst l1. now rewrite Z.add_0_r in H2.
  - cbn [copyRing] in H1. cbn [Nat.add copyRing]. bind_inv H1. rewrite E. cbn [bind].
    bind_inv H0. rewrite E0. cbn [bind]. bind_inv H1. apply Ok_inj in H0. subst l1.
    rewrite (IH k2 (i + 1) _ l2 E1); [reflexivity|]. rewrite <- H2. f_equal. lia.
Qed.
Lemma copyRing_turn : forall c k p, nth_error c k = Some p ->
  copyRing c (Z.of_nat k) 0 (S (length c)) = Ok (turn k c ++ [p]).
Proof.
  intros c k p E. assert (L : (k < length c)%nat) by (apply nth_error_Some; congruence).
  replace (S (length c)) with ((length c - k) + S k)%nat by lia.
  unfold turn. rewrite <- app_assoc, <- (firstn_snoc c k p E).
  apply copyRing_app.
  - rewrite (copyRing_run c (Z.of_nat k) (length c - k) 0 k); [|lia| |lia].
    + now rewrite <- (firstn_all (skipn k c)), skipn_length, firstn_firstn, Nat.min_id.
    + rewrite Z.rem_small; unfold zlen; lia.
  - rewrite (copyRing_run c (Z.of_nat k) (S k) _ 0); [reflexivity|lia| |lia].
    replace (Z.of_nat k + (0 + Z.of_nat (length c - k))) with (zlen c) by (unfold zlen; lia).
    rewrite Z.rem_same; unfold zlen; lia.
Qed.
Lemma mergeContours_ok : forall a b i j p q, nth_error a i = Some p -> nth_error b j = Some q ->
  mergeContours a b (Z.of_nat i) (Z.of_nat j) = Ok (turn i a ++ [p] ++ turn j b ++ [q]).
Proof.
  intros a b i j p q Hp Hq. unfold mergeContours.
  rewrite (copyRing_turn a i p Hp). cbn [bind]. rewrite (copyRing_turn b j q Hq). cbn [bind]. now rewrite <- !app_assoc.
Qed.

(** Areas *)
Lemma chain_split : forall l p r, chain (l ++ p :: r) = chain (l ++ [p]) + chain (p :: r).
Proof.
  induction l as [|x l IH]; intros p r; [cbn; lia|]. destruct l as [|y l]; [cbn; lia|].
  specialize (IH p r). cbn [app chain] in *. lia.
Qed.
Lemma chain_snoc : forall l p e d, chain (p :: l) + cross (last (p :: l) d) e = chain (p :: l ++ [e]).
Proof.
  induction l as [|x l IH]; intros p e d; [cbn; lia|]. specialize (IH x e d).
  change (last (p :: x :: l) d) with (last (x :: l) d). cbn [app].
  change (chain (p :: x :: l)) with (cross p x + chain (x :: l)).
  change (chain (p :: x :: l ++ [e])) with (cross p x + chain (x :: l ++ [e])). lia.
Qed.
Lemma area_closed : forall p l, area (p :: l) = chain (p :: l ++ [p]).
Proof. intros p l. rewrite area_cons. apply chain_snoc. Qed.
Lemma turn_head : forall {A} (l : list A) k p, nth_error l k = Some p -> exists t, turn k l = p :: t.
Proof.
  intros A l k p E. unfold turn. revert k E. induction l as [|x l IH]; intros [|k] E; try discriminate.
  - injection E as ->. now eexists.
  - cbn [skipn firstn]. destruct (IH k E) as [t Ht]. destruct (skipn k l) as [|y s] eqn:Es.
    + exfalso. assert (length (skipn k l) = O) by now rewrite Es. rewrite skipn_length in H.
      cbn [nth_error] in E. assert (k < length l)%nat by (apply nth_error_Some; congruence). lia.
    + cbn [app] in *. injection Ht as -> _. now eexists.
Qed.
Lemma map_turn : forall {A B} (f : A -> B) k l, map f (turn k l) = turn k (map f l).
Proof. intros. unfold turn. now rewrite map_app, firstn_map, skipn_map. Qed.
Lemma area_turn : forall k l, area (turn k l) = area l.
Proof. intros k l. unfold turn. rewrite area_rot. now rewrite firstn_skipn. Qed.
Lemma joined_area : forall a b p q m, joined a b p q m -> carea m = carea a + carea b.
Proof.
  intros a b p q m (i & j & Hp & Hq & ->). unfold carea. rewrite !map_app, !map_turn.
  rewrite <- (area_turn i (map ground a)), <- (area_turn j (map ground b)).
  destruct (turn_head (map ground a) i (ground p) (map_nth_error ground i a Hp)) as [s ->].
  destruct (turn_head (map ground b) j (ground q) (map_nth_error ground j b Hq)) as [t ->].
  cbn [map app]. rewrite !area_closed.
  replace (ground p :: (s ++ ground p :: ground q :: t ++ [ground q]) ++ [ground p])
    with ((ground p :: s) ++ ground p :: (ground q :: t) ++ ground q :: [ground p])
    by (cbn [app]; rewrite <- !app_assoc; cbn [app]; now rewrite <- !app_assoc).
  rewrite (chain_split (ground p :: s) (ground p)).
  change (chain (ground p :: (ground q :: t) ++ [ground q; ground p]))
    with (cross (ground p) (ground q) + chain ((ground q :: t) ++ [ground q; ground p])).
  rewrite (chain_split (ground q :: t) (ground q)). cbn [app].
  change (chain [ground q; ground p]) with (cross (ground q) (ground p) + 0). unfold cross. lia.
Qed.
Lemma merges_area : forall o hs o' hs', merges o hs o' hs' ->
  carea o' + sum (map carea hs') = carea o + sum (map carea hs).
Proof.
  intros o hs o' hs' M. induction M as [|o h hs o' hs' M IH|o h hs p q m o' hs' J F M IH]; [reflexivity| |].
  - cbn [map sum fold_right] in *. unfold sum in IH. lia.
  - apply joined_area in J. cbn [map sum fold_right] in *. unfold sum in IH. change (carea []) with 0. lia.
Qed.

Ltac binv H :=
  let a := fresh "a" in let E := fresh "E" in
  apply bind_ok in H; destruct H as [a [E H]].
(** Crossing *)
Lemma vequal_false : forall a b, a <> b -> vequal a b = false.
Proof.
  intros [a1 a2] [b1 b2] H. unfold vequal. cbn [fst snd]. destruct (Z.eqb_spec a1 b1), (Z.eqb_spec a2 b2); try reflexivity.
  exfalso. apply H. congruence.
Qed.
Lemma intersectLoop_false : forall d0 d1 verts m k, 0 <= k -> intersectLoop d0 d1 (-1) k verts m = Ok false ->
  forall j u v, k <= j < k + Z.of_nat m -> get verts j = Ok u -> get verts (next j (zlen verts)) = Ok v ->
  d0 <> flat u -> d1 <> flat u -> d0 <> flat v -> d1 <> flat v -> intersect d0 d1 (flat u) (flat v) = false.
Proof.
  intros d0 d1 verts m. induction m as [|m IH]; intros k H0 H j u v Hj Hu Hv N1 N2 N3 N4; [lia|].
  cbn [intersectLoop] in H. cbv zeta in H.
  assert (K : 0 <= next k (zlen verts)) by (unfold next; destruct (_ <? _); lia).
  destruct (Z.eqb_spec (-1) k); [lia|]. destruct (Z.eqb_spec (-1) (next k (zlen verts))); [lia|]. cbn [orb] in H.
  binv H. binv H. destruct (Z.eq_dec j k) as [-> | Nj].
  - rewrite Hu in E. apply Ok_inj in E. subst a. rewrite Hv in E0. apply Ok_inj in E0. subst a0.
    rewrite !vequal_false in H by assumption. cbn [orb] in H.
    destruct (intersect d0 d1 (flat u) (flat v)); [discriminate|reflexivity].
  - assert (R : intersectLoop d0 d1 (-1) (k + 1) verts m = Ok false).
    { destruct (_ || _ || _ || _); [exact H|]. destruct (intersect _ _ _ _); [discriminate|exact H]. }
    apply (IH (k + 1) ltac:(lia) R j u v); try assumption. lia.
Qed.
Lemma intersect_clear : forall p q c, intersectSegCountour (flat p) (flat q) (-1) c = Ok false -> clear c p q.
Proof.
  intros p q c H u v (k & Hu & Hv) Sp Sq Su Sv Npq Nuv N1 N2 N3 N4 X.
  assert (L : (k < length c)%nat) by (apply nth_error_Some; congruence).
  apply (proj2 (intersect_spec _ _ _ _ Sp Sq Su Sv Npq Nuv)) in X.
  assert (F : intersect (flat p) (flat q) (flat u) (flat v) = false).
  { apply (intersectLoop_false _ _ c (length c) 0 ltac:(lia) H (Z.of_nat k) u v); try (intros Q; symmetry in Q; contradiction).
    - lia.
    - apply get_ok. rewrite Nat2Z.id. split; [lia|exact Hu].
    - apply get_ok. unfold next, zlen. destruct (Nat.eqb_spec (S k) (length c)) as [Ek|Ek].
      + destruct (Z.ltb_spec (Z.of_nat k + 1) (Z.of_nat (length c))); [lia|]. split; [lia|exact Hv].
      + destruct (Z.ltb_spec (Z.of_nat k + 1) (Z.of_nat (length c))); [|lia].
        replace (Z.to_nat (Z.of_nat k + 1)) with (S k) by lia. split; [lia|exact Hv]. }
  change ground with flat in X. congruence.
Qed.
Lemma crossesHoles_clear : forall p q n hs, crossesHoles (flat p) (flat q) hs n = Ok false ->
  exists cs, map hC (firstn n hs) = map Some cs /\ length cs = n /\ Forall (fun c => clear c p q) cs.
Proof.
  intros p q n. induction n as [|n IH]; intros hs H. { exists []. split; [now destruct hs|]. split; [reflexivity|constructor]. }
  destruct hs as [|h t]; [discriminate|]. cbn [crossesHoles] in H. binv H. binv H.
  destruct a0; [discriminate|]. destruct (IH t H) as (cs & M & L & F). exists (a :: cs). cbn [firstn map length].
  destruct (hC h) as [c|]; [|discriminate]. cbn in E. apply Ok_inj in E. subst c.
  repeat split; [congruence|congruence|]. constructor; [now apply intersect_clear|exact F].
Qed.

(** The search *)
Lemma pick_ok : forall outline q i diags hs n m j index, pick outline (flat q) i j diags hs n m = Ok (Some index) ->
  exists p, get outline index = Ok p /\ crossesHoles (flat p) (flat q) hs n = Ok false.
Proof.
  intros outline q i diags hs n m. induction m as [|m IH]; intros j index H; [discriminate|]. cbn [pick] in H.
  binv H. binv H. binv H. binv H. binv H. destruct a3; [now apply IH in H|].
  apply Ok_inj in H. injection H as <-. exists a0. split; [exact E0|]. destruct a2; [discriminate|exact E3].
Qed.
Section S.
Variable sortDiags : list Diag -> list Diag.
Lemma search_ok : forall outline hole i hs n m best diags d index b,
  search sortDiags outline hole i best diags hs n m = Ok (d, Some (index, b)) ->
  exists p q, get outline index = Ok p /\ get hole b = Ok q /\ crossesHoles (flat p) (flat q) hs n = Ok false.
Proof.
  intros outline hole i hs n m. induction m as [|m IH]; intros best diags d index b H; [discriminate|]. cbn [search] in H.
  binv H. binv H. destruct a0 as [d1 nd]. cbv zeta in H. binv H. destruct a0 as [ix|]; [|now apply IH in H].
  apply Ok_inj in H. injection H as <- <- <-. destruct (pick_ok _ _ _ _ _ _ _ _ _ E1) as (p & Hp & C).
  exists p, a. now repeat split.
Qed.
Lemma mergeHoles_ok : forall n outline i diags hs o hs', mergeHoles sortDiags outline i diags hs n = Ok (o, hs') ->
  exists cs cs', map hC (firstn n hs) = map Some cs /\ map hC (firstn n hs') = map Some cs' /\
    skipn n hs' = skipn n hs /\ length hs' = length hs /\ merges outline cs o cs'.
Proof.
  induction n as [|n IH]; intros outline i diags hs o hs' H.
  { assert (Q : Ok (outline, hs) = Ok (o, hs')) by (destruct hs; exact H). apply Ok_inj in Q. injection Q as <- <-. exists [], []. repeat split. constructor. }
  destruct hs as [|h t]; [discriminate|]. cbn [mergeHoles] in H. binv H. binv H.
  assert (Eh : hC h = Some a) by (destruct (hC h); [cbn in E; apply Ok_inj in E; congruence|discriminate]).
  destruct a0 as [d [[ix b]|]].
  - destruct (search_ok _ _ _ _ _ _ _ _ _ _ _ E0) as (p & q & Gp & Gq & C).
    binv H. binv H. destruct a1 as [o1 t1]. apply Ok_inj in H. injection H as <- <-.
    destruct (IH _ _ _ _ _ _ E2) as (cs & cs' & M1 & M2 & K & L & M).
    apply get_ok in Gp as [P0 Gp]. apply get_ok in Gq as [Q0 Gq].
    rewrite <- (Z2Nat.id ix P0), <- (Z2Nat.id b Q0), (mergeContours_ok _ _ _ _ _ _ Gp Gq) in E1. apply Ok_inj in E1.
    exists (a :: cs), ([] :: cs'). cbn [firstn skipn map length hC].
    repeat split; [now rewrite Eh, M1|now rewrite M2|exact K|now rewrite L|].
    apply (merges_join outline a cs p q a0); [exists (Z.to_nat ix), (Z.to_nat b); auto| |exact M].
    destruct (crossesHoles_clear p q (S n) (h :: t) C) as (cs2 & M3 & _ & F). cbn [firstn map] in M3. rewrite Eh, M1 in M3.
    assert (Inj : forall (x y : list (list Vert)), map Some x = map Some y -> x = y).
    { induction x as [|x0 x IHx]; intros [|y0 y] Hx; try discriminate; [reflexivity|]. injection Hx as -> Hx. f_equal. now apply IHx. }
    apply (Inj (a :: cs) cs2) in M3. now rewrite M3.
  - binv H. destruct a0 as [o1 t1]. apply Ok_inj in H. injection H as <- <-.
    destruct (IH _ _ _ _ _ _ E1) as (cs & cs' & M1 & M2 & K & L & M). exists (a :: cs), (a :: cs').
    cbn [firstn skipn map length]. repeat split; [now rewrite Eh, M1|now rewrite Eh, M2|exact K|now rewrite L|now constructor].
Qed.
End S.

(** Leftmost vertex *)
Lemma leftMostLoop_ok : forall rest pre x z l, (exists v, get pre l = Ok v /\ vX v = x /\ vZ v = z) ->
  (forall v, In v pre -> ~ before (ground v) (x, z)) ->
  forall x' z' l', leftMostLoop rest (zlen pre) x z l = (x', z', l') ->
  (exists v, get (pre ++ rest) l' = Ok v /\ vX v = x' /\ vZ v = z') /\
  forall v, In v (pre ++ rest) -> ~ before (ground v) (x', z').
Proof.
  induction rest as [|r rest IH]; intros pre x z l Hl Hm x' z' l' H.
  { cbn in H. injection H as <- <- <-. now rewrite app_nil_r. }
  cbn [leftMostLoop] in H. change (r :: rest) with ([r] ++ rest). rewrite app_assoc.
  assert (N : zlen pre + 1 = zlen (pre ++ [r])) by (rewrite zlen_app, zlen_cons, zlen_nil; lia). rewrite N in H.
  assert (B : (vX r <? x) || ((vX r =? x) && (vZ r <? z)) = true <-> before (ground r) (x, z)).
  { unfold before, ground. cbn [fst snd]. rewrite orb_true_iff, andb_true_iff, !Z.ltb_lt, Z.eqb_eq. tauto. }
  destruct ((vX r <? x) || ((vX r =? x) && (vZ r <? z))).
  - apply (IH _ _ _ _) in H; [exact H| |].
    + exists r. split; [|auto]. apply get_ok. unfold zlen. rewrite Nat2Z.id. split; [lia|].
      rewrite nth_error_app2 by lia. now rewrite Nat.sub_diag.
    + intros v Hv. pose proof (proj1 B eq_refl) as Br. apply in_app_or in Hv as [Hv|[<-|[]]].
      * specialize (Hm v Hv). unfold before, ground in *. cbn [fst snd] in *. lia.
      * unfold before, ground. cbn [fst snd]. lia.
  - apply (IH _ _ _ _) in H; [exact H| |].
    + destruct Hl as (v & G & X). exists v. split; [|exact X]. apply get_ok in G as [G0 G]. apply get_ok. split; [exact G0|].
      rewrite nth_error_app1; [exact G|]. apply nth_error_Some. congruence.
    + intros v Hv. apply in_app_or in Hv as [Hv|[<-|[]]]; [now apply Hm|]. intros Q. apply B in Q. discriminate.
Qed.
Lemma findLeftMostVertex_ok : forall c x z l, findLeftMostVertex c = Ok (x, z, l) ->
  (exists v, get c l = Ok v /\ ground v = (x, z)) /\ leftmost c (x, z).
Proof.
  intros [|v c] x z l H; [discriminate|]. cbn [findLeftMostVertex] in H. apply Ok_inj in H.
  destruct (leftMostLoop_ok c [v] (vX v) (vZ v) 0) with (x' := x) (z' := z) (l' := l) as [(u & G & X & Z) M].
  - exists v. now repeat split.
  - intros u [<-|[]]. unfold before, ground. cbn [fst snd]. lia.
  - exact H.
  - cbn [app] in *. assert (U : ground u = (x, z)) by (unfold ground; congruence). split; [exists u; auto|]. split; [|exact M].
    rewrite <- U. apply in_map. apply get_ok in G as [_ G]. eapply nth_error_In; exact G.
Qed.
Definition marked (h : Hole) : Prop := exists c, hC h = Some c /\ findLeftMostVertex c = Ok (hMinx h, hMinz h, hLeft h).
Lemma markHoles_ok : forall hs hs', markHoles hs (length hs) = Ok hs' -> map hC hs' = map hC hs /\ Forall marked hs'.
Proof.
  induction hs as [|h t IH]; intros hs' H; cbn [length markHoles] in H.
  - apply Ok_inj in H. subst hs'. split; [reflexivity|constructor].
  - binv H. binv H. destruct a0 as [[x z] l]. binv H. apply Ok_inj in H. subst hs'.
    destruct (IH _ E1) as [M F]. destruct (hC h) as [c|] eqn:Eh; [|discriminate]. cbn in E. apply Ok_inj in E. subst c. split.
    + cbn [map hC]. now rewrite M, Eh.
    + constructor; [|exact F]. exists a. now split.
Qed.
Lemma some_inj : forall {A} (x y : list A), map Some x = map Some y -> x = y.
Proof.
  induction x as [|x0 x IH]; intros [|y0 y] H; try discriminate; [reflexivity|]. injection H as -> H. f_equal. now apply IH.
Qed.
Lemma permutation_some : forall {A} (l : list (option A)) cs, Permutation l (map Some cs) ->
  forall ds, l = map Some ds -> Permutation ds cs.
Proof.
  intros A l cs P ds ->. apply (Permutation_map (fun o => match o with Some x => [x] | None => [] end)) in P.
  assert (Q : forall l1 l2 : list (list A), Permutation l1 l2 -> Permutation (concat l1) (concat l2)).
  { clear. intros l1 l2 P. induction P; cbn [concat]; [constructor|now apply Permutation_app_head| |now transitivity (concat l')].
    rewrite !app_assoc. apply Permutation_app_tail, Permutation_app_comm. }
  apply Q in P. rewrite !map_map in P.
  assert (C : forall l : list A, concat (map (fun x => [x]) l) = l).
  { clear. induction l as [|x l IH]; [reflexivity|]. cbn [map concat app]. now rewrite IH. }
  now rewrite !C in P.
Qed.
Lemma leftmost_unique : forall c a b, leftmost c a -> leftmost c b -> a = b.
Proof.
  intros c [a1 a2] [b1 b2] [Ia Ma] [Ib Mb]. apply in_map_iff in Ia as (u & Eu & Iu). apply in_map_iff in Ib as (v & Ev & Iv).
  specialize (Ma v Iv). specialize (Mb u Iu). rewrite Eu in Mb. rewrite Ev in Ma. unfold before in *. cbn [fst snd] in *.
  f_equal; lia.
Qed.
Lemma ordered_holes : forall hs cs, Forall marked hs -> map hC hs = map Some cs ->
  ForallOrdPairs (fun x y => lessHole y x = false) hs ->
  ForallOrdPairs (fun c d => forall a b, leftmost c a -> leftmost d b -> ~ before b a) cs.
Proof.
  intros hs cs F M O. revert cs F M. induction O as [|h t Hh O IH]; intros [|c cs] F M; try discriminate; [constructor|].
  inversion F as [|? ? Fh Ft]; subst. cbn [map] in M. injection M as Mh Mt. constructor; [|now apply IH].
  destruct Fh as (c' & E1 & L1). assert (c' = c) by congruence. subst c'. apply findLeftMostVertex_ok in L1 as [_ L1].
  clear IH O F. revert cs Mt. induction t as [|k t IH]; intros [|d cs] Mt; try discriminate; [constructor|].
  inversion Ft as [|? ? Fk Ft']; subst. inversion Hh as [|? ? Lk Hh']; subst. cbn [map] in Mt. injection Mt as Mk Mt.
  constructor; [|now apply IH]. intros a b La Lb. destruct Fk as (d' & E2 & L2). assert (d' = d) by congruence. subst d'.
  apply findLeftMostVertex_ok in L2 as [_ L2]. rewrite (leftmost_unique _ _ _ La L1), (leftmost_unique _ _ _ Lb L2).
  unfold before. cbn [fst snd]. unfold lessHole in Lk. destruct (Z.eqb_spec (hMinx k) (hMinx h)); apply Z.ltb_ge in Lk; lia.
Qed.
Lemma mergeRegionHoles_ok : forall sortHoles sortDiags outline holes o holes', sorts lessHole sortHoles ->
  mergeRegionHoles sortHoles sortDiags outline holes (length holes) = Ok (o, holes') ->
  exists cs cs', Permutation (map hC holes) (map Some cs) /\ map hC holes' = map Some cs' /\
    ForallOrdPairs (fun c d => forall a b, leftmost c a -> leftmost d b -> ~ before b a) cs /\ merges outline cs o cs'.
Proof.
  intros sortHoles sortDiags outline holes o holes' Hs H. unfold mergeRegionHoles in H. binv H. cbv zeta in H. binv H.
  destruct (markHoles_ok _ _ E) as [M F]. destruct (Hs a) as [P O].
  assert (L : length (sortHoles a) = length holes).
  { rewrite <- (Permutation_length P). rewrite <- (map_length hC a), M. apply map_length. }
  destruct (mergeHoles_ok _ _ _ _ _ _ _ _ H) as (cs & cs' & M1 & M2 & _ & L2 & G).
  rewrite <- L, firstn_all in M1. rewrite <- L, <- L2, firstn_all in M2.
  exists cs, cs'. split; [|split; [exact M2|split; [|exact G]]].
  - rewrite <- M1, <- M. now apply Permutation_map.
  - apply (ordered_holes (sortHoles a)); [|exact M1|exact O].
    rewrite Forall_forall in *. intros x Hx. apply F. apply (Permutation_in x (Permutation_sym P) Hx).
Qed.

(** Entries behind the holes *)
Lemma markHoles_app : forall hs tail, Forall (fun h => exists v c, hC h = Some (v :: c)) hs ->
  exists hs', markHoles (hs ++ tail) (length hs) = Ok (hs' ++ tail) /\ length hs' = length hs /\
    map hC hs' = map hC hs /\ Forall marked hs'.
Proof.
  induction hs as [|h t IH]; intros tail F.
  { exists []. split; [now destruct tail|]. repeat split. constructor. }
  inversion F as [|? ? (v & c & Eh) Ft]; subst. destruct (IH tail Ft) as (t' & E & L & M & G).
  cbn [app length markHoles]. rewrite Eh. cbn [of_option bind].
  destruct (findLeftMostVertex (v :: c)) as [[[x z] l]| | |] eqn:Ef; try discriminate. cbn [bind]. rewrite E. cbn [bind].
  exists (mkHole (Some (v :: c)) x z l :: t'). cbn [app length map hC]. repeat split; [now rewrite L|now rewrite M, Eh|].
  constructor; [|exact G]. exists (v :: c). now split.
Qed.
Lemma tail_panics : forall sortHoles sortDiags outline hs tail, sorts lessHole sortHoles -> hs <> [] ->
  Forall (fun h => exists v c, hC h = Some (v :: c) /\ Forall (fun u => 0 < vX u) (v :: c)) hs ->
  tail <> [] -> Forall (fun h => h = mkHole None 0 0 0) tail ->
  mergeRegionHoles sortHoles sortDiags outline (hs ++ tail) (length hs) = Panic.
Proof.
  intros sortHoles sortDiags outline hs tail Hs Nh F Nt Ft. unfold mergeRegionHoles.
  assert (F' : Forall (fun h => exists v c, hC h = Some (v :: c)) hs).
  { revert F. apply Forall_impl. intros h (v & c & E & _). eauto. }
  destruct (markHoles_app hs tail F') as (hs' & -> & L & M & G). cbn [bind]. cbv zeta.
  destruct (Hs (hs' ++ tail)) as [P O]. destruct (sortHoles (hs' ++ tail)) as [|x r] eqn:Es.
  { apply Permutation_length in P. rewrite app_length in P. destruct tail; [contradiction|]. cbn in P. lia. }
  assert (X : hC x = None).
  { destruct tail as [|e tail]; [contradiction|]. inversion Ft as [|? ? Ee _]; subst.
    assert (Ix : In x (hs' ++ mkHole None 0 0 0 :: tail)) by (eapply Permutation_in; [apply Permutation_sym, P|now left]).
    apply in_app_or in Ix as [Ix|Ix].
    - exfalso. assert (Pos : 0 < hMinx x).
      { rewrite Forall_forall in G. destruct (G x Ix) as (c & Ec & Lc). apply findLeftMostVertex_ok in Lc as [(v & Gv & Ev) _].
        assert (Ih : In (Some c) (map hC hs)) by (rewrite <- M, <- Ec; now apply in_map).
        apply in_map_iff in Ih as (h & Eh & Ih). rewrite Forall_forall in F. destruct (F h Ih) as (v0 & c0 & E0 & Pc).
        assert (c = v0 :: c0) by congruence. subst c. rewrite Forall_forall in Pc.
        apply get_ok in Gv as [_ Gv]. apply nth_error_In in Gv. specialize (Pc v Gv). unfold ground in Ev. injection Ev as <- _. exact Pc. }
      assert (Ie : In (mkHole None 0 0 0) (x :: r)) by (eapply Permutation_in; [exact P|]; apply in_or_app; right; now left).
      destruct Ie as [Ie|Ie]; [subst x; cbn in Pos; lia|].
      inversion O as [|? ? Ox _]; subst. rewrite Forall_forall in Ox. specialize (Ox _ Ie). unfold lessHole in Ox. cbn [hMinx hMinz] in Ox.
      destruct (Z.eqb_spec 0 (hMinx x)); [lia|]. apply Z.ltb_ge in Ox. lia.
    - rewrite Forall_forall in Ft. now rewrite (Ft x Ix). }
  destruct hs as [|h hs]; [contradiction|]. cbn [length countVerts]. rewrite X. reflexivity.
Qed.

(** The cone of a vertex *)
Lemma rays_pos : forall a p b q, 0 < bend a p b ->
  (between_rays true a p b q <-> orient p q a < 0 /\ orient q p b < 0).
Proof.
  intros [ax az] [px pz] [bx bz] [qx qz]. unfold between_rays, bend, orient. cbn [fst snd]. intros E. split.
  - intros (k & s & t & Hk & (Hs & Ht) & Hx & Hz).
    assert (A1 : k * ((ax - px) * (qz - pz) - (qx - px) * (az - pz)) = t * ((ax - px) * (bz - pz) - (bx - px) * (az - pz))).
    { transitivity ((ax - px) * (k * (qz - pz)) - (k * (qx - px)) * (az - pz)); [ring|]. rewrite Hx, Hz. ring. }
    assert (A2 : k * ((qx - px) * (bz - pz) - (bx - px) * (qz - pz)) = s * ((ax - px) * (bz - pz) - (bx - px) * (az - pz))).
    { transitivity ((k * (qx - px)) * (bz - pz) - (bx - px) * (k * (qz - pz))); [ring|]. rewrite Hx, Hz. ring. }
    assert (B1 : 0 < k * ((ax - px) * (qz - pz) - (qx - px) * (az - pz))) by (rewrite A1; now apply Z.mul_pos_pos).
    assert (B2 : 0 < k * ((qx - px) * (bz - pz) - (bx - px) * (qz - pz))) by (rewrite A2; now apply Z.mul_pos_pos).
    apply Z.mul_pos_cancel_l in B1; [|exact Hk]. apply Z.mul_pos_cancel_l in B2; [|exact Hk]. lia.
  - intros [H1 H2]. exists ((ax - px) * (bz - pz) - (bx - px) * (az - pz)),
      ((qx - px) * (bz - pz) - (bx - px) * (qz - pz)), ((ax - px) * (qz - pz) - (qx - px) * (az - pz)).
    split; [exact E|]. split; [lia|]. split; ring.
Qed.
Lemma rays_neg : forall a p b q, bend a p b < 0 ->
  (between_rays false a p b q <-> orient p q b <= 0 /\ orient q p a <= 0).
Proof.
  intros [ax az] [px pz] [bx bz] [qx qz]. unfold between_rays, bend, orient. cbn [fst snd]. intros E. split.
  - intros (k & s & t & Hk & (Hs & Ht) & Hx & Hz).
    assert (A1 : k * ((qx - px) * (az - pz) - (ax - px) * (qz - pz)) = t * ((bx - px) * (az - pz) - (ax - px) * (bz - pz))).
    { transitivity ((k * (qx - px)) * (az - pz) - (ax - px) * (k * (qz - pz))); [ring|]. rewrite Hx, Hz. ring. }
    assert (A2 : k * ((bx - px) * (qz - pz) - (qx - px) * (bz - pz)) = s * ((bx - px) * (az - pz) - (ax - px) * (bz - pz))).
    { transitivity ((bx - px) * (k * (qz - pz)) - (k * (qx - px)) * (bz - pz)); [ring|]. rewrite Hx, Hz. ring. }
    assert (B1 : 0 <= k * ((qx - px) * (az - pz) - (ax - px) * (qz - pz))) by (rewrite A1; apply Z.mul_nonneg_nonneg; lia).
    assert (B2 : 0 <= k * ((bx - px) * (qz - pz) - (qx - px) * (bz - pz))) by (rewrite A2; apply Z.mul_nonneg_nonneg; lia).
    apply Z.mul_nonneg_cancel_l in B1; [|exact Hk]. apply Z.mul_nonneg_cancel_l in B2; [|exact Hk]. lia.
  - intros [H1 H2]. exists ((bx - px) * (az - pz) - (ax - px) * (bz - pz)),
      ((bx - px) * (qz - pz) - (qx - px) * (bz - pz)), ((qx - px) * (az - pz) - (ax - px) * (qz - pz)).
    split; [lia|]. split; [lia|]. split; ring.
Qed.
Lemma inCone4_ok : forall verts k a p b q, nth_error verts k = Some p ->
  nth_error verts (if Nat.eqb k 0 then length verts - 1 else k - 1) = Some a ->
  nth_error verts (if Nat.eqb (S k) (length verts) then O else S k) = Some b ->
  small (ground a) -> small (ground p) -> small (ground b) -> small q ->
  exists r, inCone4 (Z.of_nat k) verts q = Ok r /\
    (0 < bend (ground a) (ground p) (ground b) -> (r = true <-> between_rays true (ground a) (ground p) (ground b) q)) /\
    (bend (ground a) (ground p) (ground b) < 0 -> (r = true <-> ~ between_rays false (ground a) (ground p) (ground b) q)).
Proof.
  intros verts k a p b q Hp Ha Hb Sa Sp Sb Sq.
  assert (L : (k < length verts)%nat) by (apply nth_error_Some; congruence).
  assert (Ga : get verts (prev (Z.of_nat k) (zlen verts)) = Ok a).
  { apply get_ok. unfold prev, zlen. rewrite Z.geb_leb. destruct (Z.leb_spec 0 (Z.of_nat k - 1)), (Nat.eqb_spec k 0); try lia.
    - split; [lia|]. now replace (Z.to_nat (Z.of_nat k - 1)) with (k - 1)%nat by lia.
    - split; [lia|]. now replace (Z.to_nat (Z.of_nat (length verts) - 1)) with (length verts - 1)%nat by lia. }
  assert (Gb : get verts (next (Z.of_nat k) (zlen verts)) = Ok b).
  { apply get_ok. unfold next, zlen. destruct (Z.ltb_spec (Z.of_nat k + 1) (Z.of_nat (length verts))), (Nat.eqb_spec (S k) (length verts)); try lia.
    - split; [lia|]. now replace (Z.to_nat (Z.of_nat k + 1)) with (S k) by lia.
    - split; [lia|exact Hb]. }
  unfold inCone4. cbv zeta.
  rewrite (proj2 (get_ok verts (Z.of_nat k) p)) by (rewrite Nat2Z.id; split; [lia|exact Hp]). cbn [bind].
  rewrite Gb. cbn [bind]. rewrite Ga. cbn [bind]. eexists. split; [reflexivity|].
  change (flat a) with (ground a). change (flat b) with (ground b). change (flat p) with (ground p).
  unfold left, leftOn. rewrite !area2_exact by assumption.
  assert (O : orient (ground a) (ground p) (ground b) = - bend (ground a) (ground p) (ground b)) by (unfold orient, bend; ring).
  rewrite O. split; intros E.
  - destruct (Z.leb_spec (- bend (ground a) (ground p) (ground b)) 0); [|lia].
    rewrite (rays_pos _ _ _ _ E), andb_true_iff, !Z.ltb_lt. tauto.
  - destruct (Z.leb_spec (- bend (ground a) (ground p) (ground b)) 0); [lia|].
    rewrite (rays_neg _ _ _ _ E), negb_true_iff, andb_false_iff, !Z.leb_gt. lia.
Qed.

(** One hole: vertex 0 of the outline is tried first *)
Lemma inCone4_total : forall verts j q, 0 <= j < zlen verts -> exists r, inCone4 j verts q = Ok r.
Proof.
  intros verts j q H. unfold inCone4. cbv zeta.
  destruct (get_in_range verts j H) as [p ->]. cbn [bind].
  destruct (get_in_range verts (next j (zlen verts))) as [b ->].
  { unfold next. destruct (Z.ltb_spec (j + 1) (zlen verts)); lia. }
  cbn [bind]. destruct (get_in_range verts (prev j (zlen verts))) as [a ->].
  { unfold prev. rewrite Z.geb_leb. destruct (Z.leb_spec 0 (j - 1)); lia. }
  cbn [bind]. eauto.
Qed.
Definition candidate (d : Diag) : Prop := d = (0, 0) \/ 0 < snd d.
Lemma dist_pos : forall p q : Z * Z, small p -> small q -> p <> q ->
  0 < i32 (i32 (i32 (fst p - fst q) * i32 (fst p - fst q)) + i32 (i32 (snd p - snd q) * i32 (snd p - snd q))).
Proof.
  intros [a b] [c d] Hp Hq N. unfold small in *. cbn [fst snd] in *.
  assert (B : forall x, -32766 <= x <= 32766 -> 0 <= x * x <= 1073610756) by (intros x Hx; nia).
  assert (B2 : forall x, x <> 0 -> 0 < x * x) by (intros x Hx; nia).
  pose proof (B (a - c) ltac:(lia)) as X. pose proof (B (b - d) ltac:(lia)) as Y.
  assert (P : 0 < (a - c) * (a - c) + (b - d) * (b - d)).
  { destruct (Z.eq_dec a c) as [-> | Na].
    - assert (Nb : b <> d) by (intros ->; now apply N). pose proof (B2 (b - d) ltac:(lia)). lia.
    - pose proof (B2 (a - c) ltac:(lia)). lia. }
  rewrite !(i32_id (a - c)), !(i32_id (b - d)) by (unfold is_i32; lia).
  rewrite !(i32_id ((a - c) * (a - c))), !(i32_id ((b - d) * (b - d))) by (unfold is_i32; lia).
  rewrite i32_id by (unfold is_i32; lia). exact P.
Qed.
Lemma collect_ok : forall outline q, small q -> Forall (fun v => small (ground v) /\ ground v <> q) outline ->
  forall m j diags nd, 0 <= j -> j + Z.of_nat m = zlen outline -> 0 <= nd -> nd + Z.of_nat m < zlen diags ->
  Forall candidate diags -> get diags (zlen diags - 1) = Ok (0, 0) ->
  exists d' nd', collect outline q j m diags nd = Ok (d', nd') /\ nd <= nd' /\ zlen d' = zlen diags /\
    Forall candidate d' /\ get d' (zlen d' - 1) = Ok (0, 0) /\
    (forall i, j <= i < zlen outline -> inCone4 i outline q = Ok true -> nd < nd').
Proof.
  intros outline q Sq F m. induction m as [|m IH]; intros j diags nd Hj Hm Hnd Hr Fd Hl.
  - exists diags, nd. cbn [collect]. repeat split; try assumption; try lia.
  - cbn [collect]. destruct (inCone4_total outline j q ltac:(lia)) as [r Er]. rewrite Er. cbn [bind].
    destruct r.
    + destruct (get_in_range outline j ltac:(lia)) as [v Gv]. rewrite Gv. cbn [bind]. cbv zeta.
      rewrite set_in_range by lia. cbn [bind].
      match goal with |- context [upd diags (Z.to_nat nd) ?x] => set (e := x) end.
      assert (Ce : candidate e).
      { right. apply get_ok in Gv as [_ Gv]. apply nth_error_In in Gv. rewrite Forall_forall in F. destruct (F v Gv) as [Sv Nv].
        apply (dist_pos (ground v) q Sv Sq Nv). }
      destruct (IH (j + 1) (upd diags (Z.to_nat nd) e) (nd + 1)) as (d' & nd' & E & L & Z & Fd' & G & C); try lia.
      * rewrite zlen_upd. lia.
      * rewrite Forall_forall in *. intros x Hx. apply In_nth_error in Hx as [k Hk]. rewrite nth_error_upd in Hk.
        destruct (Nat.eq_dec k (Z.to_nat nd)) as [Ek|Ek].
        { subst k. assert (Q : nth_error (upd diags (Z.to_nat nd) e) (Z.to_nat nd) = Some e) by (apply nth_error_upd_eq; unfold zlen in *; lia).
          rewrite nth_error_upd in Q. rewrite Hk in Q. now injection Q as ->. }
        { assert (Q : nth_error (upd diags (Z.to_nat nd) e) k = nth_error diags k) by (apply nth_error_upd_neq; lia).
          rewrite nth_error_upd in Q. rewrite Hk in Q. symmetry in Q. apply nth_error_In in Q. now apply Fd. }
      * rewrite zlen_upd. apply get_ok in Hl as [H0 Hl]. apply get_ok. split; [exact H0|]. rewrite nth_error_upd_neq; [exact Hl|lia].
      * exists d', nd'. rewrite zlen_upd in Z. repeat split; try assumption; try lia.
    + destruct (IH (j + 1) diags nd) as (d' & nd' & E & L & Z & Fd' & G & C); try lia; try assumption.
      exists d', nd'. repeat split; try assumption. intros i Hi Hc. apply (C i); [|exact Hc].
      destruct (Z.eq_dec i j) as [-> | N]; [congruence|lia].
Qed.
Lemma first_zero : forall sortDiags l, sorts lessDiag sortDiags -> Forall candidate l -> In (0, 0) l ->
  exists r, sortDiags l = (0, 0) :: r.
Proof.
  intros f l Hf F I. destruct (Hf l) as [P O]. destruct (f l) as [|x r]; [apply Permutation_sym, Permutation_nil in P; subst l; destruct I|].
  exists r. f_equal. assert (Ix : In x l) by (eapply Permutation_in; [apply Permutation_sym, P|now left]).
  rewrite Forall_forall in F. destruct (F x Ix) as [-> | Px]; [reflexivity|].
  pose proof (Permutation_in _ P I) as [J|J]; [exact J|]. inversion O as [|? ? Ox _]; subst. rewrite Forall_forall in Ox.
  specialize (Ox _ J). unfold lessDiag in Ox. cbn [snd] in Ox. apply Z.ltb_ge in Ox. lia.
Qed.
Lemma clear_intersect : forall p q c i, clear c p q -> small (ground p) -> small (ground q) -> ground p <> ground q ->
  Forall (fun v => small (ground v)) c -> (forall u v, side c u v -> ground u <> ground v) ->
  intersectSegCountour (flat p) (flat q) i c = Ok false.
Proof.
  intros p q c i C Sp Sq N F D. unfold intersectSegCountour.
  assert (R : forall m k, 0 <= k -> k + Z.of_nat m = zlen c -> intersectLoop (flat p) (flat q) i k c m = Ok false);
    [|apply R; unfold zlen; lia].
  induction m as [|m IH]; intros k Hk Hm; [reflexivity|]. cbn [intersectLoop]. cbv zeta.
  destruct ((i =? k) || (i =? next k (zlen c))); [apply IH; lia|].
  destruct (get_in_range c k ltac:(lia)) as [u Gu]. rewrite Gu. cbn [bind].
  destruct (get_in_range c (next k (zlen c))) as [v Gv].
  { unfold next. destruct (Z.ltb_spec (k + 1) (zlen c)); lia. }
  rewrite Gv. cbn [bind].
  destruct (vequal (flat p) (flat u) || vequal (flat q) (flat u) || vequal (flat p) (flat v) || vequal (flat q) (flat v)) eqn:Q; [apply IH; lia|].
  assert (V : forall a b, vequal a b = false -> a <> b).
  { intros a b E ->. unfold vequal in E. now rewrite !Z.eqb_refl in E. }
  apply orb_false_iff in Q as [Q Q4]. apply orb_false_iff in Q as [Q Q3]. apply orb_false_iff in Q as [Q1 Q2].
  apply V in Q1, Q2, Q3, Q4.
  assert (Sd : side c u v).
  { apply get_ok in Gu as [_ Gu]. apply get_ok in Gv as [_ Gv]. exists (Z.to_nat k). split; [exact Gu|].
    unfold next, zlen in Gv. unfold zlen in Hm. destruct (Nat.eqb_spec (S (Z.to_nat k)) (length c)), (Z.ltb_spec (k + 1) (Z.of_nat (length c))); try lia.
    - exact Gv.
    - now replace (S (Z.to_nat k)) with (Z.to_nat (k + 1)) by lia. }
  assert (Iu : In u c) by (apply get_ok in Gu as [_ Gu]; eapply nth_error_In; exact Gu).
  assert (Iv : In v c) by (apply get_ok in Gv as [_ Gv]; eapply nth_error_In; exact Gv).
  rewrite Forall_forall in F. pose proof (F u Iu) as Su. pose proof (F v Iv) as Sv.
  destruct (intersect (flat p) (flat q) (flat u) (flat v)) eqn:X; [|apply IH; lia]. exfalso.
  apply (intersect_spec _ _ _ _ Sp Sq Su Sv N (D u v Sd)) in X.
  apply (C u v Sd Sp Sq Su Sv N (D u v Sd)) in X; [exact X| | | |]; intros Y; symmetry in Y; contradiction.
Qed.
Lemma one_hole : forall sortHoles sortDiags v0 outline c x z l q, sorts lessHole sortHoles -> sorts lessDiag sortDiags ->
  findLeftMostVertex c = Ok (x, z, l) -> get c l = Ok q ->
  Forall (fun v => small (ground v) /\ ground v <> ground q) (v0 :: outline) -> Forall (fun v => small (ground v)) c ->
  (forall u v, side (v0 :: outline) u v \/ side c u v -> ground u <> ground v) ->
  (exists i, 0 <= i < zlen (v0 :: outline) /\ inCone4 i (v0 :: outline) (ground q) = Ok true) ->
  clear (v0 :: outline) v0 q -> clear c v0 q ->
  mergeRegionHoles sortHoles sortDiags (v0 :: outline) [mkHole (Some c) 0 0 0] 1 =
    Ok ((v0 :: outline) ++ [v0] ++ turn (Z.to_nat l) c ++ [q], [mkHole (Some []) x z l]).
Proof.
  intros sortHoles sortDiags v0 outline c x z l q Hh Hd Fl Gq Fo Fc D (i & Hi & Ci) C1 C2.
  pose proof (get_range _ _ _ Gq) as Hl.
  assert (Sq : small (ground q)).
  { rewrite Forall_forall in Fc. apply Fc. apply get_ok in Gq as [_ G]. eapply nth_error_In; exact G. }
  assert (S0 : small (ground v0) /\ ground v0 <> ground q) by (now inversion Fo). destruct S0 as [S0 N0].
  unfold mergeRegionHoles. cbn [markHoles hC of_option bind]. rewrite Fl. cbn [bind]. cbv zeta.
  replace (sortHoles [mkHole (Some c) x z l]) with [mkHole (Some c) x z l]
    by (symmetry; apply Permutation_length_1_inv, (Hh [mkHole (Some c) x z l])).
  cbn [countVerts hC of_option bind]. rewrite Z.add_0_r. cbn [mergeHoles hC of_option bind hLeft].
  set (o := v0 :: outline) in *. set (ds := repeat (0, 0) (Z.to_nat (zlen o + zlen c)) : list Diag).
  assert (Ld : @zlen Diag ds = zlen o + zlen c) by (unfold ds; unfold zlen at 1; rewrite repeat_length; pose proof (zlen_nonneg o); lia).
  destruct c as [|c0 c']; [discriminate|]. set (c := c0 :: c') in *. change (length c) with (S (length c')). cbn [search].
  rewrite Gq. cbn [bind]. change (flat q) with (ground q).
  destruct (collect_ok o (ground q) Sq Fo (length o) 0 ds 0) as (d & nd & -> & _ & Ld' & Fd & Gd & K);
    try (unfold zlen in *; lia).
  - apply Forall_forall. intros e He. apply repeat_spec in He. now left.
  - destruct (get_in_range ds (zlen ds - 1)) as [e Ge]; [lia|]. rewrite Ge. f_equal.
    apply get_ok in Ge as [_ Ge]. apply nth_error_In in Ge. now apply repeat_spec in Ge.
  - cbn [bind]. specialize (K i Hi Ci).
    destruct (first_zero sortDiags d Hd Fd) as [r Er]; [apply get_ok in Gd as [_ Gd]; eapply nth_error_In; exact Gd|].
    rewrite Er. destruct (Z.to_nat nd) as [|m] eqn:En; [lia|]. cbn [pick].
    change (get ((0, 0) :: r) 0) with (@Ok Diag (0, 0)). cbn [bind fst]. change (get o 0) with (Ok v0). cbn [bind].
    change (ground q) with (flat q).
    rewrite (clear_intersect v0 q o 0 C1 S0 Sq N0); [|eapply Forall_impl; [|exact Fo]; now intros v [Sv _]|intros u v Hs; apply D; now left].
    cbn [bind crossesHoles hC of_option].
    rewrite (clear_intersect v0 q c (-1) C2 S0 Sq N0 Fc); [|intros u v Hs; apply D; now right].
    cbn [bind]. apply get_ok in Gq as [_ Gq].
    pose proof (mergeContours_ok o c 0 (Z.to_nat l) v0 q eq_refl Gq) as M. rewrite Z2Nat.id in M by lia.
    change (Z.of_nat 0) with 0 in M. rewrite M. cbn [bind mergeHoles hMinx hMinz hLeft].
    unfold turn at 1. cbn [skipn firstn]. now rewrite app_nil_r.
Qed.
