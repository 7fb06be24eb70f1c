(** C82: merging the holes of a region into its outline (recast/contour.go:97-175). *)
From Coq Require Import ZArith List Bool Lia Permutation.
From Verif.Base Require Import Res GoNum.
From Verif.Model Require Import ContourGeom Contour Holes.
From Verif.Spec Require Import AreaSpec PlaneSpec HolesSpec.
From Verif.Proofs Require Import HolesProofs.
Import ListNotations.
Open Scope Z_scope.

(** The leftmost vertex of a contour: its place, with the number of a vertex there. *)
Theorem C82_leftmost : forall v c, exists x z l u,
  findLeftMostVertex (v :: c) = Ok (x, z, l) /\ get (v :: c) l = Ok u /\ ground u = (x, z) /\ leftmost (v :: c) (x, z).
Proof.
  intros v c. destruct (findLeftMostVertex (v :: c)) as [[[x z] l]| | |] eqn:E; try discriminate.
  destruct (findLeftMostVertex_ok _ _ _ _ E) as [(u & G & U) L]. exists x, z, l, u. auto.
Qed.

(** Two contours become one: around the first from one vertex back to it, over to the second, around
    it and back. It has both vertices twice, and the signed areas are added: a hole runs the other
    way around, so its area is taken off. *)
Theorem C82_join : forall a b i j p q, nth_error a i = Some p -> nth_error b j = Some q ->
  exists m, mergeContours a b (Z.of_nat i) (Z.of_nat j) = Ok m /\
    m = turn i a ++ [p] ++ turn j b ++ [q] /\ zlen m = zlen a + zlen b + 2 /\ carea m = carea a + carea b.
Proof.
  intros a b i j p q Hp Hq. eexists. split; [apply mergeContours_ok; eassumption|]. split; [reflexivity|]. split.
  - unfold turn. rewrite !zlen_app, !zlen_cons, !zlen_nil.
    assert (K : forall (l : list Vert) k, zlen (skipn k l) + zlen (firstn k l) = zlen l).
    { intros l k. rewrite Z.add_comm, <- zlen_app. now rewrite firstn_skipn. }
    pose proof (K a i). pose proof (K b j). lia.
  - eapply joined_area. exists i, j. split; [exact Hp|]. split; [exact Hq|reflexivity].
Qed.

(** The test of a vertex [p] of the outline between [a] and [b]: at a corner less than straight, [q]
    is strictly between the two sides; at one more than straight, it is not between them on the outer
    side. (Outlines run so that [bend] is positive at the first kind.) *)
Theorem C82_cone : forall verts k a p b q, nth_error verts k = Some p ->
  nth_error verts (if Nat.eqb k 0 then length verts - 1 else k - 1) = Some a ->
  nth_error verts (if Nat.eqb (S k) (length verts) then O else S k) = Some b ->
  small (ground a) -> small (ground p) -> small (ground b) -> small q ->
  exists r, inCone4 (Z.of_nat k) verts q = Ok r /\
    (0 < bend (ground a) (ground p) (ground b) -> (r = true <-> between_rays true (ground a) (ground p) (ground b) q)) /\
    (bend (ground a) (ground p) (ground b) < 0 -> (r = true <-> ~ between_rays false (ground a) (ground p) (ground b) q)).
Proof. exact inCone4_ok. Qed.
Example C82_cone_case : let l := [mkVert 0 0 0 0; mkVert 0 0 6 0; mkVert 3 0 3 0; mkVert 6 0 6 0; mkVert 6 0 0 0] in
  bend (0, 6) (3, 3) (6, 6) < 0 /\ inCone4 2 l (3, 1) = Ok true /\ inCone4 2 l (3, 5) = Ok false /\
  0 < bend (0, 0) (0, 6) (3, 3) /\ inCone4 1 l (1, 2) = Ok true /\ inCone4 1 l (3, 4) = Ok false.
Proof. vm_compute. repeat split. Qed.

(** If all entries of the slice are holes and the call returns, the holes were taken from left to
    right. Each was left alone, or joined to the outline so far over a segment that does not touch
    the sides of this and of the later holes, and emptied. The total area stays the same. *)
Theorem C82_merge : forall sortHoles sortDiags outline holes o holes', sorts lessHole sortHoles ->
  mergeRegionHoles sortHoles sortDiags outline holes (length holes) = Ok (o, holes') ->
  exists cs cs', Permutation (map hC holes) (map Some cs) /\ map hC holes' = map Some cs' /\
    ForallOrdPairs (fun c d => forall a b, leftmost c a -> leftmost d b -> ~ before b a) cs /\
    merges outline cs o cs' /\
    carea o + sum (map carea cs') = carea outline + sum (map carea cs).
Proof.
  intros sortHoles sortDiags outline holes o holes' Hs H.
  destruct (mergeRegionHoles_ok _ _ _ _ _ _ Hs H) as (cs & cs' & P & M & O & G). exists cs, cs'.
  split; [exact P|]. split; [exact M|]. split; [exact O|]. split; [exact G|]. now apply merges_area.
Qed.

(** BuildContours passes the rest of one slice for all contours (recast/contour.go:395-399), and the
    whole of it is sorted: an entry without a contour comes before the holes to the right of 0, and
    its nil contour is read. *)
Theorem C82_tail_panics : forall sortHoles sortDiags outline hs tail, sorts lessHole sortHoles -> hs <> [] ->
  Forall (fun h => exists v c, hC h = Some (v :: c) /\ Forall (fun u => 0 < vX u) (v :: c)) hs ->
  tail <> [] -> Forall (fun h => h = mkHole None 0 0 0) tail ->
  mergeRegionHoles sortHoles sortDiags outline (hs ++ tail) (length hs) = Panic.
Proof. exact tail_panics. Qed.

(** One hole is joined to vertex 0 of the outline whenever that vertex sees the leftmost vertex of
    the hole and the hole lies in the cone of any vertex, however near other vertices are. *)
Theorem C82_one_hole : forall sortHoles sortDiags v0 outline c x z l q, sorts lessHole sortHoles -> sorts lessDiag sortDiags ->
  findLeftMostVertex c = Ok (x, z, l) -> get c l = Ok q ->
  Forall (fun v => small (ground v) /\ ground v <> ground q) (v0 :: outline) -> Forall (fun v => small (ground v)) c ->
  (forall u v, side (v0 :: outline) u v \/ side c u v -> ground u <> ground v) ->
  (exists i, 0 <= i < zlen (v0 :: outline) /\ inCone4 i (v0 :: outline) (ground q) = Ok true) ->
  clear (v0 :: outline) v0 q -> clear c v0 q ->
  mergeRegionHoles sortHoles sortDiags (v0 :: outline) [mkHole (Some c) 0 0 0] 1 =
    Ok ((v0 :: outline) ++ [v0] ++ turn (Z.to_nat l) c ++ [q], [mkHole (Some []) x z l]).
Proof. exact one_hole. Qed.

Example C82_join_case : let a := [mkVert 0 1 0 2; mkVert 0 1 9 2; mkVert 9 1 0 2] in
  let b := [mkVert 2 3 2 4; mkVert 4 3 2 4; mkVert 2 3 4 4] in
  mergeContours a b 1 2 = Ok ([mkVert 0 1 9 2; mkVert 9 1 0 2; mkVert 0 1 0 2; mkVert 0 1 9 2] ++
    [mkVert 2 3 4 4; mkVert 2 3 2 4; mkVert 4 3 2 4; mkVert 2 3 4 4]) /\ carea a = -81 /\ carea b = 4.
Proof. vm_compute. repeat split. Qed.

(** A sort for the cases below. *)
Fixpoint insert {A} (less : A -> A -> bool) (x : A) (l : list A) : list A :=
  match l with
  | [] => [x]
  | y :: t => if less y x then y :: insert less x t else x :: l
  end.
Definition isort {A} (less : A -> A -> bool) (l : list A) : list A := fold_right (insert less) [] l.
Lemma insert_perm : forall {A} (less : A -> A -> bool) x l, Permutation (x :: l) (insert less x l).
Proof.
  intros A less x l. induction l as [|y t IH]; cbn [insert]; [reflexivity|]. destruct (less y x); [|reflexivity].
  rewrite perm_swap. now constructor.
Qed.
Lemma isort_sorts : forall {A} (less : A -> A -> bool),
  (forall x y z, less z y = false -> less y x = false -> less z x = false) ->
  (forall x y, less y x = true -> less x y = false) -> sorts less (isort less).
Proof.
  intros A less T Y l. induction l as [|x l [P O]]; cbn [isort fold_right]; [split; constructor|].
  change (fold_right (insert less) [] l) with (isort less l). split.
  { transitivity (x :: isort less l); [now constructor|apply insert_perm]. }
  clear P. induction O as [|y t Hy O IH]; cbn [insert]; [constructor; constructor|].
  destruct (less y x) eqn:E.
  - constructor; [|exact IH]. rewrite Forall_forall in *. intros z Hz.
    apply (Permutation_in z (Permutation_sym (insert_perm less x t))) in Hz. destruct Hz as [<-|Hz]; [now apply Y|now apply Hy].
  - constructor; [|now constructor]. constructor; [exact E|]. rewrite Forall_forall in *. intros z Hz. apply (T x y z); [now apply Hy|exact E].
Qed.
Lemma isort_holes : sorts lessHole (isort lessHole).
Proof.
  apply isort_sorts; unfold lessHole.
  - intros x y z. destruct (Z.eqb_spec (hMinx z) (hMinx y)), (Z.eqb_spec (hMinx y) (hMinx x)), (Z.eqb_spec (hMinx z) (hMinx x));
      rewrite ?Z.ltb_ge; lia.
  - intros x y. destruct (Z.eqb_spec (hMinx y) (hMinx x)), (Z.eqb_spec (hMinx x) (hMinx y)); rewrite ?Z.ltb_ge, ?Z.ltb_lt; lia.
Qed.
Lemma isort_diags : sorts lessDiag (isort lessDiag).
Proof. apply isort_sorts; unfold lessDiag; intros; rewrite ?Z.ltb_ge, ?Z.ltb_lt in *; lia. Qed.

Definition at0 (p : Z * Z) : Vert := mkVert (fst p) 0 (snd p) 0.
Definition filled (c : list Vert) : Hole := mkHole (Some c) 0 0 0.

(** A square with two holes, the right one first. Both are merged. *)
Definition box : list Vert := map at0 [(0, 0); (0, 20); (20, 20); (20, 0)].
Definition hole1 : list Vert := map at0 [(12, 4); (16, 4); (16, 8)].
Definition hole2 : list Vert := map at0 [(6, 12); (8, 10); (8, 14)].
Example C82_case : exists o hs, mergeRegionHoles (isort lessHole) (isort lessDiag) box [filled hole1; filled hole2] 2 = Ok (o, hs) /\
  map hC hs = [Some []; Some []] /\ zlen o = 14 /\ Z.abs (carea box) = 800 /\ carea hole1 = 16 /\ carea hole2 = 8 /\
  carea o = carea box + 24 /\ exists u v, findLeftMostVertex hole1 = Ok (12, 4, u) /\ findLeftMostVertex hole2 = Ok (6, 12, v).
Proof. vm_compute. do 2 eexists. repeat split. eexists. eexists. split; reflexivity. Qed.
(** [C82_one_hole] applies to the square and one of the holes. *)
Example C82_one_hole_case : mergeRegionHoles (isort lessHole) (isort lessDiag) box [filled hole2] 1 =
  Ok (box ++ [at0 (0, 0)] ++ hole2 ++ [at0 (6, 12)], [mkHole (Some []) 6 12 0]).
Proof.
  apply (C82_one_hole _ _ (at0 (0, 0)) (tl box) hole2 6 12 0 (at0 (6, 12)) isort_holes isort_diags eq_refl eq_refl).
  - repeat constructor; cbn; try lia; intros Q; discriminate Q.
  - repeat constructor; cbn; lia.
  - intros u v [(k & Hu & Hv)|(k & Hu & Hv)]; do 4 (destruct k as [|k]; [cbn in Hu, Hv; try discriminate Hu; injection Hu as <-; injection Hv as <-; intros Q; discriminate Q|]);
      destruct k; discriminate Hu.
  - exists 0. vm_compute. split; [split; [discriminate|reflexivity]|reflexivity].
  - apply intersect_clear. vm_compute. reflexivity.
  - apply intersect_clear. vm_compute. reflexivity.
Qed.
(** The same holes in a longer slice. *)
Example C82_tail_case :
  mergeRegionHoles (isort lessHole) (isort lessDiag) box ([filled hole1; filled hole2] ++ [mkHole None 0 0 0]) 2 = Panic.
Proof. apply (C82_tail_panics _ _ _ [filled hole1; filled hole2]); [exact isort_holes|easy| |easy|repeat constructor].
  repeat constructor; do 2 eexists; (split; [reflexivity|]); repeat constructor. Qed.

(** The vertices are sorted by distance "to make the connection as short as possible"
    (recast/contour.go:141-143). But the whole slice is sorted, and its unused zero entries come
    first: vertex 0 is tried before nearer ones. Here the hole is joined to (0, 0) although (0, 20) is
    nearer to the same vertex and the segment is clear of both contours. *)
Definition dist2 (p q : Vert) : Z := (vX p - vX q) * (vX p - vX q) + (vZ p - vZ q) * (vZ p - vZ q).
Theorem C82_nearest_refuted : exists sortHoles sortDiags outline hole o hs p q p',
  sorts lessHole sortHoles /\ sorts lessDiag sortDiags /\
  mergeRegionHoles sortHoles sortDiags outline [filled hole] 1 = Ok (o, hs) /\
  joined outline hole p q o /\ (forall m, In m o -> ground m = ground q -> m = q) /\
  In p' outline /\ clear outline p' q /\ clear hole p' q /\ dist2 p' q < dist2 p q.
Proof.
  exists (isort lessHole), (isort lessDiag), box, hole2. do 2 eexists. exists (at0 (0, 0)), (at0 (6, 12)), (at0 (0, 20)).
  split; [exact isort_holes|]. split; [exact isort_diags|]. split; [vm_compute; reflexivity|].
  split; [exists O, O; repeat split|]. split.
  { intros m Hm. cbn in Hm. repeat (destruct Hm as [<-|Hm]; [intros Q; first [reflexivity | discriminate Q]|]). destruct Hm. }
  split; [right; left; reflexivity|].
  split; [apply intersect_clear; vm_compute; reflexivity|]. split; [apply intersect_clear; vm_compute; reflexivity|reflexivity].
Qed.

Print Assumptions C82_leftmost.
Print Assumptions C82_join.
Print Assumptions C82_cone.
Print Assumptions C82_merge.
Print Assumptions C82_one_hole.
Print Assumptions C82_tail_panics.
Print Assumptions C82_nearest_refuted.
