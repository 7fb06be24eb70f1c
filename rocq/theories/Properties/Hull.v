(** C60: recast/meshdetail.go triangulateHull. *)
From Coq Require Import ZArith List Bool Lia.
From Verif.Base Require Import Res GoNum F32 Num Grid.
From Verif.Model Require Import ContourGeom Hull.
From Verif.Spec Require Import AreaSpec HullSpec.
From Verif.Proofs Require Import TriangulateProofs HullProofs.
Import ListNotations.
Open Scope Z_scope.

(** For every hull of n >= 3 vertices, at any positions (float32 words, infinities and NaN
    included), the call appends n-2 triangles (quadruples ending with 0) and keeps what was
    there.  Up to the corner each one starts with, the triangles are a triangulation of the hull:
    corners cut off one after the other until a triangle is left.  So for every placement of the
    vertices in the plane, their signed areas add up to the area of the hull. *)
Theorem C60_triangulateHull : forall verts n hull tris,
  3 <= n <= zlen hull -> zlen verts < 2 ^ 31 ->
  let corners := firstn (Z.to_nat n) hull in
  Forall (fun v => 0 <= v /\ 3 * v + 2 < zlen verts) corners ->
  exists ts ts', triangulateHull verts n hull tris = Ok (tris ++ quads ts) /\
    zlen ts = n - 2 /\
    (forall a b c, In (a, b, c) ts -> In a corners /\ In b corners /\ In c corners) /\
    Forall2 cyc ts ts' /\ triangulation corners ts' /\
    forall pos : Z -> Z * Z,
      sum (map (fun '(a, b, c) => area [pos a; pos b; pos c]) ts) = area (map pos corners).
Proof.
  intros verts n hull tris Hn Hs corners HF. rewrite Forall_forall in HF.
  destruct (triangulateHull_spec verts hull n Hn HF Hs tris) as (ts & ts' & E & Ln & C & T). exists ts, ts'.
  split; [exact E|]. split; [exact Ln|]. fold corners in T. split; [|split; [exact C|split; [exact T|]]].
  - intros a b c Hi.
    assert (T' : exists t', In t' ts' /\ cyc (a, b, c) t').
    { clear -C Hi. induction C as [|t t' l l' H1 H2 IH]; [easy|]. destruct Hi as [->|Hi]; [exists t'; split; [now left|exact H1]|].
      destruct (IH Hi) as (t2 & I2 & C2). exists t2. split; [now right|exact C2]. }
    destruct T' as (t' & I' & C').
    assert (K : forall x y z, In (x, y, z) ts' -> In x corners /\ In y corners /\ In z corners).
    { intros x y z Hx. destruct T as (ts0 & p & q & r & -> & Cu). destruct (cuts_incl _ _ _ Cu) as [G1 G2].
      apply in_app_or in Hx as [Hx|[Hx|[]]]; [now apply G2|]. injection Hx as <- <- <-.
      repeat split; apply G1; cbn; tauto. }
    destruct C' as [-> | [-> | ->]]; apply K in I'; tauto.
  - intros pos. pose proof (cyc_area pos _ _ C) as A. apply (triangulation_map pos) in T. apply area_triangulation in T.
    rewrite T, map_map, <- A. f_equal. apply map_ext. now intros [[a b] c].
Qed.

(** The first triangle is always the one at corner 0: the search for the ear of least perimeter
    (meshdetail.go:745-761) compares with a minimum that starts with 0 and never succeeds. *)
Theorem C60_first_triangle : forall verts n hull tris,
  3 <= n <= zlen hull -> zlen verts < 2 ^ 31 ->
  Forall (fun v => 0 <= v /\ 3 * v + 2 < zlen verts) (firstn (Z.to_nat n) hull) ->
  exists a b c rest, get hull 0 = Ok a /\ get hull 1 = Ok b /\ get hull (n - 1) = Ok c /\
    triangulateHull verts n hull tris = Ok (tris ++ [a; b; c; 0] ++ rest).
Proof.
  intros verts n hull tris Hn Hs HF. rewrite Forall_forall in HF. exact (triangulateHull_first verts hull n Hn HF Hs tris).
Qed.

(** A pentagon (x, y, z triples) whose ear of least perimeter is the one at corner 2. *)
Definition pent : list f32 :=
  map f_of_Z [0; 0; 0;  10; 0; 0;  11; 0; 1;  10; 0; 2;  0; 0; 10].
Example C60_pentagon :
  triangulateHull pent 5 [0; 1; 2; 3; 4] [7; 7; 7; 0] =
    Ok ([7; 7; 7; 0] ++ quads [(0, 1, 4); (1, 3, 4); (1, 2, 3)]).
Proof. vm_compute. reflexivity. Qed.
Example C60_hypotheses :
  3 <= 5 <= zlen [0; 1; 2; 3; 4] /\ zlen pent < 2 ^ 31 /\
  Forall (fun v => 0 <= v /\ 3 * v + 2 < zlen pent) (firstn (Z.to_nat 5) [0; 1; 2; 3; 4]).
Proof. split; [vm_compute; split; discriminate|]. split; [reflexivity|]. repeat constructor; (discriminate || reflexivity). Qed.
(** The perimeter of the ear at corner [i]. *)
Definition earLen (verts : list f32) (i j k : Z) : f32 :=
  let at2 v := (nth (Z.to_nat (3 * v)) verts f0, nth (Z.to_nat (3 * v + 2)) verts f0) in
  fadd (fadd (vdist2 (at2 i) (at2 j)) (vdist2 (at2 j) (at2 k))) (vdist2 (at2 k) (at2 i)).
(** "Start from an ear with shortest perimeter" (comment at meshdetail.go:745) does not hold. *)
Theorem C60_shortest_ear_refuted : exists verts hull rest,
  triangulateHull verts 5 hull [] = Ok ([0; 1; 4; 0] ++ rest) /\
  hull = [0; 1; 2; 3; 4] /\ flt (earLen verts 1 2 3) (earLen verts 4 0 1) = true.
Proof. exists pent, [0; 1; 2; 3; 4], (quads [(1, 3, 4); (1, 2, 3)]). vm_compute. easy. Qed.

Print Assumptions C60_triangulateHull.
Print Assumptions C60_first_triangle.
Print Assumptions C60_shortest_ear_refuted.
