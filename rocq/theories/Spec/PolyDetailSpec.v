(** The detail mesh of a polygon: its outline with points added, and samples added inside. *)
From Coq Require Import ZArith List Bool.
From Verif.Base Require Import Res GoNum F32 Num Grid.
From Verif.Model Require Import Geom SegDist Raster HeightSearch Delaunay.
From Verif.Model Require Import PolyDetail.
From Verif.Spec Require Import AreaSpec HullSpec.
Import ListNotations.
Open Scope Z_scope.

(** Point [i] of a buffer of x, y, z triples. *)
Definition pos (verts : list f32) (i : Z) : vec f32 :=
  (nth (Z.to_nat (3 * i)) verts f0, nth (Z.to_nat (3 * i + 1)) verts f0, nth (Z.to_nat (3 * i + 2)) verts f0).
Definition lower (a b : f32) : f32 := if flt b a then b else a.
Definition higher (a b : f32) : f32 := if flt a b then b else a.

(** The patch has cells, and data for all of them; the search radius fits. *)
Definition heights_ok (H : Heights) : Prop :=
  0 <= hRadius H <= 23169 /\ 0 < hpWidth (hPatch H) /\ 0 < hpHeight (hPatch H) /\
  hpWidth (hPatch H) * hpHeight (hPatch H) <= 1073741824 /\
  hpWidth (hPatch H) * hpHeight (hPatch H) <= zlen (hpData (hPatch H)).
(** The height of the patch found for a point (see C56), in cells. *)
Definition height_of (H : Heights) (p : vec f32) (h : Z) : Prop :=
  getHeight (vx p) (vy p) (vz p) (fdiv f1 (hCs H)) (hCh H) (hRadius H) (hPatch H) = Ok h.

(** The sides (from, to) of a polygon of n vertices: n-1 to 0, 0 to 1 and so on. *)
Definition poly_sides (n : Z) : list (Z * Z) := combine (n - 1 :: zseq (Z.to_nat (n - 1))) (zseq (Z.to_nat n)).

(** ** A side *)

(** The length of a side, and how many sample distances it has. *)
Definition side_length (a b : vec f32) : f32 :=
  fsqrt (fadd (fmul (fsub (vx b) (vx a)) (fsub (vx b) (vx a))) (fmul (fsub (vz b) (vz a)) (fsub (vz b) (vz a)))).
Definition steps (sd : f32) (a b : vec f32) : Z := f_floor_i32 (fdiv (side_length a b) sd).
(** Point [p] is number [k] of [nn] from a to b, at the height of the patch. *)
Definition on_side (H : Heights) (a b : vec f32) (nn k : Z) (p : vec f32) : Prop :=
  let between := fun c : vec f32 -> f32 => fadd (c a) (fmul (fsub (c b) (c a)) (fdiv (f_of_Z k) (f_of_Z nn))) in
  exists h, height_of H (between vx, between vy, between vz) h /\
    p = (between vx, fmul (f_of_Z h) (hCh H), between vz).
(** How far sample [m] is from the segment of samples a and b (squared). *)
Definition deviation (pts : list (vec f32)) (a b m : Z) : f32 :=
  let at_ := fun i => nth (Z.to_nat i) pts (f0, f0, f0) in
  distancePtSeg3Pt numF (at_ m) (at_ a) (at_ b).
(** The samples kept between a and b: none if all deviate by [err2] at most, or else one with most
    deviation, with those kept on both sides of it (Douglas and Peucker). *)
Inductive splits (pts : list (vec f32)) (err2 : f32) : Z -> Z -> list Z -> Prop :=
| splits_leaf a b : (forall m, a < m < b -> fgt (deviation pts a b m) f0 && fgt (deviation pts a b m) err2 = false) ->
    splits pts err2 a b []
| splits_node a b m l r : a < m < b -> fgt (deviation pts a b m) f0 = true -> fgt (deviation pts a b m) err2 = true ->
    (forall m', a < m' < b -> fgt (deviation pts a b m') (deviation pts a b m) = false) ->
    splits pts err2 a m l -> splits pts err2 m b r -> splits pts err2 a b (l ++ m :: r).
(** The points [l] to put between vj and vi when there are already [n] vertices. *)
Definition side_points (H : Heights) (sd err : f32) (n : Z) (vj vi : vec f32) (l : list (vec f32)) : Prop :=
  exists (swapped : bool) a b nn pts inner,
    (a, b) = (if swapped then (vi, vj) else (vj, vi)) /\
    nn = Z.min (1 + steps sd a b) (Z.min 31 (126 - n)) /\
    zlen pts = nn + 1 /\ (forall k p, nth_error pts (Z.to_nat k) = Some p -> 0 <= k -> on_side H a b nn k p) /\
    splits pts (fmul err err) 0 nn inner /\
    Forall2 (fun k p => nth_error pts (Z.to_nat k) = Some p) (if swapped then rev inner else inner) l.

(** ** The outline *)

(** The hull [h] for the sides (from, to) [ss] of the polygon [inp]: the first vertex of each side and
    the points between, which are vertices n, n+1 and so on, up to m. *)
Inductive rimmed (H : Heights) (inp : list f32) (sd err : f32) (verts : list f32) : list (Z * Z) -> Z -> list Z -> Z -> Prop :=
| rimmed_nil n : rimmed H inp sd err verts [] n [] n
| rimmed_cons j i ss n l h m : side_points H sd err n (pos inp j) (pos inp i) l ->
    (forall t p, nth_error l t = Some p -> pos verts (n + Z.of_nat t) = p) ->
    rimmed H inp sd err verts ss (n + zlen l) h m ->
    rimmed H inp sd err verts ((j, i) :: ss) n (j :: map (Z.add n) (zseq (length l)) ++ h) m.

(** Over the sides of a polygon, the least of the largest distance of another vertex. *)
Definition min_extent (inp : list f32) (nin : Z) : f32 :=
  fsqrt (fold_left lower (map (fun i =>
    fold_left higher (map (fun j => distancePtSeg2d numF (pos inp j) (pos inp i) (pos inp ((i + 1) mod nin)))
      (filter (fun j => negb ((j =? i) || (j =? (i + 1) mod nin))) (zseq (Z.to_nat nin)))) f0)
    (zseq (Z.to_nat nin))) maxFloat32).

(** ** Samples *)

(** Squared distance from the outline, negative inside (by the parity of crossings). *)
Definition crossing (p a b : vec f32) : bool :=
  xorb (fgt (vz b) (vz p)) (fgt (vz a) (vz p)) &&
  flt (vx p) (fadd (fdiv (fmul (fsub (vx a) (vx b)) (fsub (vz p) (vz b))) (fsub (vz a) (vz b))) (vx b)).
Definition poly_dist (inp : list f32) (nin : Z) (p : vec f32) : f32 :=
  let d := fold_left lower (map (fun s => distancePtSeg2d numF p (pos inp (fst s)) (pos inp (snd s))) (poly_sides nin)) maxFloat32 in
  if Nat.odd (length (filter (fun s => crossing p (pos inp (fst s)) (pos inp (snd s))) (poly_sides nin))) then fopp d else d.
Definition low_corner (inp : list f32) (nin : Z) : vec f32 :=
  fold_left vmin (map (fun i => pos inp (i + 1)) (zseq (Z.to_nat (nin - 1)))) (pos inp 0).
Definition high_corner (inp : list f32) (nin : Z) : vec f32 :=
  fold_left vmax (map (fun i => pos inp (i + 1)) (zseq (Z.to_nat (nin - 1)))) (pos inp 0).
Definition grid_point (inp : list f32) (nin : Z) (sd : f32) (z x : Z) : vec f32 :=
  (fmul (f_of_Z x) sd,
   fmul (fadd (vy (high_corner inp nin)) (vy (low_corner inp nin))) (f_ratio 1 2),
   fmul (f_of_Z z) sd).
(** The samples (x, h, z): points of the grid of distance [sd], row by row, more than sd/2 inside
    (compared with the squared distance), with their heights. *)
Definition sampled (H : Heights) (inp : list f32) (nin : Z) (sd : f32) (S : list (Z * Z * Z)) : Prop :=
  let lo := low_corner inp nin in
  let hi := high_corner inp nin in
  map (fun '(x, _, z) => (z, x)) S =
    filter (fun '(z, x) => negb (fgt (poly_dist inp nin (grid_point inp nin sd z x)) (fdiv (fopp sd) (f_of_Z 2))))
      (flat_map (fun z => map (fun x => (z, x)) (range (f_floor_i32 (fdiv (vx lo) sd)) (f_ceil_i32 (fdiv (vx hi) sd) - 1)))
        (range (f_floor_i32 (fdiv (vz lo) sd)) (f_ceil_i32 (fdiv (vz hi) sd) - 1))) /\
  Forall (fun '(x, h, z) => height_of H (grid_point inp nin sd z x) h) S.
(** Between -1 and 1, by the low 16 bits of a product. *)
Definition jit (c i : Z) : f32 := fsub (fmul (fdiv (f_of_Z ((i * c) mod 65536)) (f_of_Z 65535)) (f_of_Z 2)) f1.
(** The point of sample [i]: moved from the grid by a tenth of a cell at most. *)
Definition moved (H : Heights) (sd : f32) (i : Z) (s : Z * Z * Z) : vec f32 :=
  let '(x, h, z) := s in
  (fadd (fmul (f_of_Z x) sd) (fmul (fmul (jit 2376512323 i) (hCs H)) (f_ratio 1 10)),
   fmul (f_of_Z h) (hCh H),
   fadd (fmul (f_of_Z z) sd) (fmul (fmul (jit 3625334849 i) (hCs H)) (f_ratio 1 10))).
(** The vertical distance from the mesh (see C75 for one triangle), or -1 if it is not over it. *)
Definition mesh_dist (verts : list f32) (ts : list (Z * Z * Z)) (p : vec f32) : f32 :=
  let d := fold_left lower (map (fun '(a, b, c) =>
    match distPtTri numF p (pos verts a) (pos verts b) (pos verts c) with Some d => d | None => maxFloat32 end) ts) maxFloat32 in
  if feq d maxFloat32 then f_of_Z (-1) else d.

(** ** Adding samples *)

(** The error of sample [i] against the mesh; a sample that is not over the mesh has none. *)
Definition has_error (H : Heights) (sd : f32) (S : list (Z * Z * Z)) (verts : list f32) (ts : list (Z * Z * Z)) (i : Z) (d : f32) : Prop :=
  exists s, nth_error S (Z.to_nat i) = Some s /\ 0 <= i /\ d = mesh_dist verts ts (moved H sd i s) /\ flt d f0 = false.
(** Sample [i], at point [p], is not yet added and has most error of all that are not, more than [err]. *)
Definition worst (H : Heights) (sd err : f32) (S : list (Z * Z * Z)) (verts : list f32) (ts : list (Z * Z * Z)) (A : list Z)
    (i : Z) (p : vec f32) : Prop :=
  exists s d, nth_error S (Z.to_nat i) = Some s /\ 0 <= i /\ ~ In i A /\ p = moved H sd i s /\
    d = mesh_dist verts ts p /\ fgt d f0 = true /\ fle d err = false /\
    forall i' d', ~ In i' A -> has_error H sd S verts ts i' d' -> fgt d' d = false.
(** [verts'] is [verts] with [p] as vertex [n]. *)
Definition extended (verts verts' : list f32) (n : Z) (p : vec f32) : Prop :=
  zlen verts' = zlen verts /\ forall v, 0 <= v -> pos verts' v = if v =? n then p else pos verts v.
(** From the vertices [verts0] (m of them) and triangles [ts0], the worst samples [A] were added one
    after the other, each time with the triangles of delaunayHull (see C74). *)
Inductive grown (H : Heights) (sd err : f32) (S : list (Z * Z * Z)) (hull : list Z) (verts0 : list f32) (m : Z) (ts0 : list (Z * Z * Z))
    : list f32 -> Z -> list (Z * Z * Z) -> list Z -> Prop :=
| grown_nil : grown H sd err S hull verts0 m ts0 verts0 m ts0 []
| grown_add verts n ts A i p verts' rows E : grown H sd err S hull verts0 m ts0 verts n ts A -> n < 127 ->
    worst H sd err S verts ts A i p -> extended verts verts' n p ->
    delaunayHull (n + 1) verts' (zlen hull) (hull ++ repeat 0 (127 - length hull)) = Ok (rows, E) ->
    grown H sd err S hull verts0 m ts0 verts' (n + 1) (map (fun '(a, b, c, _) => (a, b, c)) rows) (A ++ [i]).
(** No more is to be added: 127 vertices, or all samples that were not added are within the error. *)
Definition finished (H : Heights) (sd err : f32) (S : list (Z * Z * Z)) (verts : list f32) (n : Z) (ts : list (Z * Z * Z)) (A : list Z) : Prop :=
  n = 127 \/ forall i d, ~ In i A -> has_error H sd S verts ts i d -> fgt d f0 && fgt d err = false.
