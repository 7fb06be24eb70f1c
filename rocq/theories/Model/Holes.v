(** recast/contour.go:97-175, 876-927 and 929-1040: merging the holes of a region into its outline.
    A contour is the list of its vertices (NVerts is the length of Verts over 4); vertex indices are
    not wrapped to 32 bits, as they are bounded by the lengths of slices. BuildContours panics before
    it calls mergeRegionHoles and never finds a hole (see Model/Contour.v); here the function is taken
    by itself. Contours are values: the outline and the holes of a region are different contours. *)
From Coq Require Import ZArith List Bool.
From Verif.Base Require Import Res GoNum.
From Verif.Model Require Import ContourGeom Contour.
Import ListNotations.
Open Scope Z_scope.

(** The elements 0 and 2 of a vertex, all that the geometry looks at. *)
Definition flat (v : Vert) : pt := (vX v, vZ v).

(** recast/contour.go:880-888, from vertex [i] on with the best so far. *)
Fixpoint leftMostLoop (vs : list Vert) (i minx minz leftmost : Z) : Z * Z * Z :=
  match vs with
  | [] => (minx, minz, leftmost)
  | v :: t =>
      if (vX v <? minx) || ((vX v =? minx) && (vZ v <? minz)) then leftMostLoop t (i + 1) (vX v) (vZ v) i
      else leftMostLoop t (i + 1) minx minz leftmost
  end.
(** recast/contour.go:876-890 *)
Definition findLeftMostVertex (c : list Vert) : res (Z * Z * Z) :=
  match c with
  | [] => Panic
  | v :: t => Ok (leftMostLoop t 1 (vX v) (vZ v) 0)
  end.

(** recast/contour.go:899-907 and 910-918: [k] more vertices from offset [i] on. *)
Fixpoint copyRing (c : list Vert) (ia i : Z) (k : nat) : res (list Vert) :=
  match k with
  | O => Ok []
  | S k' =>
      let* _ := if zlen c =? 0 then Panic else Ok tt in
      let* v := get c (Z.rem (ia + i) (zlen c)) in
      let* r := copyRing c ia (i + 1) k' in
      Ok (v :: r)
  end.
(** recast/contour.go:892-927: the new vertices of [ca]; those of [cb] become empty. *)
Definition mergeContours (ca cb : list Vert) (ia ib : Z) : res (list Vert) :=
  let* a := copyRing ca ia 0 (S (length ca)) in
  let* b := copyRing cb ib 0 (S (length cb)) in
  Ok (a ++ b).

(** recast/contour.go:1007-1026, edges from [k] on; [m] edges are left. *)
Fixpoint intersectLoop (d0 d1 : pt) (i k : Z) (verts : list Vert) (m : nat) : res bool :=
  match m with
  | O => Ok false
  | S m' =>
      let k1 := next k (zlen verts) in
      if (i =? k) || (i =? k1) then intersectLoop d0 d1 i (k + 1) verts m'
      else
        let* p0 := get verts k in
        let* p1 := get verts k1 in
        if vequal d0 (flat p0) || vequal d1 (flat p0) || vequal d0 (flat p1) || vequal d1 (flat p1)
        then intersectLoop d0 d1 i (k + 1) verts m'
        else if intersect d0 d1 (flat p0) (flat p1) then Ok true
        else intersectLoop d0 d1 i (k + 1) verts m'
  end.
Definition intersectSegCountour (d0 d1 : pt) (i : Z) (verts : list Vert) : res bool :=
  intersectLoop d0 d1 i 0 verts (length verts).

(** recast/contour.go:1028-1040 *)
Definition inCone4 (i : Z) (verts : list Vert) (pj : pt) : res bool :=
  let n := zlen verts in
  let* vi := get verts i in
  let* v1 := get verts (next i n) in
  let* v0 := get verts (prev i n) in
  let pi := flat vi in let pi1 := flat v1 in let pin1 := flat v0 in
  Ok (if leftOn pin1 pi pi1 then left pi pj pin1 && left pj pi pi1
      else negb (leftOn pi pj pi1 && leftOn pj pi pin1)).

(** recast/contour.go:935-938; the contour is nil in entries of the slice not filled. *)
Record Hole := mkHole { hC : option (list Vert); hMinx : Z; hMinz : Z; hLeft : Z }.
(** recast/contour.go:949-968 *)
Definition lessHole (a b : Hole) : bool :=
  if hMinx a =? hMinx b then hMinz a <? hMinz b else hMinx a <? hMinx b.
(** recast/contour.go:975-977: vertex and distance. *)
Definition Diag : Type := Z * Z.
(** recast/contour.go:988-1000 *)
Definition lessDiag (a b : Diag) : bool := snd a <? snd b.

Section Sorted.
(** sort.Sort with the two orders: any function; the theorems assume what they need. *)
Variable sortHoles : list Hole -> list Hole.
Variable sortDiags : list Diag -> list Diag.

(** recast/contour.go:99-101: the first [n] holes. *)
Fixpoint markHoles (hs : list Hole) (n : nat) : res (list Hole) :=
  match n, hs with
  | O, _ => Ok hs
  | S _, [] => Panic
  | S n', h :: t =>
      let* c := of_option (hC h) in
      let* (x, z, l) := findLeftMostVertex c in
      let* t' := markHoles t n' in
      Ok (mkHole (Some c) x z l :: t')
  end.
(** recast/contour.go:105-108 *)
Fixpoint countVerts (hs : list Hole) (n : nat) : res Z :=
  match n, hs with
  | O, _ => Ok 0
  | S _, [] => Panic
  | S n', h :: t =>
      let* c := of_option (hC h) in
      let* r := countVerts t n' in
      Ok (zlen c + r)
  end.

(** recast/contour.go:131-139: from vertex [j] of the outline on, [m] left; the squares wrap. *)
Fixpoint collect (outline : list Vert) (corner : pt) (j : Z) (m : nat) (diags : list Diag) (nd : Z) : res (list Diag * Z) :=
  match m with
  | O => Ok (diags, nd)
  | S m' =>
      let* c := inCone4 j outline corner in
      if c then
        let* v := get outline j in
        let dx := i32 (vX v - fst corner) in
        let dz := i32 (vZ v - snd corner) in
        let* diags' := set diags nd (j, i32 (i32 (dx * dx) + i32 (dz * dz))) in
        collect outline corner (j + 1) m' diags' (nd + 1)
      else collect outline corner (j + 1) m' diags nd
  end.
(** recast/contour.go:150-152: the holes from [i] on, [hs]; [n] of them are left. *)
Fixpoint crossesHoles (p corner : pt) (hs : list Hole) (n : nat) : res bool :=
  match n, hs with
  | O, _ => Ok false
  | S _, [] => Panic
  | S n', h :: t =>
      let* c := of_option (hC h) in
      let* x := intersectSegCountour p corner (-1) c in
      if x then Ok true else crossesHoles p corner t n'
  end.
(** recast/contour.go:147-157: position [j], [m] left. Entry [i], not [j], gives the vertex whose
    edges are skipped. *)
Fixpoint pick (outline : list Vert) (corner : pt) (i j : Z) (diags : list Diag) (hs : list Hole) (n m : nat) : res (option Z) :=
  match m with
  | O => Ok None
  | S m' =>
      let* d := get diags j in
      let* v := get outline (fst d) in
      let* di := get diags i in
      let* x := intersectSegCountour (flat v) corner (fst di) outline in
      let* y := if x then Ok true else crossesHoles (flat v) corner hs n in
      if y then pick outline corner i (j + 1) diags hs n m' else Ok (Some (fst d))
  end.
(** recast/contour.go:119-164: [m] vertices of the hole are left to try. The whole slice is sorted,
    not only the [nd] entries just written. *)
Fixpoint search (outline hole : list Vert) (i best : Z) (diags : list Diag) (hs : list Hole) (n m : nat) : res (list Diag * option (Z * Z)) :=
  match m with
  | O => Ok (diags, None)
  | S m' =>
      let* cv := get hole best in
      let* (d1, nd) := collect outline (flat cv) 0 (length outline) diags 0 in
      let d2 := sortDiags d1 in
      let* r := pick outline (flat cv) i 0 d2 hs n (Z.to_nat nd) in
      match r with
      | Some index => Ok (d2, Some (index, best))
      | None => search outline hole i (Z.rem (best + 1) (zlen hole)) d2 hs n m'
      end
  end.
(** recast/contour.go:115-174: the holes from [i] on, [n] of them are left. *)
Fixpoint mergeHoles (outline : list Vert) (i : Z) (diags : list Diag) (hs : list Hole) (n : nat) : res (list Vert * list Hole) :=
  match n, hs with
  | O, _ => Ok (outline, hs)
  | S _, [] => Panic
  | S n', h :: t =>
      let* c := of_option (hC h) in
      let* (d, r) := search outline c i (hLeft h) diags hs n (length c) in
      match r with
      | None => let* (o, t') := mergeHoles outline (i + 1) d t n' in Ok (o, h :: t')
      | Some (index, best) =>
          let* m := mergeContours outline c index best in
          let* (o, t') := mergeHoles m (i + 1) d t n' in
          Ok (o, mkHole (Some []) (hMinx h) (hMinz h) (hLeft h) :: t')
      end
  end.
(** recast/contour.go:97-175 *)
Definition mergeRegionHoles (outline : list Vert) (holes : list Hole) (nholes : nat) : res (list Vert * list Hole) :=
  let* h1 := markHoles holes nholes in
  let h2 := sortHoles h1 in
  let* k := countVerts h2 nholes in
  mergeHoles outline 0 (repeat (0, 0) (Z.to_nat (zlen outline + k))) h2 nholes.
End Sorted.
