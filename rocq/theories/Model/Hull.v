(** recast/meshdetail.go: triangulation of the hull of a detail polygon. *)
From Coq Require Import ZArith List Bool.
From Verif.Base Require Import Res GoNum F32 Num Grid.
From Verif.Model Require Import ContourGeom.
Import ListNotations.
Open Scope Z_scope.

(** The x and z coordinates of verts[hull[i]*3:]. *)
Definition hullPt (verts : list f32) (hull : list Z) (i : Z) : res (f32 * f32) :=
  let* v := get hull i in
  let k := i32 (v * 3) in
  if (k <? 0) || (zlen verts <? k) then Panic
  else
    let* x := get verts k in
    let* z := get verts (k + 2) in
    Ok (x, z).
(** recast/meshdetail.go:46-50 vdistSq2 *)
Definition vdistSq2 (p q : f32 * f32) : f32 :=
  let dx := fsub (fst q) (fst p) in
  let dy := fsub (snd q) (snd p) in
  fadd (fmul dx dx) (fmul dy dy).
(** recast/meshdetail.go:52-54 vdist2 *)
Definition vdist2 (p q : f32 * f32) : f32 := fsqrt (vdistSq2 p q).

(** recast/meshdetail.go:748-761: one step of the search for the ear to start from; the state
    is (start, left, right, dmin). *)
Definition earStep (nhull : Z) (verts : list f32) (hull : list Z) (st : Z * Z * Z * f32) (i : Z) : res (Z * Z * Z * f32) :=
  let '(start, lft, rgt, dmin) := st in
  let pi := prev i nhull in
  let ni := next i nhull in
  let* pv := hullPt verts hull pi in
  let* cv := hullPt verts hull i in
  let* nv := hullPt verts hull ni in
  let d := fadd (fadd (vdist2 pv cv) (vdist2 cv nv)) (vdist2 nv pv) in
  if flt d dmin then Ok (i, ni, pi, d) else Ok st.

(** recast/meshdetail.go:773-792: the loop that moves left or right. *)
Fixpoint fanLoop (fuel : nat) (nhull : Z) (verts : list f32) (hull : list Z) (lft rgt : Z) (tris : list Z) : res (list Z) :=
  match fuel with
  | O => NoFuel
  | S f =>
      if next lft nhull =? rgt then Ok tris
      else
        let nleft := next lft nhull in
        let nright := prev rgt nhull in
        let* cvleft := hullPt verts hull lft in
        let* nvleft := hullPt verts hull nleft in
        let* cvright := hullPt verts hull rgt in
        let* nvright := hullPt verts hull nright in
        let dleft := fadd (vdist2 cvleft nvleft) (vdist2 nvleft cvright) in
        let dright := fadd (vdist2 cvright nvright) (vdist2 cvleft nvright) in
        let* a := get hull lft in
        let* c := get hull rgt in
        if flt dleft dright then
          let* b := get hull nleft in
          fanLoop f nhull verts hull nleft rgt (tris ++ [a; b; c; 0])
        else
          let* b := get hull nright in
          fanLoop f nhull verts hull lft nright (tris ++ [a; b; c; 0])
  end.

(** recast/meshdetail.go:740-793 triangulateHull (nverts is not used): *tris afterwards. *)
Definition triangulateHull (verts : list f32) (nhull : Z) (hull : list Z) (tris : list Z) : res (list Z) :=
  let* (start, lft, rgt, _) :=
    foldM (earStep nhull verts hull) (zseq (Z.to_nat nhull)) (0, 1, nhull - 1, f0) in
  let* a := get hull start in
  let* b := get hull lft in
  let* c := get hull rgt in
  fanLoop (S (Z.to_nat nhull)) nhull verts hull lft rgt (tris ++ [a; b; c; 0]).
