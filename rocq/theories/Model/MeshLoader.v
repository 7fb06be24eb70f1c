(** recast/meshloaderobj.go. [gobj.Decode] is external: its result, the vertices (already
    converted to float32) and the polygons (zero-based int32 indices), is the input. *)
From Coq Require Import ZArith List Bool.
From Verif.Base Require Import Res GoNum Grid F32.
Import ListNotations.
Open Scope Z_scope.

(** recast/meshloaderobj.go:10-15 *)
Record MeshLoaderOBJ := mkMLO { mScale : f32; mVerts : list f32; mTris : list Z; mNormals : list f32 }.
(** recast/meshloaderobj.go:17-24 *)
Definition NewMeshLoaderOBJ : MeshLoaderOBJ := mkMLO f1 [] [] [].

(** recast/meshloaderobj.go:38-45 *)
Definition scaleVerts (scale : f32) (verts : list (f32 * f32 * f32)) : list f32 :=
  flat_map (fun '(x, y, z) => [fmul x scale; fmul y scale; fmul z scale]) verts.

(** recast/meshloaderobj.go:50-58: one polygon; [b] is [p[i-1]], the list starts at [p[i]]. *)
Definition badIdx (vertcount a : Z) : bool := (a <? 0) || (a >=? vertcount).
Fixpoint addPolyFrom (vertcount a b : Z) (rest : list Z) (tris : list Z) : list Z :=
  match rest with
  | [] => tris
  | c :: rest =>
      let tris := if badIdx vertcount a || badIdx vertcount b || badIdx vertcount c then tris
                  else tris ++ [a; b; c] in
      addPolyFrom vertcount a c rest tris
  end.
Definition addPoly (vertcount : Z) (tris : list Z) (p : list Z) : list Z :=
  match p with
  | a :: b :: rest => addPolyFrom vertcount a b rest tris
  | _ => tris
  end.

(** recast/meshloaderobj.go:66-68: [v[k*3 : 3+k*3]] with the int32 product. *)
Definition vert3 (verts : list f32) (k : Z) : res (f32 * f32 * f32) :=
  let o := i32 (k * 3) in
  let* v := slice verts o (i32 (3 + o)) in
  match v with [x; y; z] => Ok (x, y, z) | _ => Panic end.
(** recast/meshloaderobj.go:64-85: the normal of one triangle. *)
Definition triNormal (v0 v1 v2 : f32 * f32 * f32) : list f32 :=
  let '(x0, y0, z0) := v0 in
  let '(x1, y1, z1) := v1 in
  let '(x2, y2, z2) := v2 in
  let e00 := fsub x1 x0 in let e01 := fsub y1 y0 in let e02 := fsub z1 z0 in
  let e10 := fsub x2 x0 in let e11 := fsub y2 y0 in let e12 := fsub z2 z0 in
  let n0 := fsub (fmul e01 e12) (fmul e02 e11) in
  let n1 := fsub (fmul e02 e10) (fmul e00 e12) in
  let n2 := fsub (fmul e00 e11) (fmul e01 e10) in
  let d := fsqrt (fadd (fadd (fmul n0 n0) (fmul n1 n1)) (fmul n2 n2)) in
  if flt f0 d then let d := fdiv f1 d in [fmul n0 d; fmul n1 d; fmul n2 d] else [n0; n1; n2].
(** recast/meshloaderobj.go:63-86: [tris[i]], [tris[i+1]], [tris[i+2]] for i = 0, 3, 6, ... *)
Fixpoint normalsOf (verts : list f32) (tris : list Z) : res (list f32) :=
  match tris with
  | [] => Ok []
  | a :: b :: c :: rest =>
      let* v0 := vert3 verts a in
      let* v1 := vert3 verts b in
      let* v2 := vert3 verts c in
      let* r := normalsOf verts rest in
      Ok (triNormal v0 v1 v2 ++ r)
  | _ => Panic
  end.

(** recast/meshloaderobj.go:26-89 after a successful [Decode]. [make] panics on a negative length. *)
Definition Load (mlo : MeshLoaderOBJ) (verts : list (f32 * f32 * f32)) (polys : list (list Z)) : res MeshLoaderOBJ :=
  let count := i32 (i32 (zlen verts) * 3) in
  if count <? 0 then Panic else
  let vertcount := i32 (zlen verts) in
  let vs := scaleVerts (mScale mlo) verts in
  let tris := fold_left (addPoly vertcount) polys (mTris mlo) in
  let* ns := normalsOf vs tris in
  Ok (mkMLO (mScale mlo) vs tris ns).
