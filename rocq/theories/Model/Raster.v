(** recast/rasterization.go: rasterization of triangles into a heightfield. *)
From Coq Require Import ZArith List Bool.
From Verif.Base Require Import Res GoNum F32 Num Grid.
From Verif.Model Require Import Heightfield Compact.
Import ListNotations.
Open Scope Z_scope.

(** ** dividePoly. The four polygon buffers of rasterizeTri are slices of one array that all
    extend to its end; so a buffer is an offset [o] in the array [mem], as in the code a write
    beyond the own part of a buffer lands in the next one, and only a write beyond the
    end of the array fails. *)
Section Divide.
Context {T : Type} (N : Num T).

(** [copy(dst, mem[src:src+3])] where [dst] is the rest of the array from [dst] on: panics if a
    slice expression is out of range, otherwise copies as many of the three as fit. *)
Definition copy3 (mem : list T) (dst src : Z) : res (list T) :=
  if zlen mem <? dst then Panic
  else
    let* a := get mem src in
    let* b := get mem (src + 1) in
    let* c := get mem (src + 2) in
    let put := fun m o v => if o <? zlen mem then set m o v else Ok m in
    let* m := put mem dst a in
    let* m := put m (dst + 1) b in
    put m (dst + 2) c.

(** One coordinate of the new vertex, recast/rasterization.go:304-306. *)
Definition lerp1 (mem : list T) (src j i : Z) (s : T) (k : Z) : res T :=
  let* a := get mem (src + j * 3 + k) in
  let* b := get mem (src + i * 3 + k) in
  Ok (nadd N a (nmul N (nsub N b a) s)).

(** The body of the loop, recast/rasterization.go:298-331. State: array, number of vertices in
    out1 and out2. *)
Definition divStep (src o1 o2 : Z) (d : list T) (st : list T * Z * Z) (i j : Z) : res (list T * Z * Z) :=
  let '(mem, m, n) := st in
  let zero := nZ N 0 in
  let* dj := get d j in
  let* di := get d i in
  let ina := nle N zero dj in
  let inb := nle N zero di in
  if negb (Bool.eqb ina inb) then
    let s := ndiv N dj (nsub N dj di) in
    let* x := lerp1 mem src j i s 0 in
    let* mem := set mem (o1 + m * 3) x in
    let* y := lerp1 mem src j i s 1 in
    let* mem := set mem (o1 + m * 3 + 1) y in
    let* z := lerp1 mem src j i s 2 in
    let* mem := set mem (o1 + m * 3 + 2) z in
    let* mem := copy3 mem (o2 + n * 3) (o1 + m * 3) in
    let m := m + 1 in
    let n := n + 1 in
    if nlt N zero di then
      let* mem := copy3 mem (o1 + m * 3) (src + i * 3) in
      Ok (mem, m + 1, n)
    else if nlt N di zero then
      let* mem := copy3 mem (o2 + n * 3) (src + i * 3) in
      Ok (mem, m, n + 1)
    else Ok (mem, m, n)
  else if inb then
    let* mem := copy3 mem (o1 + m * 3) (src + i * 3) in
    let m := m + 1 in
    if negb (nle N di zero) then Ok (mem, m, n)
    else
      let* mem := copy3 mem (o2 + n * 3) (src + i * 3) in
      Ok (mem, m, n + 1)
  else
    let* mem := copy3 mem (o2 + n * 3) (src + i * 3) in
    Ok (mem, m, n + 1).

(** The loop over i with j one behind. *)
Fixpoint divLoop (src o1 o2 : Z) (d : list T) (st : list T * Z * Z) (is : list Z) (j : Z) : res (list T * Z * Z) :=
  match is with
  | [] => Ok st
  | i :: is =>
      let* st := divStep src o1 o2 d st i j in
      divLoop src o1 o2 d st is i
  end.

(** dividePoly, recast/rasterization.go:281-334. The array d has 12 places. The numbers of
    vertices are small, so their int32 arithmetic is not wrapped. *)
Definition dividePoly (mem : list T) (src nin o1 o2 : Z) (x : T) (axis : Z) : res (list T * Z * Z) :=
  let* d := foldM (fun d i =>
      if 12 <=? i then Panic
      else
        let* v := get mem (src + i * 3 + axis) in
        Ok (d ++ [nsub N x v])) (zseq (Z.to_nat nin)) [] in
  divLoop src o1 o2 d (mem, 0, 0) (zseq (Z.to_nat nin)) (nin - 1).
End Divide.

(** ** rasterizeTri *)
Definition vec3 : Type := f32 * f32 * f32.
Definition c0 (v : vec3) : f32 := fst (fst v).
Definition c1 (v : vec3) : f32 := snd (fst v).
Definition c2 (v : vec3) : f32 := snd v.
(** d3.Vec3Min, d3.Vec3Max (external), component-wise. *)
Definition vmin (a b : vec3) : vec3 := (fminf (c0 a) (c0 b), fminf (c1 a) (c1 b), fminf (c2 a) (c2 b)).
Definition vmax (a b : vec3) : vec3 := (fmaxf (c0 a) (c0 b), fmaxf (c1 a) (c1 b), fmaxf (c2 a) (c2 b)).

(** overlapBounds, recast/rasterization.go:257-268. *)
Definition overlapBounds (amin amax bmin bmax : vec3) : bool :=
  if fgt (c0 amin) (c0 bmax) || flt (c0 amax) (c0 bmin) then false
  else if fgt (c1 amin) (c1 bmax) || flt (c1 amax) (c1 bmin) then false
  else if fgt (c2 amin) (c2 bmax) || flt (c2 amax) (c2 bmin) then false
  else true.

(** int32(math32.Ceil(a)): smallest integer above. *)
Definition f_ceil_i32 (a : f32) : Z :=
  match f_trunc a with
  | Some z =>
      let z := if flt (f_of_Z z) a then z + 1 else z in
      if (-2147483648 <=? z) && (z <? 2147483648) then z else -2147483648
  | None => -2147483648
  end.

(** The integers from a to b. *)
Definition range (a b : Z) : list Z := map (fun i => a + i) (zseq (Z.to_nat (b - a + 1))).

(** Minimum and maximum over the vertices of a buffer of the coordinate [k], by the two
    comparison functions. recast/rasterization.go:183-190 and 210-214. *)
Definition bounds (mem : list f32) (o n k : Z) (lo hi : f32 -> f32 -> f32) : res (f32 * f32) :=
  let* v := get mem (o + k) in
  foldM (fun mM i =>
    let* w := get mem (o + i * 3 + k) in
    Ok (lo (fst mM) w, hi (snd mM) w)) (range 1 (n - 1)) (v, v).

(** Snapping to the height grid, recast/rasterization.go:231-232. *)
Definition snapMin (s ich : f32) : Z := u16 (int32Clamp (f_floor_i32 (fmul s ich)) 0 MAX_HEIGHT).
Definition snapMax (s ich : f32) (ismin : Z) : Z := u16 (int32Clamp (f_ceil_i32 (fmul s ich)) (u16 (ismin + 1)) MAX_HEIGHT).

(** The span of one cell from the clipped polygon (n vertices at offset o).
    recast/rasterization.go:205-237. *)
Definition cellSpan (hf : Heightfield) (mem : list f32) (o n x y area thr : Z) (bmin1 by_ ich : f32) : res Heightfield :=
  if n <? 3 then Ok hf
  else
    let* mM := bounds mem o n 1 fminf fmaxf in
    let smin := fsub (fst mM) bmin1 in
    let smax := fsub (snd mM) bmin1 in
    if flt smax f0 then Ok hf
    else if fgt smin by_ then Ok hf
    else
      let smin := if flt smin f0 then f0 else smin in
      let smax := if fgt smax by_ then by_ else smax in
      let ismin := snapMin smin ich in
      let ismax := snapMax smax ich ismin in
      addSpan hf x y ismin ismax area thr.

(** The cells of a row. State: array, heightfield, vertices left, offsets of inrow and p2.
    recast/rasterization.go:197-239. *)
Definition rasterCell (y area thr p1 : Z) (bmin : vec3) (by_ cs ich : f32)
  (st : list f32 * Heightfield * Z * Z * Z) (x : Z) : res (list f32 * Heightfield * Z * Z * Z) :=
  let '(mem, hf, nv2, inrow, p2) := st in
  let cx := fadd (c0 bmin) (fmul (f_of_Z x) cs) in
  let* r := dividePoly numF mem inrow nv2 p1 p2 (fadd cx cs) 0 in
  let '(mem, nv, nv2) := r in
  let* hf := cellSpan hf mem p1 nv x y area thr (c1 bmin) by_ ich in
  Ok (mem, hf, nv2, p2, inrow).

(** One row. State: array, heightfield, vertices left, offsets of in, inrow, p1, p2.
    recast/rasterization.go:173-240. *)
Definition rasterRow (area thr : Z) (bmin : vec3) (by_ cs ics ich : f32)
  (st : list f32 * Heightfield * Z * (Z * Z * Z * Z)) (y : Z) : res (list f32 * Heightfield * Z * (Z * Z * Z * Z)) :=
  let '(mem, hf, nvIn, (oin, inrow, p1, p2)) := st in
  let cz := fadd (c2 bmin) (fmul (f_of_Z y) cs) in
  let* r := dividePoly numF mem oin nvIn inrow p1 (fadd cz cs) 2 in
  let '(mem, nvrow, nvIn) := r in
  let '(oin, p1) := (p1, oin) in
  if nvrow <? 3 then Ok (mem, hf, nvIn, (oin, inrow, p1, p2))
  else
    let* mM := bounds mem inrow nvrow 0 (fun m v => if fgt m v then v else m) (fun m v => if flt m v then v else m) in
    let x0 := int32Clamp (f_to_i32 (fmul (fsub (fst mM) (c0 bmin)) ics)) 0 (i32 (hf_w hf - 1)) in
    let x1 := int32Clamp (f_to_i32 (fmul (fsub (snd mM) (c0 bmin)) ics)) 0 (i32 (hf_w hf - 1)) in
    let* r := foldM (rasterCell y area thr p1 bmin by_ cs ich) (range x0 x1) (mem, hf, nvrow, inrow, p2) in
    let '(mem, hf, _, inrow, p2) := r in
    Ok (mem, hf, nvIn, (oin, inrow, p1, p2)).

(** rasterizeTri, recast/rasterization.go:130-246. addSpan cannot fail, so the result is always
    true. *)
Definition rasterizeTri (v0 v1 v2 : vec3) (area : Z) (hf : Heightfield) (bmin bmax : vec3) (cs ics ich : f32) (thr : Z) : res Heightfield :=
  let by_ := fsub (c1 bmax) (c1 bmin) in
  let tmin := vmin (vmin v0 v1) v2 in
  let tmax := vmax (vmax v0 v1) v2 in
  if negb (overlapBounds bmin bmax tmin tmax) then Ok hf
  else
    let y0 := int32Clamp (f_to_i32 (fmul (fsub (c2 tmin) (c2 bmin)) ics)) 0 (i32 (hf_h hf - 1)) in
    let y1 := int32Clamp (f_to_i32 (fmul (fsub (c2 tmax) (c2 bmin)) ics)) 0 (i32 (hf_h hf - 1)) in
    let mem := [c0 v0; c1 v0; c2 v0; c0 v1; c1 v1; c2 v1; c0 v2; c1 v2; c2 v2] ++ repeat f0 75 in
    let* r := foldM (rasterRow area thr bmin by_ cs ics ich) (range y0 y1) (mem, hf, 3, (0, 21, 42, 63)) in
    let '(_, hf, _, _) := r in
    Ok hf.

(** The cell sizes and bounds of the heightfield (the other fields of the struct Heightfield,
    recast/heightfield.go:34-44). *)
Record Frame := mkFrame { fBMin : vec3; fBMax : vec3; fCs : f32; fCh : f32 }.

(** RasterizeTriangle, recast/rasterization.go:24-41 (timers and messages left out). *)
Definition RasterizeTriangle (v0 v1 v2 : vec3) (area : Z) (fr : Frame) (hf : Heightfield) (thr : Z) : res Heightfield :=
  rasterizeTri v0 v1 v2 area hf (fBMin fr) (fBMax fr) (fCs fr) (fdiv f1 (fCs fr)) (fdiv f1 (fCh fr)) thr.

Definition get3 (verts : list f32) (o : Z) : res vec3 :=
  let* a := get verts o in
  let* b := get verts (o + 1) in
  let* c := get verts (o + 2) in
  Ok (a, b, c).

(** RasterizeTriangles, recast/rasterization.go:61-86; a vertex that is not completely in the
    array fails when it is first used. *)
Definition RasterizeTriangles (verts : list f32) (tris areas : list Z) (nt : Z) (fr : Frame) (hf : Heightfield) (thr : Z) : res Heightfield :=
  foldM (fun hf i =>
    let* t0 := get tris (i32 (i32 (i * 3) + 0)) in
    let* v0 := get3 verts (i32 (t0 * 3)) in
    let* t1 := get tris (i32 (i32 (i * 3) + 1)) in
    let* v1 := get3 verts (i32 (t1 * 3)) in
    let* t2 := get tris (i32 (i32 (i * 3) + 2)) in
    let* v2 := get3 verts (i32 (t2 * 3)) in
    let* area := get areas i in
    RasterizeTriangle v0 v1 v2 area fr hf thr) (zseq (Z.to_nat nt)) hf.

(** RasterizeTriangles2, recast/rasterization.go:104-128: three vertices per triangle, in order. *)
Definition RasterizeTriangles2 (verts : list f32) (areas : list Z) (nt : Z) (fr : Frame) (hf : Heightfield) (thr : Z) : res Heightfield :=
  foldM (fun hf i =>
    let* v0 := get3 verts (i32 (i32 (i32 (i * 3) + 0) * 3)) in
    let* v1 := get3 verts (i32 (i32 (i32 (i * 3) + 1) * 3)) in
    let* v2 := get3 verts (i32 (i32 (i32 (i * 3) + 2) * 3)) in
    let* area := get areas i in
    RasterizeTriangle v0 v1 v2 area fr hf thr) (zseq (Z.to_nat nt)) hf.
