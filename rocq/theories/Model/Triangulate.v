(** recast/mesh.go: triangulation of a contour by ear clipping. *)
From Coq Require Import ZArith List Bool.
From Verif.Base Require Import Res GoNum Grid.
From Verif.Model Require Import ContourGeom.
Import ListNotations.
Open Scope Z_scope.

(** The mask and the flag of an index (recast/mesh.go:137, 210 ...). *)
Definition idxMask : Z := 268435455.       (* 0x0fffffff *)
Definition idxFlag : Z := 2147483648.      (* 0x80000000 *)
Definition masked (x : Z) : Z := Z.land x idxMask.

(** [verts[(indices[i]&0x0fffffff)*4:]]: its elements 0 and 2. In Go the slice expression and
    the reads are apart; here both panic together. *)
Definition vertAt (verts : list Z) (k : Z) : res pt :=
  let* x := get verts (k * 4) in
  let* z := get verts (k * 4 + 2) in
  Ok (x, z).
Definition ptAt (verts indices : list Z) (i : Z) : res pt :=
  let* k := get indices i in vertAt verts (masked k).

(** recast/mesh.go:136-150 *)
Definition inCone5 (i j n : Z) (verts indices : list Z) : res bool :=
  let* pi := ptAt verts indices i in
  let* pj := ptAt verts indices j in
  let* pi1 := ptAt verts indices (next i n) in
  let* pin1 := ptAt verts indices (prev i n) in
  Ok (if leftOn pin1 pi pi1 then left pi pj pin1 && left pj pi pi1
      else negb (leftOn pi pj pi1 && leftOn pj pi pin1)).
(** recast/mesh.go:181-196 *)
Definition inConeLoose (i j n : Z) (verts indices : list Z) : res bool :=
  let* pi := ptAt verts indices i in
  let* pj := ptAt verts indices j in
  let* pi1 := ptAt verts indices (next i n) in
  let* pin1 := ptAt verts indices (prev i n) in
  Ok (if leftOn pin1 pi pi1 then leftOn pi pj pin1 && leftOn pj pi pi1
      else negb (leftOn pi pj pi1 && leftOn pj pi pin1)).

(** recast/mesh.go:327-350 (with [intersect]) and 157-179 (with [intersectProp]). *)
Definition crossesEdge (hit : pt -> pt -> pt -> pt -> bool) (d0 d1 : pt) (i j n : Z) (verts indices : list Z) (k : Z)
    : res bool :=
  let k1 := next k n in
  if (k =? i) || (k1 =? i) || (k =? j) || (k1 =? j) then Ok false else
  let* p0 := ptAt verts indices k in
  let* p1 := ptAt verts indices k1 in
  if vequal d0 p0 || vequal d1 p0 || vequal d0 p1 || vequal d1 p1 then Ok false
  else Ok (hit d0 d1 p0 p1).
Fixpoint anyCross (hit : pt -> pt -> pt -> pt -> bool) (d0 d1 : pt) (i j n : Z) (verts indices : list Z) (ks : list Z)
    : res bool :=
  match ks with
  | [] => Ok false
  | k :: ks =>
      let* c := crossesEdge hit d0 d1 i j n verts indices k in
      if c then Ok true else anyCross hit d0 d1 i j n verts indices ks
  end.
Definition diagonalie_ (hit : pt -> pt -> pt -> pt -> bool) (i j n : Z) (verts indices : list Z) : res bool :=
  let* d0 := ptAt verts indices i in
  let* d1 := ptAt verts indices j in
  let* c := anyCross hit d0 d1 i j n verts indices (zseq (Z.to_nat n)) in
  Ok (negb c).
Definition diagonalie := diagonalie_ intersect.
Definition diagonalieLoose := diagonalie_ intersectProp.
(** recast/mesh.go:153-155 and 198-200 *)
Definition diagonal (i j n : Z) (verts indices : list Z) : res bool :=
  let* c := inCone5 i j n verts indices in
  if c then diagonalie i j n verts indices else Ok false.
Definition diagonalLoose (i j n : Z) (verts indices : list Z) : res bool :=
  let* c := inConeLoose i j n verts indices in
  if c then diagonalieLoose i j n verts indices else Ok false.

(** recast/mesh.go:206-213: flag the ears. *)
Definition setFlag (indices : list Z) (k : Z) : res (list Z) :=
  let* x := get indices k in set indices k (Z.lor x idxFlag).
Definition clearFlag (indices : list Z) (k : Z) : res (list Z) :=
  let* x := get indices k in set indices k (Z.land x idxMask).
Definition flagEars (n : Z) (verts indices : list Z) : res (list Z) :=
  foldM (fun indices i =>
    let i1 := next i n in
    let i2 := next i1 n in
    let* d := diagonal i i2 n verts indices in
    if d then setFlag indices i1 else Ok indices) (zseq (Z.to_nat n)) indices.

(** [dx*dx + dy*dy] in int32. *)
Definition len2 (p0 p2 : pt) : Z :=
  let dx := i32 (fst p2 - fst p0) in
  let dy := i32 (snd p2 - snd p0) in
  i32 (i32 (dx * dx) + i32 (dy * dy)).
Definition better (best : Z * Z) (l i : Z) : Z * Z :=
  if (fst best <? 0) || (l <? fst best) then (l, i) else best.

(** recast/mesh.go:216-233: the flagged ear with the shortest diagonal; (minLen, mini). *)
Definition shortestEar (n : Z) (verts indices : list Z) : res (Z * Z) :=
  foldM (fun best i =>
    let i1 := next i n in
    let* x := get indices i1 in
    if Z.land x idxFlag =? 0 then Ok best else
    let* p0 := ptAt verts indices i in
    let* p2 := ptAt verts indices (next i1 n) in
    Ok (better best (len2 p0 p2) i)) (zseq (Z.to_nat n)) (-1, -1).
(** recast/mesh.go:235-265: the same with the loose test (and the diagonal length measured to
    the vertex after the diagonal's end). *)
Definition shortestLoose (n : Z) (verts indices : list Z) : res (Z * Z) :=
  foldM (fun best i =>
    let i1 := next i n in
    let i2 := next i1 n in
    let* d := diagonalLoose i i2 n verts indices in
    if negb d then Ok best else
    let* p0 := ptAt verts indices i in
    let* p2 := ptAt verts indices (next i2 n) in
    Ok (better best (len2 p0 p2) i)) (zseq (Z.to_nat n)) (-1, -1).

(** recast/mesh.go:284-287 *)
Definition dropIndex (indices : list Z) (i1 n : Z) : res (list Z) :=
  foldM (fun indices k => let* x := get indices (k + 1) in set indices k x)
    (map (fun j => i1 + j) (zseq (Z.to_nat (n - i1)))) indices.

(** Writing the triangle number [ntris] into [tris], which has [cap] elements. *)
Definition emit (cap : Z) (out : list (Z * Z * Z)) (t : Z * Z * Z) : res (list (Z * Z * Z)) :=
  if 3 * zlen out + 3 <=? cap then Ok (out ++ [t]) else Panic.

(** recast/mesh.go:215-302: one iteration of the loop; [inl] is the early return. *)
Definition clipEar (cap n : Z) (verts indices : list Z) (out : list (Z * Z * Z))
    : res (list (Z * Z * Z) + list Z * list (Z * Z * Z)) :=
  let* best := shortestEar n verts indices in
  let* best := if snd best =? -1 then shortestLoose n verts indices else Ok best in
  let mini := snd best in
  if mini =? -1 then Ok (inl out) else
  let i := mini in
  let i1 := next i n in
  let i2 := next i1 n in
  let* a := get indices i in
  let* b := get indices i1 in
  let* c := get indices i2 in
  let* out := emit cap out (masked a, masked b, masked c) in
  let n := n - 1 in
  let* indices := dropIndex indices i1 n in
  let i1 := if i1 >=? n then 0 else i1 in
  let i := prev i1 n in
  let* d := diagonal (prev i n) i1 n verts indices in
  let* indices := if d then setFlag indices i else clearFlag indices i in
  let* d := diagonal i (next i1 n) n verts indices in
  let* indices := if d then setFlag indices i1 else clearFlag indices i1 in
  Ok (inr (indices, out)).

(** recast/mesh.go:215-309; [k] is n - 3. *)
Fixpoint clipLoop (k : nat) (cap : Z) (verts indices : list Z) (out : list (Z * Z * Z))
    : res (Z * list (Z * Z * Z)) :=
  match k with
  | S k' =>
      let* r := clipEar cap (Z.of_nat k + 3) verts indices out in
      match r with
      | inl out => Ok (- zlen out, out)
      | inr (indices, out) => clipLoop k' cap verts indices out
      end
  | O =>
      let* a := get indices 0 in
      let* b := get indices 1 in
      let* c := get indices 2 in
      let* out := emit cap out (masked a, masked b, masked c) in
      Ok (zlen out, out)
  end.

(** recast/mesh.go:202-310. [cap] is len(tris); the result is the count returned and the
    triangles written. *)
Definition triangulate (n : Z) (verts indices : list Z) (cap : Z) : res (Z * list (Z * Z * Z)) :=
  let* indices := flagEars n verts indices in
  clipLoop (Z.to_nat (n - 3)) cap verts indices [].
