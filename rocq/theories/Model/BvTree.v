(** Construction of the bounding volume tree of a tile, [detour/navmeshcreate.go]. *)
From Coq Require Import ZArith List Bool.
From Verif.Base Require Import Res GoNum F32 Num Grid.
From Verif.Model Require Import MeshTypes Geom MeshLinks.
Import ListNotations.
Open Scope Z_scope.

(** detour/navmeshcreate.go:14-17, type bvItem; coordinates are uint16. *)
Record bvItem := mkItem {
  iMin : Z * Z * Z;
  iMax : Z * Z * Z;
  iI : Z
}.
Definition c0 (p : Z * Z * Z) : Z := let '(x, _, _) := p in x.
Definition c1 (p : Z * Z * Z) : Z := let '(_, y, _) := p in y.
Definition c2 (p : Z * Z * Z) : Z := let '(_, _, z) := p in z.

(** detour/navmeshcreate.go:29-49: one step of the loop of calcExtends. *)
Definition ext_step (b : (Z * Z * Z) * (Z * Z * Z)) (it : bvItem) : (Z * Z * Z) * (Z * Z * Z) :=
  let '(mn, mx) := b in
  ((if c0 (iMin it) <? c0 mn then c0 (iMin it) else c0 mn,
    if c1 (iMin it) <? c1 mn then c1 (iMin it) else c1 mn,
    if c2 (iMin it) <? c2 mn then c2 (iMin it) else c2 mn),
   (if c0 (iMax it) >? c0 mx then c0 (iMax it) else c0 mx,
    if c1 (iMax it) >? c1 mx then c1 (iMax it) else c1 mx,
    if c2 (iMax it) >? c2 mx then c2 (iMax it) else c2 mx)).
(** detour/navmeshcreate.go:19-50 calcExtends: (bmin, bmax) of items[imin..imax). *)
Definition calcExtends (items : list bvItem) (imin imax : Z) : res ((Z * Z * Z) * (Z * Z * Z)) :=
  let* it := get items imin in
  foldM (fun b k => let* it := get items (imin + 1 + k) in Ok (ext_step b it))
        (zseq (Z.to_nat (imax - imin - 1))) (iMin it, iMax it).

(** detour/navmeshcreate.go:52-63 *)
Definition longestAxis (x y z : Z) : Z :=
  let '(axis, maxVal) := if y >? x then (1, y) else (0, x) in
  if z >? maxVal then 2 else axis.

(** detour/navmeshcreate.go:98-232: the three less functions; [lexlt] is the chain of
    "if a < b return true; if a > b return false". *)
Fixpoint lexlt (l : list (Z * Z)) : bool :=
  match l with
  | [] => false
  | (a, b) :: l' => if a <? b then true else if a >? b then false else lexlt l'
  end.
Definition less_axis (axis : Z) (a b : bvItem) : bool :=
  let mins := if axis =? 0 then [c0; c1; c2] else if axis =? 1 then [c1; c2; c0] else [c2; c0; c1] in
  lexlt (map (fun c => (c (iMin a), c (iMin b))) mins ++ map (fun c => (c (iMax a), c (iMax b))) [c0; c1; c2]).

Section Sort.
(** sort.Slice (standard library): some rearrangement of the slice; the theorems assume of it
    that it permutes. It is a parameter of the model. *)
Variable sort : (bvItem -> bvItem -> bool) -> list bvItem -> list bvItem.

(** sorting items[a:b] in place *)
Definition sort_range (less : bvItem -> bvItem -> bool) (items : list bvItem) (a b : Z) : res (list bvItem) :=
  let* mid := slice items a b in
  Ok (firstn (Z.to_nat a) items ++ sort less mid ++ skipn (Z.to_nat b) items).

(** detour/navmeshcreate.go:65-248 subdivide: the items array, *curNode and the nodes array
    after the call. nodes[*curNode] is written before and after the recursion as in the code. *)
Fixpoint subdivide (fuel : nat) (items : list bvItem) (imin imax cur : Z) (nodes : list BvNode)
  : res (list bvItem * Z * list BvNode) :=
  match fuel with
  | O => NoFuel
  | S f =>
      let inum := i32 (imax - imin) in
      let icur := cur in
      let* node := get nodes cur in
      let cur := i32 (cur + 1) in
      if inum =? 1 then
        let* it := get items imin in
        let* nodes := set nodes icur (mkBv (iMin it) (iMax it) (iI it)) in
        Ok (items, cur, nodes)
      else
        let* (mn, mx) := calcExtends items imin imax in
        let* nodes := set nodes icur (mkBv mn mx (bI node)) in
        let axis := longestAxis (u16 (c0 mx - c0 mn)) (u16 (c1 mx - c1 mn)) (u16 (c2 mx - c2 mn)) in
        let* items := sort_range (less_axis axis) items imin (imin + inum) in
        let isplit := imin + Z.quot inum 2 in
        let* (items, cur, nodes) := subdivide f items imin isplit cur nodes in
        let* (items, cur, nodes) := subdivide f items isplit imax cur nodes in
        let* nodes := set nodes icur (mkBv mn mx (i32 (- i32 (cur - icur)))) in
        Ok (items, cur, nodes)
  end.
End Sort.

(** detour/navmeshcreate.go:250-258 *)
Definition int32Clamp (a low high : Z) : Z := if a <? low then low else if a >? high then high else a.

(** detour/navmeshcreate.go:284-293: the quantized box of a range of detail vertices. *)
Definition quant_item (v org qf : f32) : Z := u16 (int32Clamp (f_to_i32 (fmul (fsub v org) qf)) 0 65535).
Definition quant_box (bmin bmax org : fvec) (qf : f32) (i : Z) : bvItem :=
  mkItem (quant_item (vx bmin) (vx org) qf, quant_item (vy bmin) (vy org) qf, quant_item (vz bmin) (vz org) qf)
         (quant_item (vx bmax) (vx org) qf, quant_item (vy bmax) (vy org) qf, quant_item (vz bmax) (vz org) qf) i.
(** detour/navmeshcreate.go:263-295 with detail meshes: the item of polygon i. DetailMeshes and
    DetailVerts as in NavMeshCreateParams ([]int32 and []float32). A negative or too large vertex
    base panics. *)
Definition bv_item (dmeshes : list Z) (dverts : list f32) (org : fvec) (qf : f32) (i : Z) : res bvItem :=
  let* vb := get dmeshes (i * 4) in
  let* ndv := get dmeshes (i * 4 + 1) in
  let at3 k := let* x := get dverts (vb * 3 + k) in let* y := get dverts (vb * 3 + k + 1) in
               let* z := get dverts (vb * 3 + k + 2) in Ok (x, y, z) in
  let* v := at3 0 in
  let* (mn, mx) :=
    foldM (fun '(mn, mx) j => let* v := at3 ((j + 1) * 3) in Ok (vmin2 mn v, vmax2 mx v))
          (zseq (Z.to_nat (ndv - 1))) (v, v) in
  Ok (quant_box mn mx org qf i).
Definition zeroBv : BvNode := mkBv (0, 0, 0) (0, 0, 0) 0.
(** detour/navmeshcreate.go:260-339 createBVTree: the nodes array afterwards and the count. The
    branch without detail meshes is panic("UNTESTED"). *)
Definition createBVTree sort (polyCount : Z) (dmeshes : list Z) (dverts : list f32) (org : fvec) (cs : f32) (nodes : list BvNode)
  : res (list BvNode * Z) :=
  let qf := fdiv f1 cs in
  match dmeshes with
  | [] => if polyCount <=? 0 then (let* (_, cur, nodes) := subdivide sort 1 [] 0 polyCount 0 nodes in Ok (nodes, cur)) else Panic
  | _ =>
      let* items := foldM (fun acc i => let* it := bv_item dmeshes dverts org qf i in Ok (acc ++ [it])) (zseq (Z.to_nat polyCount)) [] in
      let* (_, cur, nodes) := subdivide sort (S (length items)) items 0 polyCount 0 nodes in
      Ok (nodes, cur)
  end.
