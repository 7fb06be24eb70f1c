(** Specifications for the building of the polygon mesh. *)
From Coq Require Import ZArith List Bool Permutation.
From Verif.Model Require Import Contour BuildMesh.
From Verif.Spec Require Import AreaSpec MeshOpsSpec.
Import ListNotations.
Open Scope Z_scope.

(** The directed edges of a closed polygon. *)
Definition borders (l : list Z) : list (Z * Z) :=
  map (fun i => (cyc l (Z.of_nat i), cyc l (Z.of_nat i + 1))) (seq 0 (length l)).

(** Consecutive pairs of an open chain. *)
Definition steps (l : list Z) : list (Z * Z) := combine l (tl l).

(** The points of a contour, with coordinates cut to 16 bits. *)
Definition point (v : Vert) : vert := (vX v mod 65536, vY v mod 65536, vZ v mod 65536).
Definition points (c : Contour) : list vert := map point (ctVerts c).
(** Contours of fewer than three vertices are skipped. *)
Definition null (c : Contour) : bool := (length (ctVerts c) <? 3)%nat.
(** The number of vertices of the contours that are not skipped. *)
Definition total (cs : list Contour) : Z :=
  sum (map (fun c => if null c then 0 else Z.of_nat (length (ctVerts c))) cs).
(** The number of triangles their polygons are made of. *)
Definition tris (cs : list Contour) : Z :=
  sum (map (fun c => if null c then 0 else Z.of_nat (length (ctVerts c)) - 2) cs).
(** No vertex is marked for removal. *)
Definition unmarked (c : Contour) : Prop := Forall (fun v => Z.land (vR v) 65536 = 0) (ctVerts c).

Definition corners (t : Z * Z * Z) : list Z := let '(a, b, c) := t in [a; b; c].
(** Position of vertex [i] of [V] on the xz-plane. *)
Definition pos_in (V : list vert) (i : Z) : Z * Z := let '(x, _, z) := nth (Z.to_nat i) V (0, 0, 0) in (x, z).
Definition small (V : list vert) : Prop :=
  Forall (fun p => let '(x, y, z) := p in 0 <= x <= 32767 /\ 0 <= y <= 32767 /\ 0 <= z <= 32767) V.

(** Two polygons can be merged: they have one edge in common, of positive length and in opposite
    directions, the result has at most [nvp] vertices, and it turns left at both ends of the edge. *)
Definition turn (a b c : Z * Z) : Prop := (fst b - fst a) * (snd c - snd a) - (fst c - fst a) * (snd b - snd a) < 0.
Definition joinable (nvp : Z) (pos : Z -> Z * Z) (la lb : list Z) : Prop :=
  Z.of_nat (length la) + Z.of_nat (length lb) - 2 <= nvp /\
  exists ea eb, 0 <= ea < Z.of_nat (length la) /\ 0 <= eb < Z.of_nat (length lb) /\
    cyc la ea = cyc lb (eb + 1) /\ cyc la (ea + 1) = cyc lb eb /\
    (forall i j, 0 <= i < Z.of_nat (length la) -> 0 <= j < Z.of_nat (length lb) ->
      (cyc la i = cyc lb j /\ cyc la (i + 1) = cyc lb (j + 1)) \/ (cyc la i = cyc lb (j + 1) /\ cyc la (i + 1) = cyc lb j) ->
      i = ea /\ j = eb) /\
    pos (cyc la ea) <> pos (cyc la (ea + 1)) /\
    turn (pos (cyc la (ea - 1))) (pos (cyc la ea)) (pos (cyc lb (eb + 2))) /\
    turn (pos (cyc lb (eb - 1))) (pos (cyc lb eb)) (pos (cyc la (ea + 2))).
(** The polygons [G] fill the contour with the vertex numbers [ids]. Corners [ts] are cut off the
    contour, until a triangle is left and cut off, too, or with a rest [left] of more than three
    vertices. The polygons have between 3 and [nvp] vertices, all of the contour. If the vertex
    numbers of the contour are distinct: no directed edge occurs twice in the polygons; their
    vertices are those of the corners; their areas and that of the rest add up to the area of the
    contour, wherever the vertices are; and if all triangles turn left then so do the polygons
    (for coordinates below 2^15). No two of the polygons can be merged any more. *)
Definition filled (nvp : Z) (V : list vert) (ids : list Z) (G : list (list Z)) : Prop :=
  exists ts left,
    ((left = [] /\ triangulation ids ts) \/ (3 < length left /\ cuts ids ts left)%nat) /\
    (length G <= length ts)%nat /\ (ts <> [] -> G <> []) /\
    Forall (fun l => 3 <= Z.of_nat (length l) <= nvp /\ incl l ids) G /\
    (3 < nvp -> small V -> forall i j la lb, i <> j -> nth_error G i = Some la -> nth_error G j = Some lb -> ~ joinable nvp (pos_in V) la lb) /\
    (NoDup ids ->
      NoDup (flat_map borders G) /\
      (forall v, In v (concat G) <-> In v (flat_map corners ts)) /\
      (forall pos : Z -> Z * Z, sum (map (fun l => area (map pos l)) G) + area (map pos left) = area (map pos ids)) /\
      (small V -> Forall (fun t => turns_left (pos_in V) (corners t)) ts -> Forall (turns_left (pos_in V)) G)).

(** [built nvp V cs Q V']: the contours [cs], added to the vertices [V], give the vertices [V']
    (by welding, see C54) and the polygons [Q], with region and area of their contour. *)
Inductive built (nvp : Z) : list vert -> list Contour -> list (list Z * (Z * Z)) -> list vert -> Prop :=
| built_nil V : built nvp V [] [] V
| built_null V c cs Q V' : null c = true -> built nvp V cs Q V' -> built nvp V (c :: cs) Q V'
| built_cons V c cs ids V1 G Q V' : null c = false -> welded V (points c) = (ids, V1) ->
    filled nvp V1 (map Z.of_nat ids) G -> built nvp V1 cs Q V' ->
    built nvp V (c :: cs) (map (fun l => (l, (ctReg c, ctArea c))) G ++ Q) V'.

(** * Neighbours and portals *)
(** Place of vertex [j] of polygon [i] in the table, and of the neighbour over edge [j]. *)
Definition vslot (nvp i j : Z) : Z := i * nvp * 2 + j.
Definition nslot (nvp i j : Z) : Z := i * nvp * 2 + (nvp + j).
(** A point on side [s] of a field of [w] times [h] cells. *)
Definition on_side (w h s : Z) (p : Z * Z) : Prop :=
  match s with 0 => fst p = 0 | 1 => snd p = h | 2 => fst p = w | _ => snd p = 0 end.
(** The edge from [a] to [b] lies on side [s], and on none before. *)
Definition lies_on (w h s : Z) (a b : Z * Z) : Prop :=
  0 <= s <= 3 /\ on_side w h s a /\ on_side w h s b /\
  forall s', 0 <= s' < s -> ~ (on_side w h s' a /\ on_side w h s' b).

(** [t] is the table of the polygons [P] over the vertices [V]: their vertices, padded with 65535;
    for every edge the number of another polygon that has the same edge in the opposite
    direction and names this one there, or (if there is a border) 32768 + s for a side [s] it
    lies on, or 65535. Edges on a side have no 65535 then. An edge that one polygon has in one
    direction and one in the other (none has it twice, and no polygon an edge in both
    directions) connects them. *)
Definition connected (nvp borderSize w h : Z) (V : list vert) (P : list (list Z)) (t : list Z) : Prop :=
  (forall i l j, nth_error P i = Some l -> 0 <= j < nvp ->
     nth_error t (Z.to_nat (vslot nvp (Z.of_nat i) j)) = Some (if j <? Z.of_nat (length l) then cyc l j else 65535)) /\
  (forall i j, 0 <= i < Z.of_nat (length P) -> 0 <= j < nvp -> exists k, nth_error t (Z.to_nat (nslot nvp i j)) = Some k /\
     (k = 65535 \/
      (exists j' a b, goes P i j a b /\ goes P k j' b a /\ k <> i /\ nth_error t (Z.to_nat (nslot nvp k j')) = Some i) \/
      (0 < borderSize /\ exists s a b, k = 32768 + s /\ goes P i j a b /\ lies_on w h s (pos_in V a) (pos_in V b)))) /\
  (0 < borderSize -> forall i j a b s, goes P i j a b -> lies_on w h s (pos_in V a) (pos_in V b) ->
     nth_error t (Z.to_nat (nslot nvp i j)) <> Some 65535) /\
  ((forall i j j' a b, goes P i j a b -> goes P i j' b a -> a = b) ->
   forall i j k j' a b, goes P i j a b -> goes P k j' b a -> a <> b ->
   (forall i' j', goes P i' j' a b -> i' = i /\ j' = j) -> (forall i' j'', goes P i' j'' b a -> i' = k /\ j'' = j') ->
   nth_error t (Z.to_nat (nslot nvp i j)) = Some k /\ nth_error t (Z.to_nat (nslot nvp k j')) = Some i).

(** A finished mesh with room for [cap] vertices holds the vertices [V] and the polygons [Q], each
    with region and area. *)
Definition holdsMesh (cap : Z) (nvp borderSize w h : Z) (V : list vert) (Q : list (list Z * (Z * Z))) (m : PolyMesh) : Prop :=
  mNVerts m = Z.of_nat (length V) /\ length (mVerts m) = Z.to_nat (3 * cap) /\ firstn (3 * length V) (mVerts m) = flatten V /\
  mNPolys m = Z.of_nat (length Q) /\ mRegs m = map (fun q => fst (snd q)) Q /\ mAreas m = map (fun q => snd (snd q)) Q /\
  connected nvp borderSize w h V (map fst Q) (mPolys m).

(** * Removing a vertex *)
Definition uses (rem : Z) (e : Z * Z) : bool := (fst e =? rem) || (snd e =? rem).
(** The other ends of the edges at [rem]. *)
Definition far_ends (rem : Z) (l : list Z) : list Z :=
  map (fun e => if fst e =? rem then snd e else fst e) (filter (uses rem) (borders l)).
(** The edges not at [rem]. *)
Definition rim (rem : Z) (l : list Z) : list (Z * Z) := filter (fun e => negb (uses rem e)) (borders l).
(** Edges that would remain: for a polygon that uses [rem] once, all but two. *)
Definition remaining (rem : Z) (P : list (list Z)) : Z :=
  sum (map (fun l => let c := Z.of_nat (count_occ Z.eq_dec l rem) in
                     if c =? 0 then 0 else Z.of_nat (length l) - (c + 1)) P).
(** Vertices to which exactly one edge leads from [rem], in any direction. *)
Definition open_ends (rem : Z) (P : list (list Z)) : list Z :=
  let E := flat_map (far_ends rem) P in
  filter (fun b => (count_occ Z.eq_dec E b =? 1)%nat) (nodup Z.eq_dec E).

(** Vertex numbers once vertex [rem] is gone. *)
Definition low (rem v : Z) : Z := if rem <? v then v - 1 else v.
Definition renumbered (rem : Z) (q : list Z * (Z * Z)) : list Z * (Z * Z) := (map (low rem) (fst q), snd q).
Definition without {A} (rem : Z) (V : list A) : list A := firstn (Z.to_nat rem) V ++ skipn (S (Z.to_nat rem)) V.
(** The edges around the hole, in new numbers. *)
Definition hole_edges (rem : Z) (R : list (list Z)) : list (Z * Z) :=
  map (fun e => (low rem (fst e), low rem (snd e))) (flat_map (rim rem) R).
(** A walk along edges of [E], each used once, that no edge left over extends at either end. *)
Definition longest_walk (E : list (Z * Z)) (hole : list Z) : Prop :=
  exists rest, Permutation E (steps hole ++ rest) /\ (E = [] -> hole = []) /\ (E <> [] -> (2 <= length hole)%nat) /\
    Forall (fun e => snd e <> hd 0 hole /\ fst e <> last hole 0) rest.
(** [m] holds the vertices [V], with room for [cap], and the polygons [Q]. *)
Definition holdsPM (nvp cap : Z) (V : list vert) (Q : list (list Z * (Z * Z))) (m : PMesh) : Prop :=
  pmNVerts m = Z.of_nat (length V) /\ length (pmVerts m) = Z.to_nat (3 * cap) /\ firstn (3 * length V) (pmVerts m) = flatten V /\
  pmPolys m = map (fun q => (fst q ++ repeat 65535 (Z.to_nat nvp - length (fst q)), snd q)) Q.
(** Polygons of 3 to [nvp] out of [nv] vertices; regions of 16 and areas of 8 bits. *)
Definition proper (nvp nv : Z) (q : list Z * (Z * Z)) : Prop :=
  3 <= Z.of_nat (length (fst q)) <= nvp /\ Forall (fun v => 0 <= v < nv) (fst q) /\
  0 <= fst (snd q) <= 65535 /\ 0 <= snd (snd q) <= 255.
(** The polygons [R] use [rem], the polygons [K] do not, and [hole] is left by [R]. *)
Definition torn (rem : Z) (Q R K : list (list Z * (Z * Z))) (hole : list Z) : Prop :=
  Permutation Q (R ++ K) /\ Forall (fun q => In rem (fst q)) R /\ Forall (fun q => ~ In rem (fst q)) K /\
  longest_walk (hole_edges rem (map fst R)) hole.
(** Vertex [v] (in new numbers), not the one removed, is one of a polygon of [R] with region and area [x]. *)
Definition touches (rem : Z) (R : list (list Z * (Z * Z))) (v : Z) (x : Z * Z) : Prop :=
  exists q u, In q R /\ snd q = x /\ In u (fst q) /\ u <> rem /\ v = low rem u.
(** The polygons [K] stay; new ones fill the hole, as far as there is room for [maxT]. They have
    an area of [R]. Their region is 0, or all their vertices are of
    polygons of [R] with that region; if [R] is of one region and area, it is that one. *)
Definition patched (nvp maxT rem : Z) (V' : list vert) (R K : list (list Z * (Z * Z))) (hole : list Z) (Q' : list (list Z * (Z * Z))) : Prop :=
  exists N,
    Q' = map (renumbered rem) K ++ firstn (Z.to_nat (maxT - Z.of_nat (length K))) N /\
    (hole = [] -> N = []) /\ (hole <> [] -> filled nvp V' hole (map fst N)) /\
    Forall (fun n => In (snd (snd n)) (map (fun q => snd (snd q)) R) /\
                     (fst (snd n) = 0 \/ forall v, In v (fst n) -> exists ar, touches rem R v (fst (snd n), ar))) N /\
    (forall x, Forall (fun q => snd q = x) R -> Forall (fun q => snd q = x) N).

(** The numbers, after welding, of the vertices marked for removal. *)
Definition marked_in (vs : list Vert) (ids : list nat) : list nat :=
  map snd (filter (fun p => negb (Z.land (vR (fst p)) 65536 =? 0)) (combine vs ids)).
Fixpoint marked_ids (V : list vert) (cs : list Contour) : list nat :=
  match cs with
  | [] => []
  | c :: cs => if null c then marked_ids V cs
               else let '(ids, V1) := welded V (points c) in marked_in (ctVerts c) ids ++ marked_ids V1 cs
  end.
(** [trimmed nvp maxT i V F Q V' Q']: from vertex [i] on, those with a mark in [F] that pass the
    test of canRemoveVertex (C72_can) are removed; the next one then has the same number. *)
Definition removable (rem : Z) (P : list (list Z)) : Prop := 2 < remaining rem P /\ (length (open_ends rem P) <= 2)%nat.
Inductive trimmed (nvp maxT : Z) : nat -> list vert -> list bool -> list (list Z * (Z * Z)) -> list vert -> list bool -> list (list Z * (Z * Z)) -> nat -> Prop :=
| trimmed_stop i V F Q : trimmed nvp maxT i V F Q V F Q i
| trimmed_keep i V F Q V' F' Q' j : nth_error F i = Some false \/ (nth_error F i = Some true /\ ~ removable (Z.of_nat i) (map fst Q)) ->
    trimmed nvp maxT (S i) V F Q V' F' Q' j -> trimmed nvp maxT i V F Q V' F' Q' j
| trimmed_drop i V F Q R K hole Q1 V' F' Q' j : nth_error F i = Some true -> removable (Z.of_nat i) (map fst Q) ->
    torn (Z.of_nat i) Q R K hole -> patched nvp maxT (Z.of_nat i) (without (Z.of_nat i) V) R K hole Q1 ->
    trimmed nvp maxT i (without (Z.of_nat i) V) (without (Z.of_nat i) F) Q1 V' F' Q' j -> trimmed nvp maxT i V F Q V' F' Q' j.

(** The marks of the [n] vertices of the mesh built from [cs]. *)
Definition marks (cs : list Contour) (n : nat) : list bool := map (fun k => existsb (Nat.eqb k) (marked_ids [] cs)) (seq 0 n).
(** Regions of 16 and areas of 8 bits. *)
Definition typed (c : Contour) : Prop := 0 <= ctReg c <= 65535 /\ 0 <= ctArea c <= 255.
