(** Specification side of the sliced path search: sequences of calls and conditions on meshes. *)
From Coq Require Import ZArith List Bool.
From Verif.Base Require Import Res GoNum F32 Num.
From Verif.Model Require Import Status Poly PolyRef MeshTypes MeshLinks MeshTiles Node NodeQueue FindPath Raycast Sliced.
From Verif.Spec Require Import LinkSpec PathSpec.
Import ListNotations.
Open Scope Z_scope.

(** Calls of UpdateSlicedFindPath with the iteration limits [ks], one after the other. *)
Fixpoint updates (rfuel : nat) (m : NavMesh) (q : Query) (ks : list Z) : res Query :=
  match ks with
  | [] => Ok q
  | k :: ks => let* (q, _, _) := UpdateSlicedFindPath rfuel m q k in updates rfuel m q ks
  end.
Fixpoint total (ks : list Z) : Z := match ks with [] => 0 | k :: ks => k + total ks end.
(** At least one call, no negative limit. *)
Definition budgets (ks : list Z) : Prop := ks <> [] /\ Forall (fun k => 0 <= k) ks.

(** A whole search: start, updates, delivery; path buffer, count and status. *)
Definition sliced_run (fuel rfuel : nat) (m : NavMesh) (q : Query) (flt : QueryFilter) (startRef endRef : Z) (startPos endPos : fvec) (options : Z)
    (ks : list Z) (path : list Z) (maxPath : Z) : res (list Z * Z * Z) :=
  let* (q, _) := InitSlicedFindPath m q startRef endRef startPos endPos flt options in
  let* q := updates rfuel m q ks in
  let* (_, path, n, st) := FinalizeSlicedFindPath fuel rfuel m q path maxPath in
  Ok (path, n, st).

(** No three polygons that can be reached from one another by single links: x to y, y to z and
    x to z, where y and z pass the filter. *)
Definition no_triangle (m : NavMesh) (flt : QueryFilter) : Prop := forall x y z,
  linked m x y -> passes m flt y -> linked m y z -> passes m flt z -> linked m x z -> False.
(** The links of the loaded tiles stay inside of their tile (side 255) or cross its side 0 or 1. *)
Definition plain_sides (m : NavMesh) : Prop := forall i t h, nth_error (mTiles m) i = Some t -> tHeader t = Some h ->
  Forall (fun l => lSide l = 255 \/ lSide l = 0 \/ lSide l = 1) (tdLinks (tD t)).

(** What two hits share when one has other entries for normal, edge and number of polygons. *)
Definition same_ray (r r' : res (RaycastHit * Z)) : Prop :=
  match r, r' with
  | Ok (h, st), Ok (h', st') => st = st' /\ rT h = rT h' /\ rCost h = rCost h' /\ rPath h = rPath h'
  | Panic, Panic | Exit, Exit | NoFuel, NoFuel => True
  | _, _ => False
  end.
