(** Specification side of polygon links: what the link slots of a tile contain, seen as one
    free list and one list of links per polygon. *)
From Coq Require Import ZArith List.
From Verif.Base Require Import Res GoNum.
From Verif.Model Require Import Poly MeshTypes.
Import ListNotations.
Open Scope Z_scope.

(** What a link says, apart from its place in a list: reference, edge, side, limits. *)
Definition payload : Type := Z * Z * Z * Z * Z.
Definition pay (l : Link) : payload := (lRef l, lEdge l, lSide l, lBMin l, lBMax l).
Definition pay_ref (p : payload) : Z := let '(r, _, _, _, _) := p in r.

(** Following Next from slot [s] one meets the slots and payloads [c], then slot [e]. *)
Inductive LSeg (links : list Link) : Z -> list (Z * payload) -> Z -> Prop :=
| LSeg_nil : forall s, LSeg links s [] s
| LSeg_cons : forall s l c e, s <> nullLink -> get links s = Ok l -> LSeg links (lNext l) c e ->
    LSeg links s ((s, pay l) :: c) e.
(** A list ends in nullLink. *)
Definition LChain (links : list Link) (s : Z) (c : list (Z * payload)) : Prop := LSeg links s c nullLink.

Definition slots (c : list (Z * payload)) : list Z := map fst c.

(** The link slots of the tile are partitioned into the free list [fl] and the lists [cs] of
    the polygons. *)
Definition LinkView (t : MeshTile) (fl : list (Z * payload)) (cs : list (list (Z * payload))) : Prop :=
  LChain (tdLinks (tD t)) (tLinksFree t) fl /\
  Forall2 (fun p c => LChain (tdLinks (tD t)) (pFirstLink p) c) (tdPolys (tD t)) cs /\
  NoDup (slots fl ++ slots (concat cs)) /\
  (forall i, 0 <= i < zlen (tdLinks (tD t)) -> In i (slots fl ++ slots (concat cs))) /\
  zlen (tdLinks (tD t)) < nullLink.
Definition LinkInv (t : MeshTile) : Prop := exists fl cs, LinkView t fl cs.

(** The links of one polygon. *)
Definition PolyLinks (t : MeshTile) (ip : Z) (ls : list payload) : Prop :=
  exists p c, get (tdPolys (tD t)) ip = Ok p /\ LChain (tdLinks (tD t)) (pFirstLink p) c /\ map snd c = ls.
