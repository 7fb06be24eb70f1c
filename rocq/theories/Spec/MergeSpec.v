(** Specification of the merging of regions. *)
From Coq Require Import ZArith List Bool Relations.
From Verif.Base Require Import Res GoNum.
From Verif.Model Require Import Heightfield Dirs Compact.
From Verif.Spec Require Import HeightfieldSpec CompactSpec ErodeSpec RegionSpec.
Import ListNotations.
Open Scope Z_scope.

(** Every span has no region (0), a border region, or one of the regions 1..maxID; the spans
    of one of these are connected and of the same area. *)
Definition regions_ok (chf : CompactHeightfield) (src : list Z) (maxID : Z) : Prop :=
  zlen src = chf_spanCount chf /\ 0 <= maxID < 32768 /\
  (forall i r, get src i = Ok r -> 0 <= r <= maxID \/ 32768 <= r < 65536) /\
  (forall i j r, get src i = Ok r -> get src j = Ok r -> r <> 0 -> ~ border_reg r -> region_path chf src i j).

(** No region has two spans in one cell. *)
Definition no_overlaps (chf : CompactHeightfield) (src : list Z) : Prop :=
  forall x y i j r, span_at chf x y i -> span_at chf x y j -> get src i = Ok r -> get src j = Ok r ->
    r <> 0 -> ~ border_reg r -> i = j.

(** There is a connection from the first span to the second. *)
Definition connected_to (chf : CompactHeightfield) (i j : Z) : Prop :=
  exists x y d x' y', span_at chf x y i /\ (d < 4)%nat /\ linked chf d x y i x' y' j.

(** A set of regions without connections to or from spans of other regions or the border. *)
Definition separate (chf : CompactHeightfield) (src : list Z) (maxID : Z) (G : Z -> bool) : Prop :=
  (forall r, G r = true -> 1 <= r <= maxID) /\
  (forall i j r q, connected_to chf i j -> get src i = Ok r -> get src j = Ok q -> r <> 0 -> q <> 0 -> G r = G q).

(** The new region of a span: regions are renamed by [f], border regions stay. *)
Definition renamed (f : Z -> Z) (r : Z) : Z := if 32768 <=? r then r else f r.
