(** Specification of the compact heightfield. *)
From Coq Require Import ZArith List Bool.
From Verif.Base Require Import Res GoNum.
From Verif.Model Require Import Heightfield Compact.
From Verif.Spec Require Import HeightfieldSpec.
Import ListNotations.
Open Scope Z_scope.

(** Number of walkable spans of a column. *)
Definition walkables (col : column) : Z := zlen (filter (fun s => negb (sarea s =? 0)) col).

(** Number of walkable spans among the first [i] spans. *)
Definition rank (col : column) (i : nat) : Z := walkables (firstn i col).

Definition cell_at (chf : CompactHeightfield) (x y : Z) : res CompactCell :=
  get (chf_cells chf) (x + y * chf_w chf).

(** The agent can step between two compact spans: common clearance of at least [wh] and
    floors at most [climb] apart. *)
Definition steppable (wh climb : Z) (a b : CompactSpan) : Prop :=
  Z.min (csY a + csH a) (csY b + csH b) - Z.max (csY a) (csY b) >= wh /\ Z.abs (csY a - csY b) <= climb.
