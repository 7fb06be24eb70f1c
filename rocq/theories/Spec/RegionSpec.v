(** Specification of regions of compact heightfields. *)
From Coq Require Import ZArith List Bool Relations.
From Verif.Base Require Import Res GoNum.
From Verif.Model Require Import Heightfield Dirs Compact.
From Verif.Spec Require Import HeightfieldSpec CompactSpec ErodeSpec.
Import ListNotations.
Open Scope Z_scope.

(** The cell (x, y) is not in the border of [bs] cells around the grid. *)
Definition interior (chf : CompactHeightfield) (bs x y : Z) : Prop :=
  bs <= x < chf_w chf - bs /\ bs <= y < chf_h chf - bs.
Definition walkable (chf : CompactHeightfield) (i : Z) : Prop := exists a, get (chf_areas chf) i = Ok a /\ a <> 0.
(** The flag of border regions. *)
Definition border_reg (r : Z) : Prop := 32768 <= r.

(** A span that begins a run of its row: a walkable span inside the border that is not connected
    in direction 0 (-x) to a span of the same area inside the border. *)
Definition run_start (chf : CompactHeightfield) (bs x y i : Z) : Prop :=
  span_at chf x y i /\ interior chf bs x y /\ walkable chf i /\
  ~ exists x' y' j, linked chf 0 x y i x' y' j /\ bs <= x' /\ get (chf_areas chf) j = get (chf_areas chf) i.

(** At most [n] numbers have the property. *)
Definition at_most (n : Z) (P : Z -> Prop) : Prop := forall l, NoDup l -> (forall i, In i l -> P i) -> zlen l <= n.

(** Two spans with a connection from the first to the second, of the same area and in the
    same region. *)
Definition region_step (chf : CompactHeightfield) (src : list Z) (i j : Z) : Prop :=
  get (chf_areas chf) i = get (chf_areas chf) j /\ get src i = get src j /\
  exists x y d x' y', span_at chf x y i /\ (d < 4)%nat /\ linked chf d x y i x' y' j.
(** One can get from one span to the other over connections inside a region and an area. *)
Definition region_path (chf : CompactHeightfield) (src : list Z) : Z -> Z -> Prop :=
  clos_refl_sym_trans Z (region_step chf src).

(** Connections in direction 0 are answered by connections in direction 2. *)
Definition mutual_x (chf : CompactHeightfield) : Prop := forall x y i x' y' j,
  span_at chf x y i -> linked chf 0 x y i x' y' j -> linked chf 2 x' y' j x y i.

(** The border region of a walkable span of the border; later sides win. *)
Definition side_reg (chf : CompactHeightfield) (bs x y : Z) : Z :=
  32768 + (if chf_h chf - bs <=? y then 4 else if y <? bs then 3 else if chf_w chf - bs <=? x then 2 else 1).
