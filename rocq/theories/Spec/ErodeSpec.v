(** Specification of the erosion of compact heightfields. *)
From Coq Require Import ZArith List Bool.
From Verif.Base Require Import Res GoNum.
From Verif.Model Require Import Heightfield Dirs Compact.
From Verif.Spec Require Import HeightfieldSpec CompactSpec.
Import ListNotations.
Open Scope Z_scope.

(** Span [i] is one of the spans of the cell (x, y) of the grid. *)
Definition span_at (chf : CompactHeightfield) (x y i : Z) : Prop :=
  0 <= x < chf_w chf /\ 0 <= y < chf_h chf /\
  exists c, cell_at chf x y = Ok c /\ cIndex c <= i < cIndex c + cCount c.

(** The span [i] of (x, y) is connected in direction [d] to the span [j] of (x', y'). *)
Definition linked (chf : CompactHeightfield) (d : nat) (x y i x' y' j : Z) : Prop :=
  (x', y') = (x + fst (dir_step d), y + snd (dir_step d)) /\
  exists s c, get (chf_spans chf) i = Ok s /\ GetCon (csCon s) (Z.of_nat d) <> 63 /\
    cell_at chf x' y' = Ok c /\ j = cIndex c + GetCon (csCon s) (Z.of_nat d).

(** Every span belongs to exactly one cell of the grid, and connections lead to spans of the
    neighbouring cell. *)
Record chf_wf (chf : CompactHeightfield) : Prop := {
  ok_w : 0 <= chf_w chf; ok_h : 0 <= chf_h chf;
  ok_cells : zlen (chf_cells chf) = chf_w chf * chf_h chf;
  ok_spans : zlen (chf_spans chf) = chf_spanCount chf;
  ok_areas : zlen (chf_areas chf) = chf_spanCount chf;
  ok_at : forall x y i, span_at chf x y i -> 0 <= i < chf_spanCount chf;
  ok_cover : forall i, 0 <= i < chf_spanCount chf -> exists x y, span_at chf x y i;
  ok_unique : forall x y x' y' i, span_at chf x y i -> span_at chf x' y' i -> x = x' /\ y = y';
  ok_link : forall x y i d s, span_at chf x y i -> (d < 4)%nat -> get (chf_spans chf) i = Ok s ->
    GetCon (csCon s) (Z.of_nat d) <> 63 -> exists x' y' j, linked chf d x y i x' y' j /\ span_at chf x' y' j }.

(** A span is on the border if it is not walkable or lacks a walkable neighbour. *)
Definition border (chf : CompactHeightfield) (x y i : Z) : Prop :=
  get (chf_areas chf) i = Ok 0 \/
  exists d, (d < 4)%nat /\ ~ exists x' y' j a, linked chf d x y i x' y' j /\ get (chf_areas chf) j = Ok a /\ a <> 0.

(** [reach steps i n]: from a border span one gets to the span [i] of (x, y) at the cost [n],
    where moving over a connection costs 2 and moving diagonally over two costs 3. [D] are
    the directions (seen from the span to the one it is reached from), [DE] the diagonals,
    [B] the starting points with their costs. *)
Inductive reach (chf : CompactHeightfield) (B : Z -> Z -> Z -> Z -> Prop) (D : list nat) (DE : list (nat * nat)) : Z -> Z -> Z -> Z -> Prop :=
| reach_start : forall x y i n, B x y i n -> reach chf B D DE x y i n
| reach_straight : forall x y i d x' y' j n, span_at chf x y i -> In d D -> linked chf d x y i x' y' j ->
    reach chf B D DE x' y' j n -> reach chf B D DE x y i (n + 2)
| reach_diagonal : forall x y i d e x' y' j x'' y'' k n, span_at chf x y i -> In (d, e) DE -> linked chf d x y i x' y' j ->
    linked chf e x' y' j x'' y'' k -> reach chf B D DE x'' y'' k n -> reach chf B D DE x y i (n + 3).

(** Border spans at cost 0. *)
Definition at_border (chf : CompactHeightfield) (x y i n : Z) : Prop := span_at chf x y i /\ border chf x y i /\ n = 0.
(** By moves to the right and down, and diagonally down. *)
Definition reach_down (chf : CompactHeightfield) : Z -> Z -> Z -> Z -> Prop :=
  reach chf (at_border chf) [0; 3]%nat [(0, 3); (3, 2)]%nat.
(** First such moves, then the opposite ones. *)
Definition reach_both (chf : CompactHeightfield) : Z -> Z -> Z -> Z -> Prop :=
  reach chf (reach_down chf) [2; 1]%nat [(2, 1); (1, 0)]%nat.
(** By moves in any order. *)
Definition reach_any (chf : CompactHeightfield) : Z -> Z -> Z -> Z -> Prop :=
  reach chf (at_border chf) [0; 1; 2; 3]%nat [(0, 3); (3, 2); (2, 1); (1, 0)]%nat.
