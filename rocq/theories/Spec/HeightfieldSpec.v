(** Specification of heightfield columns as sets of solid voxels, and of the filters
    as pointwise predicates on the original field. *)
From Coq Require Import ZArith List Bool Sorted.
From Verif.Base Require Import Res GoNum Grid.
From Verif.Model Require Import Heightfield.
Import ListNotations.
Open Scope Z_scope.

(** Voxel [v] of the column is solid. Spans are half-open intervals [smin, smax). *)
Definition solid (col : column) (v : Z) : Prop :=
  exists s, In s col /\ smin s <= v < smax s.

(** Bottom-up, non-empty spans, at least one free voxel between two of them. *)
Definition wf_column (col : column) : Prop :=
  Forall (fun s => smin s < smax s) col /\
  StronglySorted (fun a b => smax a < smin b) col.

Definition extents (col : column) : list (Z * Z) := map (fun s => (smin s, smax s)) col.

(** One insertion. *)
Record Ins := mkIns { iX : Z; iY : Z; iMn : Z; iMx : Z; iArea : Z; iThr : Z }.

Definition valid_ins (w h : Z) (o : Ins) : Prop :=
  0 <= iX o < w /\ 0 <= iY o < h /\ 0 <= iMn o < iMx o /\ iMx o <= 65535 /\ 0 <= iArea o < 256.

Definition run_ins (hf : Heightfield) (ops : list Ins) : res Heightfield :=
  foldM (fun hf o => addSpan hf (iX o) (iY o) (iMn o) (iMx o) (iArea o) (iThr o)) ops hf.

(** A heightfield whose grid has the declared size. *)
Definition hf_shape (hf : Heightfield) : Prop :=
  0 <= hf_w hf /\ 0 <= hf_h hf /\ hf_w hf * hf_h hf < 2147483648 /\
  zlen (hf_spans hf) = hf_w hf * hf_h hf.

(** The column at [(x, y)]; empty outside the grid. *)
Definition col_at (hf : Heightfield) (x y : Z) : column :=
  if (0 <=? x) && (x <? hf_w hf) && (0 <=? y) && (y <? hf_h hf)
  then nth (Z.to_nat (x + y * hf_w hf)) (hf_spans hf) [] else [].

Definition in_grid (hf : Heightfield) (x y : Z) : Prop := 0 <= x < hf_w hf /\ 0 <= y < hf_h hf.

Definition heights_ok (hf : Heightfield) : Prop :=
  forall x y s, In s (col_at hf x y) -> 0 <= smin s /\ smin s <= 65535 /\ 0 <= smax s <= 65535.

(** The 4 directions. *)
Definition dir_step (d : nat) : Z * Z :=
  match d with 0%nat => (-1, 0) | 1%nat => (0, 1) | 2%nat => (1, 0) | _ => (0, -1) end.

(** Clearance above the [i]-th span of a column ends at the next span, or at 65535. *)
Definition ceiling (col : column) (i : nat) : Z :=
  match nth_error col (S i) with Some n => smin n | None => 65535 end.

(** Free intervals (floor, ceiling) above the spans of a column. *)
Definition gap (col : column) (floor ceil : Z) : Prop :=
  exists i s, nth_error col i = Some s /\ floor = smax s /\ ceil = ceiling col i.

(** An agent of height [wh] can move between the two free intervals: their overlap is
    more than [wh]. *)
Definition passable (wh f1 c1 f2 c2 : Z) : Prop := Z.min c1 c2 - Z.max f1 f2 > wh.

(** [f] is the floor of a passable neighbour within climbing distance of [bot]. *)
Definition accessible (wh climb : Z) (hf : Heightfield) (x y bot top f : Z) : Prop :=
  exists d ceil, (d < 4)%nat /\
    in_grid hf (x + fst (dir_step d)) (y + snd (dir_step d)) /\
    gap (col_at hf (x + fst (dir_step d)) (y + snd (dir_step d))) f ceil /\
    passable wh bot top f ceil /\ Z.abs (f - bot) <= climb.

(** Drop: the neighbour in some direction is outside the grid and the span is above
    the bottom; or the space below the neighbour's first span (which reaches down to
    [-climb]) is passable and the span is above the bottom; or a passable neighbour floor
    is more than [climb] below. *)
Definition drop (wh climb : Z) (hf : Heightfield) (x y bot top : Z) : Prop :=
  exists d, (d < 4)%nat /\
    let nx := x + fst (dir_step d) in
    let ny := y + snd (dir_step d) in
    (~ in_grid hf nx ny /\ bot > 0) \/
    (in_grid hf nx ny /\ bot > 0 /\
       passable wh bot top (- climb) (match col_at hf nx ny with s :: _ => smin s | [] => 65535 end)) \/
    (in_grid hf nx ny /\ exists f ceil, gap (col_at hf nx ny) f ceil /\ passable wh bot top f ceil /\ bot - f > climb).

(** Steep: two of the accessible floors (counting the span itself) differ by more than [climb]. *)
Definition steep (wh climb : Z) (hf : Heightfield) (x y bot top : Z) : Prop :=
  exists f1 f2,
    (f1 = bot \/ accessible wh climb hf x y bot top f1) /\
    (f2 = bot \/ accessible wh climb hf x y bot top f2) /\
    f1 - f2 > climb.

Definition is_ledge (wh climb : Z) (hf : Heightfield) (x y : Z) (i : nat) (s : Span) : Prop :=
  drop wh climb hf x y (smax s) (ceiling (col_at hf x y) i) \/
  steep wh climb hf x y (smax s) (ceiling (col_at hf x y) i).
