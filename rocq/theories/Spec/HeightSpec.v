(** Heights of the cells around a polygon. *)
From Coq Require Import ZArith List Bool Relations.
From Verif.Base Require Import Res GoNum.
From Verif.Model Require Import Heightfield Dirs Compact HeightSearch.
From Verif.Spec Require Import HeightfieldSpec CompactSpec ErodeSpec.
Import ListNotations.
Open Scope Z_scope.

(** The cell (x, y) belongs to the patch. *)
Definition in_patch (hp : HeightPatch) (x y : Z) : Prop :=
  hpXmin hp <= x < hpXmin hp + hpWidth hp /\ hpYmin hp <= y < hpYmin hp + hpHeight hp.
(** The value stored for it. *)
Definition stored (hp : HeightPatch) (data : list Z) (x y : Z) : Z :=
  nth (Z.to_nat ((x - hpXmin hp) + (y - hpYmin hp) * hpWidth hp)) data 0.

(** The patch lies in the field, whose coordinates are larger by [bs], and has a place for each cell;
    and no height of the field is the mark for an unset one. *)
Record patch_ok (chf : CompactHeightfield) (bs : Z) (hp : HeightPatch) : Prop := {
  po_w : 0 <= hpWidth hp; po_h : 0 <= hpHeight hp;
  po_x : 0 <= hpXmin hp + bs /\ hpXmin hp + hpWidth hp + bs <= chf_w chf;
  po_y : 0 <= hpYmin hp + bs /\ hpYmin hp + hpHeight hp + bs <= chf_h chf;
  po_data : hpWidth hp * hpHeight hp <= zlen (hpData hp);
  po_unset : forall i s, get (chf_spans chf) i = Ok s -> 0 <= csY s < 65535 }.

(** One step over a connection, inside the patch. *)
Definition hop (chf : CompactHeightfield) (bs : Z) (hp : HeightPatch) (p q : Z * Z * Z) : Prop :=
  let '(x, y, i) := p in let '(x', y', j) := q in
  in_patch hp x' y' /\ exists d, (d < 4)%nat /\ linked chf d (x + bs) (y + bs) i (x' + bs) (y' + bs) j.

(** [data] holds the heights of the patch, spread from the seeds: [own] gives the span of each cell
    that got a height. *)
Record heights (chf : CompactHeightfield) (bs : Z) (hp : HeightPatch) (seed : Z * Z * Z -> Prop)
    (own : Z -> Z -> option Z) (data : list Z) : Prop := {
  (* the value is the height of that span of the cell, or 65535 *)
  h_value : forall x y, in_patch hp x y -> match own x y with
    | Some i => span_at chf (x + bs) (y + bs) i /\ exists s, get (chf_spans chf) i = Ok s /\ stored hp data x y = csY s
    | None => stored hp data x y = 65535 end;
  (* seeds keep their span *)
  h_seed : forall x y i, seed (x, y, i) -> in_patch hp x y /\ own x y = Some i;
  (* where the surface goes on inside the patch, there is a height *)
  h_closed : forall x y i x' y' j, in_patch hp x y -> own x y = Some i -> hop chf bs hp (x, y, i) (x', y', j) -> own x' y' <> None;
  (* every height was reached from a seed over connections of the spans that gave heights *)
  h_reached : forall x y i, in_patch hp x y -> own x y = Some i -> exists p, seed p /\
    clos_refl_trans _ (fun p q => hop chf bs hp p q /\ in_patch hp (fst (fst p)) (snd (fst p)) /\
      own (fst (fst p)) (snd (fst p)) = Some (snd p) /\ own (fst (fst q)) (snd (fst q)) = Some (snd q)) p (x, y, i);
  h_length : zlen data = zlen (hpData hp);
  h_rest : forall k, hpWidth hp * hpHeight hp <= k -> nth (Z.to_nat k) data 0 = nth (Z.to_nat k) (hpData hp) 0 }.

(** The lowest span of the cell that is in the region. *)
Definition lowest (chf : CompactHeightfield) (bs : Z) (hp : HeightPatch) (r : Z) (p : Z * Z * Z) : Prop :=
  let '(x, y, i) := p in
  in_patch hp x y /\ span_at chf (x + bs) (y + bs) i /\ (exists s, get (chf_spans chf) i = Ok s /\ csReg s = r) /\
  forall j s, span_at chf (x + bs) (y + bs) j -> j < i -> get (chf_spans chf) j = Ok s -> csReg s <> r.

(** The polygon [poly] is given by numbers of vertices, of three 16-bit coordinates each. *)
Record poly_ok (poly verts : list Z) : Prop := {
  py_count : zlen poly <= 32767;
  py_verts : forall p, In p poly -> 0 <= p <= 21844 /\ 3 * p + 3 <= zlen verts;
  py_u16 : forall p k, In p poly -> 0 <= k <= 2 -> 0 <= nth (Z.to_nat (3 * p + k)) verts 0 < 65536 }.
(** The sum and the mean of a coordinate of the vertices. *)
Definition total (poly verts : list Z) (k : Z) : Z := fold_right Z.add 0 (map (fun p => nth (Z.to_nat (3 * p + k)) verts 0) poly).
Definition mean (poly verts : list Z) (k : Z) : Z := total poly verts k / zlen poly.

(** Span [i] of the cell (x, y) of the patch, which is the cell of a vertex of the polygon or next to
    it, straight or diagonally; [d] is its distance in height from the vertex. *)
Definition near (chf : CompactHeightfield) (poly verts : list Z) (bs : Z) (hp : HeightPatch) (x y i d : Z) : Prop :=
  exists p vx vy vz s, In p poly /\ get verts (3 * p) = Ok vx /\ get verts (3 * p + 1) = Ok vy /\ get verts (3 * p + 2) = Ok vz /\
    Z.abs (x - vx) <= 1 /\ Z.abs (y - vz) <= 1 /\ in_patch hp x y /\ span_at chf (x + bs) (y + bs) i /\
    get (chf_spans chf) i = Ok s /\ d = Z.abs (vy - csY s).

(** The seed in place of a region: reached from a span near a vertex, closest to it in height.  It is
    in the cell (cx, cy), unless a set of spans with a connection out of none of its cells (inside the
    patch) leaves that cell out. *)
Definition central (chf : CompactHeightfield) (poly verts : list Z) (bs : Z) (hp : HeightPatch) (cx cy : Z) (q : Z * Z * Z) : Prop :=
  exists x y i d, near chf poly verts bs hp x y i d /\ d < 65535 /\
    (forall x' y' i' d', near chf poly verts bs hp x' y' i' d' -> d <= d') /\
    clos_refl_trans _ (hop chf bs hp) (x, y, i) q /\
    (fst q = (cx, cy) \/
     exists V : Z * Z * Z -> Prop, V (x, y, i) /\ V q /\
       (forall p, V p -> clos_refl_trans _ (hop chf bs hp) (x, y, i) p) /\
       (forall p p', V p -> hop chf bs hp p p' -> exists p'', V p'' /\ fst p'' = fst p') /\
       (forall p, V p -> fst p <> (cx, cy))).
