(** recast/heightfield.go: BuildCompactHeightfield. *)
From Coq Require Import ZArith List Bool.
From Verif.Base Require Import Res GoNum Grid.
From Verif.Model Require Import Heightfield Dirs.
Import ListNotations.
Open Scope Z_scope.

(** recast/heightfield.go:194-197 *)
Record CompactCell := mkCell { cIndex : Z; cCount : Z }.
(** recast/heightfield.go:201-206 *)
Record CompactSpan := mkCSpan { csY : Z; csReg : Z; csCon : Z; csH : Z }.
(** recast/heightfield.go:210-227. World bounds, cell sizes, BorderSize, MaxDistance,
    MaxRegions and Dist are not kept: BuildCompactHeightfield copies or zeroes them. *)
Record CompactHeightfield := mkCHF {
  chf_w : Z; chf_h : Z; chf_spanCount : Z; chf_wh : Z; chf_climb : Z;
  chf_cells : list CompactCell; chf_spans : list CompactSpan; chf_areas : list Z }.

(** recast/rasterization.go:270-278 *)
Definition int32Clamp (a low high : Z) : Z :=
  if a <? low then low else if a >? high then high else a.

(** recast/heightfield.go:309-325: one column. State: spans, areas, idx; the cell's Count. *)
Fixpoint compactCol (col : column) (st : list CompactSpan * list Z * Z) (count : Z)
    : res (list CompactSpan * list Z * Z * Z) :=
  match col with
  | [] => Ok (st, count)
  | s :: next =>
      if negb (sarea s =? nullArea) then
        let '(spans, areas, idx) := st in
        let bot := smax s in
        let top := match next with n :: _ => smin n | [] => MAX_HEIGHT end in
        let* old := get spans idx in
        let* spans := set spans idx
          (mkCSpan (u16 (int32Clamp bot 0 65535)) (csReg old) (csCon old) (u8 (int32Clamp (top - bot) 0 255))) in
        let* areas := set areas idx (sarea s) in
        compactCol next (spans, areas, u32 (idx + 1)) (u8 (count + 1))
      else compactCol next st count
  end.

(** recast/heightfield.go:297-327: cells and spans of all columns. *)
Definition compactFill (hf : Heightfield)
    (st : list CompactCell * (list CompactSpan * list Z * Z)) : res (list CompactCell * (list CompactSpan * list Z * Z)) :=
  sweep (hf_w hf) (hf_h hf) (fun st x y =>
    let '(cells, sai) := st in
    let ci := cidx (hf_w hf) x y in
    let* col := get (hf_spans hf) ci in
    match col with
    | [] => Ok st
    | _ =>
        let idx := snd sai in
        let* r := compactCol col sai 0 in
        let '(sai, count) := r in
        let* cells := set cells ci (mkCell idx count) in
        Ok (cells, sai)
    end) st.

(** recast/heightfield.go:352-369: the first span [k] of the neighbour cell, from [k] on,
    that is accessible; [lidx > 62] is skipped. Result: the connection to set. *)
Definition MAX_LAYERS : Z := notConnected - 1.
Fixpoint findNeighbour (spans : list CompactSpan) (wh climb : Z) (sY sH : Z) (base : Z) (ks : list Z) : res (option Z) :=
  match ks with
  | [] => Ok None
  | k :: ks =>
      let* ns := get spans k in
      let bot := iMax sY (csY ns) in
      let top := iMin (sY + sH) (csY ns + csH ns) in
      if (top - bot >=? wh) && (iAbs (csY ns - sY) <=? climb) then
        let lidx := k - base in
        if (lidx <? 0) || (lidx >? MAX_LAYERS) then findNeighbour spans wh climb sY sH base ks
        else Ok (Some lidx)
      else findNeighbour spans wh climb sY sH base ks
  end.

(** Indices [a, a+n) visited by [for k := a; k < a+n; k++]. *)
Definition krange (a n : Z) : list Z := map (fun i => a + i) (zseq (Z.to_nat n)).

(** recast/heightfield.go:339-371: the connections of span [i] of cell [(x, y)]; writes
    the [Con] word of span [i] only. *)
Definition connectDir (chf : CompactHeightfield) (x y i : Z) (spans : list CompactSpan) (dir : Z)
    : res (list CompactSpan) :=
  let* s := get spans i in
  let s := mkCSpan (csY s) (csReg s) (SetCon (csCon s) dir notConnected) (csH s) in
  let* spans := set spans i s in
  let* ox := GetDirOffsetX dir in
  let* oy := GetDirOffsetY dir in
  let nx := x + ox in
  let ny := y + oy in
  if (nx <? 0) || (ny <? 0) || (nx >=? chf_w chf) || (ny >=? chf_h chf) then Ok spans
  else
    let* nc := get (chf_cells chf) (cidx (chf_w chf) nx ny) in
    let* o := findNeighbour spans (chf_wh chf) (chf_climb chf) (csY s) (csH s) (cIndex nc)
                (krange (cIndex nc) (cCount nc)) in
    match o with
    | Some lidx => set spans i (mkCSpan (csY s) (csReg s) (SetCon (csCon s) dir lidx) (csH s))
    | None => Ok spans
    end.

(** recast/heightfield.go:329-374 *)
Definition compactConnect (chf : CompactHeightfield) : res (list CompactSpan) :=
  sweep (chf_w chf) (chf_h chf) (fun spans x y =>
    let* c := get (chf_cells chf) (cidx (chf_w chf) x y) in
    foldM (fun spans i => foldM (connectDir chf x y i) [0; 1; 2; 3] spans)
      (krange (cIndex c) (cCount c)) spans) (chf_spans chf).

(** recast/heightfield.go:266-382. The result is always true; the build context (timers,
    the "too many layers" message) is not modelled. *)
Definition BuildCompactHeightfield (wh climb : Z) (hf : Heightfield) : res CompactHeightfield :=
  let w := hf_w hf in
  let h := hf_h hf in
  let* n := GetHeightFieldSpanCount hf in
  let* r := compactFill hf (repeat (mkCell 0 0) (Z.to_nat (w * h)),
      (repeat (mkCSpan 0 0 0 0) (Z.to_nat n), repeat nullArea (Z.to_nat n), 0)) in
  let '(cells, (spans, areas, _)) := r in
  let chf := mkCHF w h n wh climb cells spans areas in
  let* spans := compactConnect chf in
  Ok (mkCHF w h n wh climb cells spans areas).
