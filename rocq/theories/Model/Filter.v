(** recast/filter.go: filters on the span heightfield. The filters change areas in
    place while they walk; the model passes the updated field from cell to cell. *)
From Coq Require Import ZArith List Bool.
From Verif.Base Require Import Res GoNum Grid.
From Verif.Model Require Import Heightfield Dirs.
Import ListNotations.
Open Scope Z_scope.

Definition setSpanArea (s : Span) (a : Z) : Span := mkSpan (smin s) (smax s) a.

(** recast/filter.go:33-51, one column. [ps] is the previous span (nil for the first),
    [pw] is previousWalkable and [pa] is previousArea. The nil [ps] is never
    dereferenced because previousWalkable is false then; the model shows the panic. *)
Fixpoint lowHangingCol (climb : Z) (ps : option Span) (pw : bool) (pa : Z) (col : column) : res column :=
  match col with
  | [] => Ok []
  | s :: rest =>
      let walkable := negb (sarea s =? nullArea) in
      let* s' :=
        if negb walkable && pw then
          match ps with
          | None => Panic
          | Some p => if iAbs (smax s - smax p) <=? climb then Ok (setSpanArea s pa) else Ok s
          end
        else Ok s in
      let* rest' := lowHangingCol climb (Some s') walkable (sarea s') rest in
      Ok (s' :: rest')
  end.

(** recast/filter.go:24-54 *)
Definition FilterLowHangingWalkableObstacles (climb : Z) (hf : Heightfield) : res Heightfield :=
  let* spans := sweep (hf_w hf) (hf_h hf) (fun spans x y =>
    let idx := cidx (hf_w hf) x y in
    let* col := get spans idx in
    let* col' := lowHangingCol climb None false nullArea col in
    set spans idx col') (hf_spans hf) in
  Ok (mkHF (hf_w hf) (hf_h hf) spans).

(** recast/filter.go:95-100, 122-126, 136-140: ceiling of the gap below [next]. *)
Definition ceilingOf (next : column) : Z :=
  match next with n :: _ => smin n | [] => MAX_HEIGHT end.

(** recast/filter.go:134-156: the spans of one neighbour column.
    State: (minh, asmin, asmax). *)
Fixpoint ledgeSpans (wh climb bot top : Z) (ns : column) (st : Z * Z * Z) : Z * Z * Z :=
  match ns with
  | [] => st
  | n :: rest =>
      let '(minh, asmin, asmax) := st in
      let nbot := smax n in
      let ntop := ceilingOf rest in
      let st' :=
        if iMin top ntop - iMax bot nbot >? wh then
          let minh := iMin minh (nbot - bot) in
          if iAbs (nbot - bot) <=? climb then
            let asmin := if nbot <? asmin then u16 nbot else asmin in
            let asmax := if nbot >? asmax then u16 nbot else asmax in
            (minh, asmin, asmax)
          else (minh, asmin, asmax)
        else st in
      ledgeSpans wh climb bot top rest st'
  end.

(** recast/filter.go:109-157, one direction. *)
Definition ledgeDir (wh climb : Z) (hf : Heightfield) (spans : list column) (x y bot top : Z)
    (st : Z * Z * Z) (dir : Z) : res (Z * Z * Z) :=
  let* ox := GetDirOffsetX dir in
  let* oy := GetDirOffsetY dir in
  let dx := x + ox in
  let dy := y + oy in
  let '(minh, asmin, asmax) := st in
  if (dx <? 0) || (dy <? 0) || (dx >=? hf_w hf) || (dy >=? hf_h hf) then
    Ok (iMin minh (i32 (i32 (- climb) - bot)), asmin, asmax)
  else
    let* ns := get spans (cidx (hf_w hf) dx dy) in
    let nbot := i32 (- climb) in
    let ntop := ceilingOf ns in
    let minh := if iMin top ntop - iMax bot nbot >? wh then iMin minh (i32 (nbot - bot)) else minh in
    Ok (ledgeSpans wh climb bot top ns (minh, asmin, asmax)).

(** recast/filter.go:88-168, the spans of one column; [above] is [s.next] and so on.
    Only the area of the current span is written, so the walk along the chain of the
    original column sees the extents that the code sees. *)
Fixpoint ledgeCol (wh climb : Z) (hf : Heightfield) (spans : list column) (x y : Z)
    (col : column) : res column :=
  match col with
  | [] => Ok []
  | s :: above =>
      let* s' :=
        if sarea s =? nullArea then Ok s
        else
          let bot := smax s in
          let top := ceilingOf above in
          let* st := foldM (ledgeDir wh climb hf spans x y bot top) [0; 1; 2; 3] (MAX_HEIGHT, smax s, smax s) in
          let '(minh, asmin, asmax) := st in
          if minh <? i32 (- climb) then Ok (setSpanArea s nullArea)
          else if u16 (asmax - asmin) >? climb then Ok (setSpanArea s nullArea)
          else Ok s in
      let* above' := ledgeCol wh climb hf spans x y above in
      Ok (s' :: above')
  end.

(** recast/filter.go:77-171 *)
Definition FilterLedgeSpans (wh climb : Z) (hf : Heightfield) : res Heightfield :=
  let* spans := sweep (hf_w hf) (hf_h hf) (fun spans x y =>
    let idx := cidx (hf_w hf) x y in
    let* col := get spans idx in
    let* col' := ledgeCol wh climb hf spans x y col in
    set spans idx col') (hf_spans hf) in
  Ok (mkHF (hf_w hf) (hf_h hf) spans).

(** recast/filter.go:199-210 *)
Fixpoint lowHeightCol (wh : Z) (col : column) : column :=
  match col with
  | [] => []
  | s :: above =>
      let bot := smax s in
      let top := ceilingOf above in
      (if top - bot <=? wh then setSpanArea s nullArea else s) :: lowHeightCol wh above
  end.

(** recast/filter.go:187-213 *)
Definition FilterWalkableLowHeightSpans (wh : Z) (hf : Heightfield) : res Heightfield :=
  let* spans := sweep (hf_w hf) (hf_h hf) (fun spans x y =>
    let idx := cidx (hf_w hf) x y in
    let* col := get spans idx in
    set spans idx (lowHeightCol wh col)) (hf_spans hf) in
  Ok (mkHF (hf_w hf) (hf_h hf) spans).
