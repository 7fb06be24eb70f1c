(** recast/heightfield.go: the span heightfield. *)
From Coq Require Import ZArith List Bool.
From Verif.Base Require Import Res GoNum Grid.
Import ListNotations.
Open Scope Z_scope.

(** recast/heightfield.go:18-23. The [next] pointer is the list structure of the column. *)
Record Span := mkSpan { smin : Z; smax : Z; sarea : Z }.

(** recast/constants.go:26 *)
Definition nullArea : Z := 0.
(** recast/heightfield.go:10, filter.go:83 and heightfield.go:295 *)
Definition MAX_HEIGHT : Z := 65535.

(** A column, from the bottom up: the chain that starts at [hf.Spans[idx]]. *)
Definition column := list Span.

(** recast/heightfield.go:34-44. Only what the modelled functions read: bounds and cell
    sizes are not kept here, and the pools and the free list of spans are not modelled. *)
Record Heightfield := mkHF { hf_w : Z; hf_h : Z; hf_spans : list column }.

(** recast/heightfield.go:47-58 *)
Definition NewHeightfield (w h : Z) : Heightfield :=
  mkHF w h (repeat [] (Z.to_nat (w * h))).

(** recast/recast.go:293-312 *)
Definition iMin (a b : Z) : Z := if a <? b then a else b.
Definition iMax (a b : Z) : Z := if a >? b then a else b.
Definition iAbs (a : Z) : Z := if a <? 0 then i32 (- a) else a.

(** recast/heightfield.go:149-166: the new span [s] absorbs the column's span [cur]. *)
Definition mergeSpan (thr : Z) (s cur : Span) : Span :=
  let lo := if smin cur <? smin s then smin cur else smin s in
  let hi := if smax cur >? smax s then smax cur else smax s in
  let d := hi - smax cur in
  let d := if d <? 0 then - d else d in
  let ar := if d <=? thr then (if sarea cur >? sarea s then sarea cur else sarea s) else sarea s in
  mkSpan lo hi ar.

(** recast/heightfield.go:131-187: insertion in one column. [prev] and the spans before
    it are the part of the column already passed; the loop's [break] and its end insert
    [s] after [prev]. *)
Fixpoint addSpanCol (thr : Z) (s : Span) (cur : column) : column :=
  match cur with
  | [] => [s]
  | c :: rest =>
      if smin c >? smax s then s :: c :: rest
      else if smax c <? smin s then c :: addSpanCol thr s rest
      else addSpanCol thr (mergeSpan thr s c) rest
  end.

(** recast/heightfield.go:118-190. Allocation cannot fail (Go's [&spanPool{}] is never
    nil), so the result is always true when the index is in range. *)
Definition addSpan (hf : Heightfield) (x y mn mx area thr : Z) : res Heightfield :=
  let idx := i32 (x + i32 (y * hf_w hf)) in
  let* col := get (hf_spans hf) idx in
  let* spans := set (hf_spans hf) idx (addSpanCol thr (mkSpan mn mx area) col) in
  Ok (mkHF (hf_w hf) (hf_h hf) spans).

(** recast/heightfield.go:229-243 *)
Definition GetHeightFieldSpanCount (hf : Heightfield) : res Z :=
  sweep (hf_w hf) (hf_h hf) (fun n x y =>
    let* col := get (hf_spans hf) (cidx (hf_w hf) x y) in
    Ok (fold_left (fun n s => if negb (sarea s =? nullArea) then n + 1 else n) col n)) 0.
