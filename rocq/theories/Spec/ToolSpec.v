(** What the build log, the OBJ loader and the table of convex volumes are for. *)
From Coq Require Import ZArith Bool String List.
From Verif.Base Require Import F32.
From Verif.Model Require Import BuildLog.
Import ListNotations.
Open Scope Z_scope.

(** ** Build log. An entry is the text behind the tag of its category. *)
Definition tagged (c : logCategory) (t : string) : string :=
  match c with
  | logProgress => String.append "PROG " t
  | logWarning => String.append "WARN " t
  | logError => String.append "ERR " t
  end.
(** An unlimited log: whether it is switched on, and its entries in order. A log that is
    switched off ignores messages and resets. *)
Definition ideal_step (s : bool * list string) (o : logOp) : bool * list string :=
  match o with
  | OpEnable b => (b, snd s)
  | OpReset => if fst s then (fst s, []) else s
  | OpLog c t => if fst s then (fst s, snd s ++ [tagged c t]) else s
  end.
Definition ideal_log (on : bool) (h : list logOp) : list string :=
  snd (fold_left ideal_step h (on, [])).

(** ** OBJ polygons. The triangles of the fan of a polygon around its first vertex: the
    [i]-th one is made of the vertices 0, i+1 and i+2. *)
Definition fan (p : list Z) : list (Z * Z * Z) :=
  map (fun i => (nth 0 p 0, nth (i + 1) p 0, nth (i + 2) p 0)) (seq 0 (length p - 2)).
Definition valid_tri (nverts : Z) (t : Z * Z * Z) : bool :=
  let '(a, b, c) := t in
  forallb (fun i => (0 <=? i) && (i <? nverts)) [a; b; c].
Definition flat3 {A} (l : list (A * A * A)) : list A := flat_map (fun '(a, b, c) => [a; b; c]) l.
