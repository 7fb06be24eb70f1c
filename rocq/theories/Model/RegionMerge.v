(** recast/region.go: merging and filtering of regions. *)
From Coq Require Import ZArith List Bool.
From Verif.Base Require Import Res GoNum Grid.
From Verif.Model Require Import Heightfield Dirs Compact Erode Region.
Import ListNotations.
Open Scope Z_scope.

(** recast/region.go:640-650. The fields ConnectsToBorder, YMin and YMax, which are never read,
    are left out. *)
Record Rgn := mkRgn {
  rCount : Z; rID : Z; rArea : Z; rRemap : bool; rVisited : bool; rOverlap : bool;
  rConns : list Z; rFloors : list Z
}.
(** recast/region.go:652-664 *)
Definition newRegion (i : Z) : Rgn := mkRgn 0 (u16 i) 0 false false false [] [].

Definition withCount (c : Z) (r : Rgn) : Rgn := mkRgn c (rID r) (rArea r) (rRemap r) (rVisited r) (rOverlap r) (rConns r) (rFloors r).
Definition withID (id : Z) (r : Rgn) : Rgn := mkRgn (rCount r) id (rArea r) (rRemap r) (rVisited r) (rOverlap r) (rConns r) (rFloors r).
Definition withArea (a : Z) (r : Rgn) : Rgn := mkRgn (rCount r) (rID r) a (rRemap r) (rVisited r) (rOverlap r) (rConns r) (rFloors r).
Definition withRemap (b : bool) (r : Rgn) : Rgn := mkRgn (rCount r) (rID r) (rArea r) b (rVisited r) (rOverlap r) (rConns r) (rFloors r).
Definition withVisited (b : bool) (r : Rgn) : Rgn := mkRgn (rCount r) (rID r) (rArea r) (rRemap r) b (rOverlap r) (rConns r) (rFloors r).
Definition withOverlap (b : bool) (r : Rgn) : Rgn := mkRgn (rCount r) (rID r) (rArea r) (rRemap r) (rVisited r) b (rConns r) (rFloors r).
Definition withConns (l : list Z) (r : Rgn) : Rgn := mkRgn (rCount r) (rID r) (rArea r) (rRemap r) (rVisited r) (rOverlap r) l (rFloors r).
Definition withFloors (l : list Z) (r : Rgn) : Rgn := mkRgn (rCount r) (rID r) (rArea r) (rRemap r) (rVisited r) (rOverlap r) (rConns r) l.

(** The loop that removes an element equal to its cyclic successor: recast/region.go:668-680
    with [least] = 1 and 878-890 with [least] = 0. *)
Fixpoint dropDups (fuel : nat) (least : Z) (l : list Z) (j : Z) : res (list Z) :=
  match fuel with
  | O => NoFuel
  | S f =>
      if (j <? zlen l) && (least <? zlen l) then
        let* a := get l j in
        let* b := get l ((j + 1) mod zlen l) in
        if a =? b then dropDups f least (firstn (Z.to_nat j) l ++ skipn (S (Z.to_nat j)) l) j
        else dropDups f least l (j + 1)
      else Ok l
  end.
(** recast/region.go:666-681 *)
Definition removeAdjacentNeighbours (l : list Z) : res (list Z) := dropDups (S (length l)) 1 l 0.

Definition hasZ (v : Z) (l : list Z) : bool := existsb (Z.eqb v) l.
Definition replaceZ (old new : Z) (l : list Z) : list Z := map (fun c => if c =? old then new else c) l.
(** recast/region.go:683-701 *)
Definition replaceNeighbour (old new : Z) (r : Rgn) : res Rgn :=
  let conns := replaceZ old new (rConns r) in
  let* conns := (if hasZ old (rConns r) then removeAdjacentNeighbours conns else Ok conns) in
  Ok (withFloors (replaceZ old new (rFloors r)) (withConns conns r)).

(** recast/region.go:703-722 *)
Definition countZ (v : Z) (l : list Z) : Z := zlen (filter (Z.eqb v) l).
Definition canMergeWithRegion (r r2 : Rgn) : bool :=
  if negb (rArea r =? rArea r2) then false
  else if countZ (rID r2) (rConns r) >? 1 then false
  else negb (hasZ (rID r2) (rFloors r)).

(** recast/region.go:724-731 *)
Definition addUniqueFloorRegion (n : Z) (r : Rgn) : Rgn :=
  if hasZ n (rFloors r) then r else withFloors (rFloors r ++ [n]) r.

(** recast/region.go:745-753, 757-765: the first position of [v], or -1. *)
Fixpoint findZ (v : Z) (l : list Z) (i : Z) : Z :=
  match l with
  | [] => -1
  | a :: l => if a =? v then i else findZ v l (i + 1)
  end.
(** recast/region.go:770-779: the elements after position [ins], cyclically, without it. *)
Definition appendRest (ins : Z) (l acc : list Z) : res (list Z) :=
  foldM (fun acc i => let* v := get l ((ins + 1 + i) mod zlen l) in Ok (acc ++ [v])) (zseq (Z.to_nat (zlen l - 1))) acc.
(** recast/region.go:733-791: None is "return false". *)
Definition mergeRegions (a b : Rgn) : res (option (Rgn * Rgn)) :=
  let acon := rConns a in
  let bcon := rConns b in
  let insa := findZ (rID b) acon 0 in
  if insa =? -1 then Ok None
  else
    let insb := findZ (rID a) bcon 0 in
    if insb =? -1 then Ok None
    else
      let* l := appendRest insa acon [] in
      let* l := appendRest insb bcon l in
      let* l := removeAdjacentNeighbours l in
      let a := fold_left (fun a n => addUniqueFloorRegion n a) (rFloors b) (withConns l a) in
      Ok (Some (withCount (i32 (rCount a + rCount b)) a, withConns [] (withCount 0 b))).

(** recast/region.go:793-802 *)
Definition isConnectedToBorder (r : Rgn) : bool := hasZ 0 (rConns r).

(** The region of the span that the connection of a span leads to, or 0: recast/region.go:808-813
    and its repetitions. *)
Definition regAcross (chf : CompactHeightfield) (src : list Z) (x y con dir : Z) : res Z :=
  if GetCon con dir =? notConnected then Ok 0
  else
    let* n := neighbour chf x y con dir in
    get src (snd n).
(** recast/region.go:804-818 *)
Definition isSolidEdge (chf : CompactHeightfield) (src : list Z) (x y i dir : Z) : res bool :=
  let* s := get (chf_spans chf) i in
  let* r := regAcross chf src x y (csCon s) dir in
  let* ri := get src i in
  Ok (negb (r =? ri)).

(** recast/region.go:837-875: the loop, with [n] iterations left; cont and whether the loop was
    left by break or its end (true), or by the return for a missing neighbour (false). *)
Fixpoint contourLoop (n : nat) (chf : CompactHeightfield) (src : list Z) (starti startDir x y i dir cur : Z) (cont : list Z)
    : res (list Z * bool) :=
  match n with
  | O => Ok (cont, true)
  | S n =>
      let* s := get (chf_spans chf) i in
      let* solid := isSolidEdge chf src x y i dir in
      if solid : bool then
        let* r := regAcross chf src x y (csCon s) dir in
        let '(cur, cont) := if r =? cur then (cur, cont) else (r, cont ++ [r]) in
        let dir := Z.land (dir + 1) 3 in
        if (starti =? i) && (startDir =? dir) then Ok (cont, true)
        else contourLoop n chf src starti startDir x y i dir cur cont
      else if GetCon (csCon s) dir =? notConnected then Ok (cont, false)
      else
        let* (nx, ny, ni) := neighbour chf x y (csCon s) dir in
        let dir := Z.land (dir + 3) 3 in
        if (starti =? ni) && (startDir =? dir) then Ok (cont, true)
        else contourLoop n chf src starti startDir nx ny ni dir cur cont
  end.
(** recast/region.go:820-891, called with an empty cont. *)
Definition walkContour (chf : CompactHeightfield) (src : list Z) (x y i dir : Z) : res (list Z) :=
  let* ss := get (chf_spans chf) i in
  let* cur := regAcross chf src x y (csCon ss) dir in
  let* (cont, done) := contourLoop (Z.to_nat 39998) chf src i dir x y i dir cur [cur] in
  if done && (1 <? zlen cont) then dropDups (S (length cont)) 0 cont 0 else Ok cont.

(** Changing one element. *)
Definition update {A} (l : list A) (i : Z) (f : A -> A) : res (list A) := let* a := get l i in set l i (f a).

(** recast/region.go:925-938 *)
Definition noteFloors (src : list Z) (nreg r i first count : Z) (reg : Rgn) : res Rgn :=
  foldM (fun reg j =>
    if i =? j then Ok reg
    else
      let* fl := get src j in
      if (fl =? 0) || (fl >=? nreg) then Ok reg
      else
        let reg := if fl =? r then withOverlap true reg else reg in
        Ok (addUniqueFloorRegion fl reg)) (krange first count) reg.
(** recast/region.go:947-954: the first direction with a solid edge. *)
Fixpoint firstSolid (chf : CompactHeightfield) (src : list Z) (x y i : Z) (dirs : list Z) : res (option Z) :=
  match dirs with
  | [] => Ok None
  | d :: dirs =>
      let* s := isSolidEdge chf src x y i d in
      if s : bool then Ok (Some d) else firstSolid chf src x y i dirs
  end.
(** recast/region.go:917-960: one span. *)
Definition collectSpan (chf : CompactHeightfield) (src : list Z) (nreg x y : Z) (regions : list Rgn) (i : Z) : res (list Rgn) :=
  let* c := get (chf_cells chf) (cidx (chf_w chf) x y) in
  let* r := get src i in
  if (r =? 0) || (r >=? nreg) then Ok regions
  else
    let* reg := get regions r in
    let reg := withCount (i32 (rCount reg + 1)) reg in
    let* reg := noteFloors src nreg r i (cIndex c) (cCount c) reg in
    match rConns reg with
    | _ :: _ => set regions r reg
    | [] =>
        let* a := get (chf_areas chf) i in
        let reg := withArea a reg in
        let* ndir := firstSolid chf src x y i [0; 1; 2; 3] in
        match ndir with
        | None => set regions r reg
        | Some d =>
            let* conns := walkContour chf src x y i d in
            set regions r (withConns conns reg)
        end
    end.
(** recast/region.go:902-963 *)
Definition collectRegions (chf : CompactHeightfield) (src : list Z) (nreg : Z) : res (list Rgn) :=
  eachSpan chf (cells (chf_w chf) (chf_h chf)) (collectSpan chf src nreg) (map newRegion (zseq (Z.to_nat nreg))).

(** ID == 0 || ID & borderReg != 0 *)
Definition skipID (id : Z) : bool := (id =? 0) || isBorder id.

(** recast/region.go:1001-1016: one connection of a visited region; the state is regions, the
    stack (top first) and connectsToBorder. *)
Definition floodConn (st : list Rgn * list Z * bool) (c : Z) : res (list Rgn * list Z * bool) :=
  let '(regions, stack, border) := st in
  if isBorder c then Ok (regions, stack, true)
  else
    let* nei := get regions c in
    if rVisited nei then Ok st
    else if skipID (rID nei) then Ok st
    else
      let* regions := set regions c (withVisited true nei) in
      Ok (regions, rID nei :: stack, border).
(** recast/region.go:990-1017: regions, trace, spanCount and connectsToBorder. *)
Fixpoint flood (fuel : nat) (regions : list Rgn) (stack trace : list Z) (count : Z) (border : bool)
    : res (list Rgn * list Z * Z * bool) :=
  match stack with
  | [] => Ok (regions, trace, count, border)
  | ri :: stack =>
      match fuel with
      | O => NoFuel
      | S f =>
          let* creg := get regions ri in
          let* (regions, stack, border) := foldM floodConn (rConns creg) (regions, stack, border) in
          flood f regions stack (trace ++ [ri]) (i32 (count + rCount creg)) border
      end
  end.
(** recast/region.go:968-1030: one region. *)
Definition filterOne (minArea nreg : Z) (regions : list Rgn) (i : Z) : res (list Rgn) :=
  let* reg := get regions i in
  if skipID (rID reg) || (rCount reg =? 0) || rVisited reg then Ok regions
  else
    let* regions := set regions i (withVisited true reg) in
    let* (regions, trace, count, border) := flood (S (Z.to_nat nreg)) regions [i] [] 0 false in
    if (count <? minArea) && negb border then
      foldM (fun regions j => update regions j (fun r => withID 0 (withCount 0 r))) trace regions
    else Ok regions.

(** recast/region.go:1056-1072: the smallest region to merge with; (smallest, mergeID). *)
Definition bestMerge (regions : list Rgn) (reg : Rgn) : res (Z * Z) :=
  foldM (fun st c =>
    if isBorder c then Ok st
    else
      let* m := get regions c in
      if skipID (rID m) || rOverlap m then Ok st
      else if (rCount m <? fst st) && canMergeWithRegion reg m && canMergeWithRegion m reg
      then Ok (rCount m, rID m) else Ok st) (rConns reg) (268435455, rID reg).
(** recast/region.go:1082-1094: one region of the fix-up. *)
Definition fixupOne (old new : Z) (regions : list Rgn) (j : Z) : res (list Rgn) :=
  let* r := get regions j in
  if skipID (rID r) then Ok regions
  else
    let r := if rID r =? old then withID new r else r in
    let* r := replaceNeighbour old new r in
    set regions j r.
(** recast/region.go:1036-1098: one region; the state is regions and mergeCount. *)
Definition mergeOne (mergeSize nreg : Z) (st : list Rgn * Z) (i : Z) : res (list Rgn * Z) :=
  let '(regions, mc) := st in
  let* reg := get regions i in
  if skipID (rID reg) || rOverlap reg || (rCount reg =? 0) then Ok st
  else if (rCount reg >? mergeSize) && isConnectedToBorder reg then Ok st
  else
    let* (_, mergeID) := bestMerge regions reg in
    if mergeID =? rID reg then Ok st
    else
      let old := rID reg in
      let* target := get regions mergeID in
      let* m := mergeRegions target reg in
      match m with
      | None => Ok st
      | Some (target, reg) =>
          let* regions := set regions mergeID target in
          let* regions := set regions i reg in
          let* regions := foldM (fixupOne old mergeID) (zseq (Z.to_nat nreg)) regions in
          Ok (regions, mc + 1)
      end.
(** recast/region.go:1032-1102: passes until nothing is merged. *)
Fixpoint mergeLoop (fuel : nat) (mergeSize nreg : Z) (regions : list Rgn) : res (list Rgn) :=
  match fuel with
  | O => NoFuel
  | S f =>
      let* (regions, mc) := foldM (mergeOne mergeSize nreg) (zseq (Z.to_nat nreg)) (regions, 0) in
      if mc =? 0 then Ok regions else mergeLoop f mergeSize nreg regions
  end.

(** recast/region.go:1104-1114 *)
Definition markRemap (regions : list Rgn) (i : Z) : res (list Rgn) :=
  update regions i (fun r => withRemap (negb (skipID (rID r))) r).
(** recast/region.go:1124-1129 *)
Definition renameOne (old new : Z) (regions : list Rgn) (j : Z) : res (list Rgn) :=
  update regions j (fun r => if rID r =? old then withRemap false (withID new r) else r).
(** recast/region.go:1116-1130: the state is regions and regIDGen. *)
Definition compressOne (nreg : Z) (st : list Rgn * Z) (i : Z) : res (list Rgn * Z) :=
  let '(regions, gen) := st in
  let* r := get regions i in
  if negb (rRemap r) then Ok st
  else
    let gen := u16 (gen + 1) in
    let* regions := foldM (renameOne (rID r) gen) (krange i (nreg - i)) regions in
    Ok (regions, gen).
(** recast/region.go:1133-1138 *)
Definition remapSpan (regions : list Rgn) (src : list Z) (i : Z) : res (list Z) :=
  let* r := get src i in
  if isBorder r then Ok src
  else
    let* reg := get regions r in
    set src i (rID reg).

(** recast/region.go:893-1151. [maxID] is *maxRegionID; the result is srcReg, *maxRegionID and
    overlaps (empty before) afterwards. *)
Definition mergeAndFilterRegions (minArea mergeSize maxID : Z) (chf : CompactHeightfield) (src : list Z) : res (list Z * Z * list Z) :=
  let nreg := u16 (maxID + 1) in
  let ids := zseq (Z.to_nat nreg) in
  let* regions := collectRegions chf src nreg in
  let* regions := foldM (filterOne minArea nreg) ids regions in
  let* regions := mergeLoop (S (Z.to_nat nreg)) mergeSize nreg regions in
  let* regions := foldM markRemap ids regions in
  let* (regions, gen) := foldM (compressOne nreg) ids (regions, 0) in
  let* src := foldM (remapSpan regions) (zseq (Z.to_nat (chf_spanCount chf))) src in
  Ok (src, gen, map rID (filter rOverlap regions)).

(** recast/region.go:40-172: the field with the regions of its spans, and MaxRegions. The field
    BorderSize is not part of the model's compact heightfield; the result is always true. *)
Definition BuildRegionsMonotone (chf : CompactHeightfield) (bs minArea mergeArea : Z) : res (CompactHeightfield * Z) :=
  let* (src, id) := sweepRegions chf bs in
  let* (src, mx, _) := mergeAndFilterRegions minArea mergeArea id chf src in
  let* spans := foldM (fun spans i =>
    let* r := get src i in
    update spans i (fun s => mkCSpan (csY s) r (csCon s) (csH s))) (zseq (Z.to_nat (chf_spanCount chf))) (chf_spans chf) in
  Ok (mkCHF (chf_w chf) (chf_h chf) (chf_spanCount chf) (chf_wh chf) (chf_climb chf) (chf_cells chf) spans (chf_areas chf), mx).
