(** C76: recast/meshdetail.go, the heights of the cells around a polygon. *)
From Coq Require Import ZArith List Bool Lia Relations.
From Verif.Base Require Import Res GoNum Grid.
From Verif.Model Require Import Heightfield Dirs Compact Region HeightSearch HeightData.
From Verif.Spec Require Import HeightfieldSpec CompactSpec ErodeSpec HeightSpec.
From Verif.Proofs Require Import ErodeProofs ErodeOpen RegionBase TraceRegions HeightFlood HeightRegion HeightCenter.
Import ListNotations.
Open Scope Z_scope.

(** ** C76 getHeightData *)

(** If a span of the region lies in the patch (and the region is not 0, the mark of a polygon made of
    several), then, for every field and patch, the flood ends and hp.data holds the heights spread from
    the lowest spans of the region: every cell with such a span has its height; the others have the
    height of the span over which the surface was reached, or 65535 where it does not reach. *)
Theorem C76_region : forall chf poly verts bs hp r,
  chf_wf chf -> patch_ok chf bs hp -> r <> 0 ->
  (exists x y i s, in_patch hp x y /\ span_at chf (x + bs) (y + bs) i /\ get (chf_spans chf) i = Ok s /\ csReg s = r) ->
  exists data own, getHeightData chf poly verts bs hp r = Ok data /\ heights chf bs hp (lowest chf bs hp r) own data.
Proof.
  intros chf poly verts bs hp r wf PO R0 (x & y & i & s & P & SA & G & Rs). unfold getHeightData.
  destruct (fillPatch_ok chf bs hp PO 65535 (hpData hp)) as (d & -> & L & V & R); [apply PO|]. cbn [bind].
  destruct (Z.eqb_spec r 0) as [|_]; [contradiction|]. cbn [negb].
  destruct (region_loop chf wf bs hp PO r d L V R) as ([[d1 q1] e1] & -> & RI). cbn [bind].
  assert (Ee : e1 = false).
  { pose proof (r_empty _ _ _ _ _ _ RI) as E. cbn [snd] in E. destruct e1; [|reflexivity]. exfalso.
    pose proof (E x y (proj1 (in_all hp x y) P)) as O. unfold own0 in O. destruct SA as (_ & _ & c & C & Rc). rewrite C in O.
    pose proof (find_none _ _ O i) as Q. unfold hr in Q. rewrite G in Q. rewrite Rs, Z.eqb_refl in Q. discriminate Q. apply in_krange. lia. }
  subst e1. cbn [bind]. pose proof (region_finv chf wf bs hp PO r _ RI eq_refl) as F. cbn [fst snd] in F.
  destruct (floodLoop_ok chf wf bs hp PO _ (S (length q1 + Z.to_nat (hpWidth hp * hpHeight hp))) _ d1 q1 0 ltac:(lia) ltac:(cbn; lia) F) as (o' & d' & E' & _ & F').
  - pose proof (cnt_le hp 65535 d1). change (Z.to_nat 0) with 0%nat. lia.
  - exists d', o'. split; [exact E'|]. now apply finv_heights.
Qed.

(** Otherwise the heights are spread from one span.  It is reached from a span near a vertex of the
    polygon, the closest in height, and it is in the cell at the mean of the vertices, unless spans
    reached that way, closed under connections up to the choice of the span in a cell, leave that cell
    out. *)
Theorem C76_center : forall chf poly verts bs hp r,
  chf_wf chf -> patch_ok chf bs hp -> poly_ok poly verts ->
  (r <> 0 -> forall x y i s, in_patch hp x y -> span_at chf (x + bs) (y + bs) i -> get (chf_spans chf) i = Ok s -> csReg s <> r) ->
  (exists x y i d, near chf poly verts bs hp x y i d /\ d < 65535) ->
  exists data own q, getHeightData chf poly verts bs hp r = Ok data /\
    central chf poly verts bs hp (mean poly verts 0) (mean poly verts 2) q /\ heights chf bs hp (eq q) own data.
Proof.
  intros chf poly verts bs hp r wf PO PV NR (x & y & i & dd & Nr & Dd). unfold getHeightData.
  destruct (fillPatch_ok chf bs hp PO 65535 (hpData hp)) as (d & -> & L & V & R); [apply PO|]. cbn [bind].
  assert (Ph : exists d1 q1, (if negb (r =? 0) then foldM (regionCell chf bs hp r) (rectCells 0 (hpWidth hp) 0 (hpHeight hp)) (d, [], true) else Ok (d, [], true)) = Ok (d1, q1, true) /\
    zlen d1 = zlen (hpData hp) /\ forall k, hpWidth hp * hpHeight hp <= k -> dv d1 k = dv (hpData hp) k).
  { destruct (Z.eqb_spec r 0) as [|R0]; cbn [negb]; [exists d, []; now split|].
    destruct (region_loop chf wf bs hp PO r d L V R) as ([[d1 q1] e1] & -> & RI). pose proof (r_empty _ _ _ _ _ _ RI) as E. cbn [snd] in E.
    destruct e1; [exists d1, q1; split; [reflexivity|]; split; [apply (r_len _ _ _ _ _ _ RI)|apply (r_rest _ _ _ _ _ _ RI)]|]. exfalso.
    destruct E as (a & b & I & O). apply in_all in I. destruct (own0 chf bs r a b) as [k|] eqn:Ok'; [|congruence]. apply (own0_low chf wf bs hp PO r a b k I) in Ok'.
    destruct Ok' as (_ & SA & (s & G & Rs) & _). exact (NR R0 a b k s I SA G Rs). }
  destruct Ph as (d1 & q1 & -> & L1 & R1). cbn [bind].
  destruct (seed_ok chf wf bs hp PO poly verts PV d1 L1 R1) as [[Q _]|(cx & cy & ci & d2 & -> & C & F)]; [specialize (Q _ _ _ _ Nr); lia|]. cbn [bind].
  destruct (floodLoop_ok chf wf bs hp PO _ (S (length [(cx + bs, cy + bs, ci)] + Z.to_nat (hpWidth hp * hpHeight hp))) _ d2 [(cx + bs, cy + bs, ci)] 0 ltac:(lia) ltac:(cbn; lia) F) as (o' & d' & E' & _ & F').
  - pose proof (cnt_le hp 65535 d2). change (Z.to_nat 0) with 0%nat. lia.
  - exists d', o', (cx, cy, ci). split; [exact E'|]. split; [exact C|]. now apply finv_heights.
Qed.

(** And if no span near a vertex is closer than 65535 in height (no vertex is near a span, for the
    heights of this package), the call panics: the start index stays -1. *)
Theorem C76_panic : forall chf poly verts bs hp r,
  chf_wf chf -> patch_ok chf bs hp -> poly_ok poly verts ->
  (r <> 0 -> forall x y i s, in_patch hp x y -> span_at chf (x + bs) (y + bs) i -> get (chf_spans chf) i = Ok s -> csReg s <> r) ->
  (forall x y i d, near chf poly verts bs hp x y i d -> 65535 <= d) ->
  getHeightData chf poly verts bs hp r = Panic.
Proof.
  intros chf poly verts bs hp r wf PO PV NR Nn. unfold getHeightData.
  destruct (fillPatch_ok chf bs hp PO 65535 (hpData hp)) as (d & -> & L & V & R); [apply PO|]. cbn [bind].
  assert (Ph : exists d1 q1, (if negb (r =? 0) then foldM (regionCell chf bs hp r) (rectCells 0 (hpWidth hp) 0 (hpHeight hp)) (d, [], true) else Ok (d, [], true)) = Ok (d1, q1, true) /\
    zlen d1 = zlen (hpData hp) /\ forall k, hpWidth hp * hpHeight hp <= k -> dv d1 k = dv (hpData hp) k).
  { destruct (Z.eqb_spec r 0) as [|R0]; cbn [negb]; [exists d, []; now split|].
    destruct (region_loop chf wf bs hp PO r d L V R) as ([[d1 q1] e1] & -> & RI). pose proof (r_empty _ _ _ _ _ _ RI) as E. cbn [snd] in E.
    destruct e1; [exists d1, q1; split; [reflexivity|]; split; [apply (r_len _ _ _ _ _ _ RI)|apply (r_rest _ _ _ _ _ _ RI)]|]. exfalso.
    destruct E as (a & b & I & O). apply in_all in I. destruct (own0 chf bs r a b) as [k|] eqn:Ok'; [|congruence]. apply (own0_low chf wf bs hp PO r a b k I) in Ok'.
    destruct Ok' as (_ & SA & (s & G & Rs) & _). exact (NR R0 a b k s I SA G Rs). }
  destruct Ph as (d1 & q1 & -> & L1 & R1). cbn [bind].
  destruct (seed_ok chf wf bs hp PO poly verts PV d1 L1 R1) as [[_ ->]|(cx & cy & ci & d2 & _ & (x & y & i & dd & Nr & Dd & _) & _)]; [reflexivity|].
  specialize (Nn _ _ _ _ Nr). lia.
Qed.

(** *** Cases *)
Definition raised (chf : CompactHeightfield) (hs : list Z) : CompactHeightfield :=
  mkCHF (chf_w chf) (chf_h chf) (chf_spanCount chf) (chf_wh chf) (chf_climb chf) (chf_cells chf)
    (map (fun sh => mkCSpan (snd sh) (csReg (fst sh)) (csCon (fst sh)) (csH (fst sh))) (combine (chf_spans chf) hs)) (chf_areas chf).
Lemma raised_same : forall chf hs, length hs = length (chf_spans chf) -> same_links chf (raised chf hs).
Proof.
  intros chf hs L1. unfold same_links. cbn [raised chf_w chf_h chf_spanCount chf_cells chf_areas chf_spans]. do 4 (split; [reflexivity|]). split; [reflexivity|].
  split; [unfold zlen; rewrite map_length, combine_length; lia|]. intros i s s' E1 E2. apply get_ok in E1, E2. destruct E1 as [B E1], E2 as [_ E2].
  rewrite nth_error_map in E2. destruct (nth_error (combine (chf_spans chf) hs) (Z.to_nat i)) as [[s0 r]|] eqn:E; [|discriminate]. cbn in E2. injection E2 as <-. cbn [csCon].
  revert E E1. clear. revert hs. generalize (Z.to_nat i). induction (chf_spans chf) as [|a l IH]; intros n hs E E1; [destruct n; discriminate|].
  destruct hs as [|q hs]; [destruct n; discriminate|]. destruct n as [|n]; cbn in *; [congruence|]. exact (IH _ _ E E1).
Qed.

(** A field of 5 x 4 cells, of heights 10 to 29, with region 1 in a corner and region 2 in the middle. *)
Definition slope : CompactHeightfield := raised (painted (openField 5 4)
  [1; 1; 0; 0; 0;
   1; 2; 2; 0; 0;
   0; 2; 2; 0; 0;
   0; 0; 0; 0; 0] (repeat 63 20)) (map (Z.add 10) (zseq 20)).
Definition slopePatch : HeightPatch := mkPatch (repeat 7 14) 0 0 4 3.
Definition slopeVerts : list Z := [0; 12; 0; 3; 14; 1; 3; 22; 3].
Lemma slope_ok : chf_wf slope /\ patch_ok slope 1 slopePatch /\ poly_ok [0; 1; 2] slopeVerts.
Proof.
  split; [|split].
  - eapply same_wf; [apply raised_same; reflexivity|]. eapply same_wf; [apply painted_same; reflexivity|]. apply open_wf; lia.
  - constructor; try (cbn; lia). intros i s G. apply get_ok in G as [_ G]. apply nth_error_In in G.
    assert (Q : forallb (fun s => (0 <=? csY s) && (csY s <? 65535)) (chf_spans slope) = true) by (vm_compute; reflexivity).
    rewrite forallb_forall in Q. specialize (Q s G). apply andb_true_iff in Q. destruct Q as [Q1 Q2]. apply Z.leb_le in Q1. apply Z.ltb_lt in Q2. lia.
  - constructor.
    + cbn. lia.
    + intros p Hp. cbn in Hp. unfold slopeVerts, zlen. cbn [length]. repeat (destruct Hp as [<-|Hp]; [lia|]). destruct Hp.
    + intros p k Hp Hk. assert (k = 0 \/ k = 1 \/ k = 2) as [-> | [-> | ->]] by lia; cbn in Hp; repeat (destruct Hp as [<-|Hp]; [vm_compute; split; [discriminate|reflexivity]|]); destruct Hp.
Qed.
(** Region 2 is in the patch: its heights, and those of the cells reached from it. *)
Example C76_region_case :
  (exists x y i s, in_patch slopePatch x y /\ span_at slope (x + 1) (y + 1) i /\ get (chf_spans slope) i = Ok s /\ csReg s = 2) /\
  getHeightData slope [0; 1; 2] slopeVerts 1 slopePatch 2 = Ok [16; 17; 18; 19; 21; 22; 23; 24; 26; 27; 28; 29; 7; 7].
Proof.
  split; [|vm_compute; reflexivity]. exists 0, 0, 6, (mkCSpan 16 2 (openCon 5 4 1 1) 255). split; [unfold in_patch; cbn; lia|]. split; [|split; reflexivity].
  split; [cbn; lia|]. split; [cbn; lia|]. exists (mkCell 6 1). split; [reflexivity|cbn; lia].
Qed.
(** Region 1 is not: the seed is the cell (2, 1), at the mean of the vertices. *)
Example C76_center_case :
  near slope [0; 1; 2] slopeVerts 1 slopePatch 0 0 6 4 /\ (mean [0; 1; 2] slopeVerts 0, mean [0; 1; 2] slopeVerts 2) = (2, 1) /\
  seedArrayWithPolyCenter slope [0; 1; 2] slopeVerts 1 slopePatch (repeat 65535 14) =
    Ok ([65535; 65535; 65535; 65535; 65535; 65535; 23; 65535; 65535; 65535; 65535; 65535; 65535; 65535], [(3, 2, 13)]) /\
  getHeightData slope [0; 1; 2] slopeVerts 1 slopePatch 1 = Ok [16; 17; 18; 19; 21; 22; 23; 24; 26; 27; 28; 29; 7; 7] /\
  forallb (fun i => match get (chf_spans slope) i with Ok s => negb (csReg s =? 1) | _ => false end) [6; 7; 8; 9; 11; 12; 13; 14; 16; 17; 18; 19] = true.
Proof.
  split; [|repeat split; vm_compute; reflexivity]. exists 0, 0, 12, 0, (mkCSpan 16 2 (openCon 5 4 1 1) 255).
  split; [now left|]. do 3 (split; [reflexivity|]). split; [lia|]. split; [lia|]. split; [unfold in_patch; cbn; lia|]. split; [|split; reflexivity].
  split; [cbn; lia|]. split; [cbn; lia|]. exists (mkCell 6 1). split; [reflexivity|cbn; lia].
Qed.
(** No vertex is near the patch. *)
Example C76_panic_case : poly_ok [0] [9; 12; 9] /\ getHeightData slope [0] [9; 12; 9] 1 slopePatch 0 = Panic.
Proof.
  split; [|vm_compute; reflexivity]. constructor.
  - cbn. lia.
  - intros p [<-|[]]. cbn. lia.
  - intros p k [<-|[]] Hk. assert (k = 0 \/ k = 1 \/ k = 2) as [-> | [-> | ->]] by lia; vm_compute; (split; [discriminate|reflexivity]).
Qed.

Print Assumptions C76_region.
Print Assumptions C76_center.
Print Assumptions C76_panic.
