(** From the heightfield to polygons with details: the functions fit together
    (sample/solomesh/builder.go, sample/tilemesh/builder.go). *)
From Coq Require Import ZArith List Bool Lia.
From Verif.Base Require Import Res GoNum Grid F32 Num.
From Verif.Model Require Import Geom Raster Heightfield Dirs Compact Erode Region RegionMerge HeightSearch InputGeom Contour BuildMesh PolyDetail MeshDetail SoloMesh.
From Verif.Spec Require Import HeightfieldSpec CompactSpec ErodeSpec RegionSpec MergeSpec ContourSpec TraceSpec MeshOpsSpec.
From Verif.Spec Require HeightSpec PolyDetailSpec MeshDetailSpec BuildSpec.
From Verif.Spec Require Import PipelineSpec.
From Verif.Proofs Require Import ErodeProofs ErodeOpen RegionBase TraceStep TraceAll TraceEnd TraceRegions PipelineProofs.
From Verif.Proofs Require BuildAll.
From Verif.Properties Require RecastHeightfield Erode Regions RegionMerge Contours BuildMesh RemoveVertex HeightData MeshDetail RecastTools.
Import ListNotations.
Open Scope Z_scope.

(** ** C80: the pipeline *)

(** *** The field *)
Theorem C80_field : forall wh climb hf chf n, hf_shape hf -> heights_ok hf -> GetHeightFieldSpanCount hf = Ok n -> n < 2 ^ 31 ->
  (forall x y, wf_column (col_at hf x y)) -> (forall x y, walkables (col_at hf x y) <= 63) -> climb <= wh ->
  (forall x y s, In s (col_at hf x y) -> smax s < 65535 /\ 0 <= sarea s <= 255) ->
  BuildCompactHeightfield wh climb hf = Ok chf -> field_ok chf.
Proof.
  intros wh climb hf chf n Hsh Hok En Hn Hwf H63 Hcl HS E.
  assert (H255 : forall x y, walkables (col_at hf x y) <= 255) by (intros a b; specialize (H63 a b); lia).
  assert (wf : chf_wf chf) by (eapply Erode.C45_hypothesis; eauto).
  destruct (RecastHeightfield.C41_layout wh climb hf n Hsh Hok En Hn H255) as (chf' & E' & Ew & Eh & _ & _ & EN & _ & _ & Lc & _). rewrite E in E'. apply Ok_inj in E'. subst chf'.
  assert (SP : forall i s a, get (chf_spans chf) i = Ok s -> get (chf_areas chf) i = Ok a -> exists x y t, In t (col_at hf x y) /\ csY s = smax t /\ a = sarea t).
  { intros i s a G Ga. pose proof (get_range _ _ _ G) as B. rewrite (ok_spans _ wf) in B. destruct (ok_cover _ wf i B) as (x & y & (AX & AY & c & Hc & RC)).
    destruct (Lc x y) as (c' & Hc' & CC & L); [split; lia|]. rewrite Hc in Hc'. apply Ok_inj in Hc'. subst c'.
    destruct (rank_onto (col_at hf x y) (i - cIndex c)) as (k & t & N & A & R); [lia|]. destruct (L k t N A) as (s' & G' & Y & _ & _ & Ga'). rewrite R in G', Ga'.
    replace (cIndex c + (i - cIndex c)) with i in G', Ga' by lia. rewrite G in G'. rewrite Ga in Ga'. apply Ok_inj in G', Ga'. subst. exists x, y, t. split; [exact (nth_error_In _ _ N)|]. auto. }
  constructor.
  - exact wf.
  - intros x y i d x' y' j (Hx & Hy & c & Hc & Hi) D (EP & s & c' & Hs & Hcon & Hc' & Ej). injection EP as -> ->.
    destruct (Lc x y) as (c2 & C2 & W2 & _); [split; lia|]. rewrite Hc in C2. apply Ok_inj in C2. subst c2. specialize (H63 x y) as H63xy.
    destruct (RecastHeightfield.C42_mutual wh climb hf chf n Hsh Hok En Hn Hwf H63 Hcl E x y c (i - cIndex c) d (Nat.modulo (d + 2) 4) s (GetCon (csCon s) (Z.of_nat d))) as (nc & ns & N1 & N2 & N3 & N4);
      try assumption; try reflexivity; try lia.
    { split; lia. }
    { rewrite <- Hs. f_equal. lia. }
    rewrite N1 in Hc'. apply Ok_inj in Hc'. subst c'. subst j. split.
    + destruct d as [|[|[|[|d]]]]; try lia; cbn; f_equal; lia.
    + exists ns, c. split; [exact N3|]. rewrite N4. split; [lia|]. split; [exact Hc|]. lia.
  - intros i y (s & G & <-). pose proof (get_range _ _ _ G) as B. destruct (get_in_range (chf_areas chf) i) as [a Ga]; [rewrite (ok_areas _ wf), <- (ok_spans _ wf); exact B|].
    destruct (SP i s a G Ga) as (x & y & t & It & -> & _). pose proof (Hok x y t It). pose proof (HS x y t It). lia.
  - intros i a Ga. pose proof (get_range _ _ _ Ga) as B. destruct (get_in_range (chf_spans chf) i) as [s G]; [rewrite (ok_spans _ wf), <- (ok_areas _ wf); exact B|].
    destruct (SP i s a G Ga) as (x & y & t & It & _ & ->). apply (HS x y t It).
  - lia.
Qed.
(** Erosion and marking of areas keep it. *)
Theorem C80_eroded : forall radius chf chf', field_ok chf -> ErodeWalkableArea radius chf = Ok chf' -> field_ok chf'.
Proof.
  intros radius chf chf' F E. destruct (Erode.C45_only_removes radius chf (fo_wf _ F)) as (ar & E' & L & AR). rewrite E in E'. apply Ok_inj in E'. subst chf'.
  apply (field_same chf); [| exact F |intros i y H; exact H|].
  - unfold same_links. cbn. repeat split; try reflexivity; [exact L|]. intros i s s' H H'. rewrite H in H'. apply Ok_inj in H'. now subst.
  - intros i a G. cbn [chf_areas] in G. pose proof (get_range _ _ _ G) as B. rewrite L in B. destruct (AR i B) as [Q|Q]; rewrite G in Q; [apply Ok_inj in Q; subst; lia|exact (fo_areas _ F i a (eq_sym Q))].
Qed.
Theorem C80_marked : forall verts nverts hmin hmax area bx by_ bz cs ch chf areas, field_ok chf -> 0 <= area <= 255 ->
  MarkConvexPolyArea verts nverts hmin hmax area bx by_ bz cs ch chf = Ok areas -> field_ok (with_areas chf areas).
Proof.
  intros verts nverts hmin hmax area bx by_ bz cs ch chf areas F BA E. destruct (RecastTools.C63_mark _ _ _ _ _ _ _ _ _ _ _ _ E) as (L & M).
  apply (field_same chf); [| exact F |intros i y H; exact H|].
  - unfold same_links. cbn. repeat split; try reflexivity; [exact L|]. intros i s s' H H'. rewrite H in H'. apply Ok_inj in H'. now subst.
  - intros i a G. cbn [chf_areas with_areas] in G. pose proof (get_range _ _ _ G) as B. rewrite L in B. destruct (get_in_range (chf_areas chf) i B) as [b Gb]. destruct (Z.eq_dec a b) as [->|NE]; [exact (fo_areas _ F i b Gb)|].
    destruct (M i a G) as (-> & _); [rewrite Gb; congruence|exact BA].
Qed.

(** *** Regions: numbers in 16 bits, each of one area, none in the border. *)
Theorem C80_regions : forall chf bs minArea mergeArea, field_ok chf -> 0 <= bs -> few_runs chf bs ->
  exists chf' mx, BuildRegionsMonotone chf bs minArea mergeArea = Ok (chf', mx) /\ 0 <= mx < 32768 /\ field_ok chf' /\
    chf_w chf' = chf_w chf /\ chf_h chf' = chf_h chf /\ chf_areas chf' = chf_areas chf /\ (forall i y, has_height chf' i y <-> has_height chf i y) /\
    regions16 chf' /\ (forall i, proper_region chf' i -> exists r, has_region chf' i r /\ 0 < r <= mx) /\
    one_area chf' /\ inner chf' bs /\ (bs = 0 -> borderless chf').
Proof.
  intros chf bs minArea mergeArea F Hbs (FR & FA). pose proof (fo_wf _ F) as wf.
  destruct (RegionMerge.C49_build chf bs minArea mergeArea wf (fo_count _ F) Hbs FR FA) as (chf' & mx & E & BM & EQ & RO & _ & SP).
  exists chf', mx. split; [exact E|]. split; [exact BM|]. injection EQ as EW EH EN _ _ EC EA. destruct RO as (LR & _ & RR & CON).
  assert (LS : zlen (chf_spans chf') = chf_spanCount chf) by (unfold zlen in *; now rewrite map_length in LR).
  assert (REG : forall i r, has_region chf' i r -> get (map csReg (chf_spans chf')) i = Ok r).
  { intros i r (s & Hs & <-). rewrite CompactProofs.get_map, Hs. reflexivity. }
  assert (SS : forall i s s', get (chf_spans chf) i = Ok s -> get (chf_spans chf') i = Ok s' -> (csY s', csCon s', csH s') = (csY s, csCon s, csH s)).
  { intros i s s' Hs Hs'. pose proof (get_range _ _ _ Hs) as B. rewrite (ok_spans _ wf) in B. destruct (ok_cover _ wf i B) as (x & y & A). destruct (SP x y i A) as (s0 & s0' & H & H' & Q & _).
    rewrite Hs in H. rewrite Hs' in H'. apply Ok_inj in H, H'. now subst. }
  assert (S : same_links chf chf').
  { do 4 (split; [assumption|]). split; [now rewrite EA|]. split; [now rewrite LS, (ok_spans _ wf)|]. intros i s s' Hs Hs'. pose proof (SS i s s' Hs Hs') as Q. congruence. }
  assert (HH : forall i y, has_height chf' i y <-> has_height chf i y).
  { intros i y. split; intros (s & G & <-); pose proof (get_range _ _ _ G) as B.
    - destruct (get_in_range (chf_spans chf) i) as [s0 G0]; [rewrite (ok_spans _ wf), <- LS; exact B|]. exists s0. split; [exact G0|]. pose proof (SS i s0 s G0 G). congruence.
    - destruct (get_in_range (chf_spans chf') i) as [s0 G0]; [rewrite LS, <- (ok_spans _ wf); exact B|]. exists s0. split; [exact G0|]. pose proof (SS i s s0 G G0). congruence. }
  assert (VAL : forall x y i r, span_at chf' x y i -> has_region chf' i r -> r = 0 \/ (interior chf bs x y /\ 0 <= r <= mx) \/ (~ interior chf bs x y /\ 32768 <= r)).
  { intros x y i r A (s1 & G1 & <-). apply (same_at _ _ S) in A. destruct (SP x y i A) as (s0 & s0' & H & H' & _ & V1 & V2 & V3). rewrite G1 in H'. apply Ok_inj in H'. subst s0'.
    assert (IW : interior chf bs x y \/ ~ interior chf bs x y) by (unfold interior; lia).
    assert (WK : walkable chf i \/ ~ walkable chf i).
    { unfold walkable. destruct (get_in_range (chf_areas chf) i) as [a Ea]; [rewrite (ok_areas _ wf); exact (ok_at _ wf _ _ _ A)|]. destruct (Z.eq_dec a 0) as [->|]; [right; intros (b & Eb & NB); congruence|left; eauto]. }
    destruct WK as [WK|WK]; [|left; auto]. destruct IW as [IW|IW]; [right; left; split; [exact IW|apply V3; assumption]|right; right]. split; [exact IW|]. rewrite (V2 WK IW). unfold side_reg.
    destruct (chf_h chf - bs <=? y); [lia|]. destruct (y <? bs); [lia|]. destruct (chf_w chf - bs <=? x); lia. }
  split.
  { apply (field_same chf); [exact S|exact F|intros i y; apply HH|]. intros i a G. rewrite EA in G. exact (fo_areas _ F i a G). }
  split; [exact EW|]. split; [exact EH|]. split; [exact EA|]. split; [exact HH|]. split; [intros i r H; apply REG, RR in H; lia|].
  split. { intros i (r & H & B). exists r. split; [exact H|]. apply REG, RR in H. lia. }
  split.
  { intros i j (r & Hi & BR) (r' & Hi' & Hj). apply REG in Hi, Hi', Hj. rewrite Hi in Hi'. apply Ok_inj in Hi'. subst r'. rewrite EA. apply (path_area chf (map csReg (chf_spans chf'))). apply (CON i j r Hi Hj); [lia|]. unfold border_reg. lia. }
  split.
  - intros x y i A (r & H & B). destruct (VAL x y i r A H) as [Q|[(Q & _)|(_ & Q)]]; try lia. unfold interior in *. rewrite EW, EH. exact Q.
  - intros B0 i r H. destruct H as (s & G & Hr). pose proof (get_range _ _ _ G) as B. rewrite LS in B. destruct (ok_cover _ wf i B) as (x & y & A). apply (same_at _ _ S) in A.
    destruct (VAL x y i r A) as [Q|[(_ & Q)|(Q & _)]]; [exists s; auto|lia|lia|]. exfalso. apply Q. destruct A as (AX & AY & _). unfold interior. lia.
Qed.

(** *** Contours *)
Theorem C80_contours : forall chf bs maxRegions maxError maxEdgeLen buildFlags conts tr, field_ok chf -> regions16 chf -> one_area chf -> 0 <= bs ->
  (forall r, 0 < r < 32768 -> short_outlines chf r) ->
  BuildContours chf bs maxRegions maxError maxEdgeLen buildFlags = Ok (conts, tr) ->
  Forall (contour_ok chf bs) conts /\ (borderless chf -> Forall BuildSpec.unmarked conts).
Proof.
  intros chf bs mr me mel bf conts tr F R16 OA Hbs SO E. destruct (contours_all chf bs mr me mel bf (fo_wf _ F) (fo_mutual _ F) R16 OA SO) as (loops & tr' & conts' & W & _ & _ & ST & E').
  rewrite E in E'. destruct (zlen conts' <=? Z.max mr 8); [|discriminate]. apply Ok_inj in E'. injection E' as -> ->. exact (stored_ok chf bs me mel bf tr' conts' loops W Hbs ST).
Qed.

(** *** Polygons and details: the mesh of such contours has what the detail mesh needs. *)
Theorem C80_mesh : forall cf bmin chf conts V Q V' F' Q' j m, field_ok chf -> inner chf (cfBorder cf) -> config_ok cf chf -> Forall (contour_ok chf (cfBorder cf)) conts ->
  BuildSpec.total conts * cfNvp cf <= 65535 ->
  BuildSpec.built (cfNvp cf) [] conts Q V -> BuildSpec.trimmed (cfNvp cf) (BuildSpec.tris conts) 0 V (BuildSpec.marks conts (length V)) Q V' F' Q' j ->
  Forall (BuildSpec.proper (cfNvp cf) (Z.of_nat (length V'))) Q' ->
  BuildSpec.holdsMesh (BuildSpec.total conts) (cfNvp cf) (cfBorder cf) (chf_w chf - cfBorder cf * 2) (chf_h chf - cfBorder cf * 2) V' Q' m ->
  Forall (fits chf (cfBorder cf) V') Q' /\
  (mNPolys m <> 0 -> MeshDetailSpec.detail_ok (detailInput cf bmin chf m) (cfSampleDist cf)) /\
  forall i data reg, 0 <= i < mNPolys m -> get (mRegs m) i = Ok reg ->
    ~ MeshDetailSpec.heights_lost (detailInput cf bmin chf m) i (MeshDetailSpec.patch_of (detailInput cf bmin chf m) i data) reg /\
    (reg <> 0 -> exists p, HeightSpec.lowest chf (cfBorder cf) (MeshDetailSpec.patch_of (detailInput cf bmin chf m) i data) reg p).
Proof.
  intros cf bmin chf conts V Q V' F' Q' j m F IN CG FC TT B T PR HM. destruct CG as [Hbs NV3 W16 H16 SZ RD SD CT]. pose proof (fo_wf _ F) as wf. pose proof (fo_heights _ F) as HI.
  destruct (BuildAll.trimmed_keeps _ _ _ _ _ _ _ _ _ _ T) as (_ & _ & IV); [now rewrite BuildAll.marks_length|].
  pose proof (incl_tran IV (built_incl _ _ _ _ _ B)) as VI. cbn [app] in VI.
  assert (FT : Forall (fits chf (cfBorder cf) V') Q').
  { eapply trimmed_fits; [exact T|now rewrite BuildAll.marks_length|]. eapply built_fits; eauto. }
  assert (LR : forall q, In q Q' -> fst (snd q) < 32768).
  { intros q Iq. destruct (BuildAll.trimmed_origin _ _ _ _ _ _ _ _ _ _ T) as (_ & IR). specialize (IR (fst (snd q))). destruct IR as [<- |IR]; [apply in_map_iff; exists q; auto|lia|].
    apply in_map_iff in IR as ([l [reg ar]] & <- & I0). cbn [fst snd]. destruct (BuildMesh.C71_origin _ _ _ _ _ B l reg ar I0) as (c & Ic & -> & _). rewrite Forall_forall in FC. pose proof (co_region _ _ _ (FC c Ic)). lia. }
  split; [exact FT|]. split.
  - intros NE. eapply input_ok; eauto.
  - intros i data reg Hi GR. split; [eapply not_lost; eauto|]. intros NZ. eapply region_there; eauto.
Qed.

(** *** Where the details are: a vertex of the mesh, in cells from the inner corner of the field, is put in the
    world at that corner, one cell height above its span. *)
Theorem C80_place : forall cf bx by_ bz chf m p, 0 <= cfBorder cf ->
  let I := detailInput cf (bx, by_, bz) chf m in
  let at_ := fun k => f_of_Z (nth (Z.to_nat (3 * p + k)) (mVerts m) 0) in
  let pad := fmul (f_of_Z (cfBorder cf)) (cfCs cf) in
  MeshDetailSpec.shift (MeshDetailSpec.offset I) (MeshDetailSpec.corner I p) =
    (fadd (fmul (at_ 0) (cfCs cf)) (if cfBorder cf =? 0 then bx else fadd bx pad),
     fadd (fmul (at_ 1) (cfCh cf)) (fadd by_ (cfCh cf)),
     fadd (fmul (at_ 2) (cfCs cf)) (if cfBorder cf =? 0 then bz else fadd bz pad)) /\
  MeshDetailSpec.heights_of I = mkHeights (cfCs cf) (cfCh cf) (Z.max 1 (Raster.f_ceil_i32 (cfMaxError cf))) /\
  diNVerts I = mNVerts m /\ diRegs I = mRegs m /\ diBorder I = cfBorder cf /\ diChf I = chf.
Proof.
  intros cf bx by_ bz chf m p B. cbv zeta. split; [|split; [reflexivity|repeat split]].
  unfold MeshDetailSpec.shift, MeshDetailSpec.offset, MeshDetailSpec.corner, MeshDetailSpec.coord, detailInput, contourBMin. cbn [diBMin diChfCh diCs diCh diVerts vx vy vz fst snd].
  rewrite Z.add_0_r. destruct (Z.ltb_spec 0 (cfBorder cf)) as [L|L]; [rewrite (proj2 (Z.eqb_neq _ _)) by lia|rewrite (proj2 (Z.eqb_eq _ _)) by lia]; reflexivity.
Qed.

(** *** All of it *)
Theorem C80_builds : forall cf bmin chf, field_ok chf -> config_ok cf chf -> few_runs chf (cfBorder cf) ->
  exists chf' mx, BuildRegionsMonotone chf (cfBorder cf) (cfMinArea cf) (cfMergeArea cf) = Ok (chf', mx) /\
  ((forall r, 0 < r <= mx -> short_outlines chf' r) ->
   exists conts tr, TraceSpec.stored chf' (cfBorder cf) (cfMaxError cf) (cfMaxEdgeLen cf) 1 tr conts /\ Forall (contour_ok chf' (cfBorder cf)) conts /\
    (Z.max mx 8 < zlen conts -> buildMeshes cf bmin chf = Panic) /\
    (zlen conts <= Z.max mx 8 -> 65534 <= BuildSpec.total conts -> buildMeshes cf bmin chf = Ok None) /\
    (zlen conts <= Z.max mx 8 -> BuildSpec.total conts * cfNvp cf <= 65535 ->
     exists V Q V' F' Q' j, BuildSpec.built (cfNvp cf) [] conts Q V /\
       BuildSpec.trimmed (cfNvp cf) (BuildSpec.tris conts) 0 V (BuildSpec.marks conts (length V)) Q V' F' Q' j /\ Forall (fits chf' (cfBorder cf) V') Q' /\
       Forall (BuildSpec.proper (cfNvp cf) (Z.of_nat (length V'))) Q' /\ Z.of_nat (length Q') <= BuildSpec.total conts /\
       ((exists m, BuildSpec.holdsMesh (BuildSpec.total conts) (cfNvp cf) (cfBorder cf) (chf_w chf - cfBorder cf * 2) (chf_h chf - cfBorder cf * 2) V' Q' m /\
          ((exists dm subs, buildMeshes cf bmin chf = Ok (Some (m, dm)) /\ MeshDetailSpec.packed dm subs /\
              Forall2 (fun i sub => MeshDetailSpec.submesh (detailInput cf bmin chf' m) (cfSampleDist cf) (cfSampleErr cf) i sub /\
                                    MeshDetailSpec.submesh_sane (detailInput cf bmin chf' m) i sub) (zseq (length Q')) subs) \/
           (buildMeshes cf bmin chf = Panic /\ exists i, 0 <= i < Z.of_nat (length Q') /\ detail_panics (detailInput cf bmin chf' m) (cfSampleDist cf) (cfSampleErr cf) i))) \/
        (0 < cfBorder cf /\ buildMeshes cf bmin chf = Panic /\ nth_error F' j = Some true /\ BuildSpec.removable (Z.of_nat j) (map fst Q') /\
           exists R K hole, BuildSpec.torn (Z.of_nat j) Q' R K hole /\ length hole = 2%nat)))).
Proof.
  intros cf bmin chf F CG FR. pose proof (cg_border _ _ CG) as Hbs.
  destruct (C80_regions chf (cfBorder cf) (cfMinArea cf) (cfMergeArea cf) F Hbs FR) as (chf' & mx & E & BM & FO & EW & EH & EA & HH & R16 & MX & OA & IN & BL).
  exists chf', mx. split; [exact E|]. intros SO.
  assert (SO' : forall r, 0 < r < 32768 -> short_outlines chf' r).
  { intros r BR. destruct (Z_le_dec r mx) as [Q|Q]; [apply SO; lia|]. intros l ND H. destruct l as [|e l]; [unfold zlen; cbn; lia|]. exfalso.
    destruct (H e) as (_ & HR); [now left|]. destruct (MX (eI e)) as (r' & HR' & B'); [exists r; auto|]. pose proof (region_fun _ _ _ _ HR HR'). lia. }
  destruct (contours_all chf' (cfBorder cf) mx (cfMaxError cf) (cfMaxEdgeLen cf) 1 (fo_wf _ FO) (fo_mutual _ FO) R16 OA SO') as (loops & tr & conts & W & _ & _ & ST & EC).
  destruct (stored_ok chf' (cfBorder cf) (cfMaxError cf) (cfMaxEdgeLen cf) 1 tr conts loops W Hbs ST) as (FC & UM).
  assert (CG' : config_ok cf chf').
  { destruct CG as [C1 C2 C3 C4 C5 C6 C7 C8]. constructor; rewrite ?EW, ?EH; try assumption. intros x y z x' y' z' i i' B1 B2 B3 B4 H1 H2. rewrite EW, EH in *. apply HH in H1, H2. eauto. }
  exists conts, tr. split; [exact ST|]. split; [exact FC|]. unfold buildMeshes. rewrite E. cbn [bind]. rewrite EC, EW, EH. split; [|split].
  - intros L. rewrite (proj2 (Z.leb_gt _ _) L). reflexivity.
  - intros L T. rewrite (proj2 (Z.leb_le _ _) L). cbn [bind]. rewrite (BuildMesh.C71_too_many _ _ _ _ _ T). reflexivity.
  - intros L T. rewrite (proj2 (Z.leb_le _ _) L). cbn [bind].
    assert (TY : Forall BuildSpec.typed conts).
    { eapply Forall_impl; [|exact FC]. intros c CO. pose proof (co_region _ _ _ CO). destruct (co_area _ _ _ CO) as (i & _ & G). pose proof (fo_areas _ FO i _ G). unfold BuildSpec.typed. lia. }
    destruct (RemoveVertex.C73_builds (cfNvp cf) (cfBorder cf) (chf_w chf - cfBorder cf * 2) (chf_h chf - cfBorder cf * 2) conts ltac:(pose proof (cg_nvp _ _ CG); lia) T TY) as (V & Q & V' & F' & Q' & j & B & TR & PR & LQ & CASES).
    exists V, Q, V', F', Q', j. split; [exact B|]. split; [exact TR|]. split.
    { eapply trimmed_fits; [exact TR|now rewrite BuildAll.marks_length|]. eapply built_fits; eauto; [exact (fo_heights _ FO)|exact (cg_w _ _ CG')|exact (cg_h _ _ CG')]. }
    split; [exact PR|]. split; [exact LQ|].
    destruct CASES as [(m & EM & HM & _)|(EM & N1 & N2 & N3)].
    + left. exists m. split; [exact HM|]. rewrite EM. cbn [bind]. rewrite <- EW, <- EH in HM.
      destruct (C80_mesh cf bmin chf' conts V Q V' F' Q' j m FO IN CG' FC T B TR PR HM) as (_ & DK & NL). destruct HM as (_ & _ & _ & NP & _).
      destruct (Z.eq_dec (mNPolys m) 0) as [Z0|NZ].
      * left. rewrite MeshDetail.C78_empty by (right; exact Z0). cbn [bind]. exists (mkDetailMesh [] [] 0 [] 0), []. split; [reflexivity|]. split; [repeat split|]. replace (length Q') with 0%nat by lia. constructor.
      * destruct (MeshDetail.C78_detail _ _ (cfSampleErr cf) (DK NZ)) as [(dm & subs & ED & PK & SB)|(ED & i & Bi & (data0 & reg & GR & PO & HC))]; rewrite ED; cbn [bind].
        -- left. exists dm, subs. split; [reflexivity|]. split; [exact PK|]. cbn [detailInput diNPolys] in SB. rewrite NP, Nat2Z.id in SB. exact SB.
        -- right. split; [reflexivity|]. cbn [detailInput diNPolys diRegs] in Bi, GR. exists i. split; [lia|]. destruct (NL i data0 reg Bi GR) as (N0 & _). destruct HC as [HC|(data & room & H1 & H2 & H3)]; [contradiction|]. exists data0, reg, data, room. auto.
    + right. assert (BS : 0 < cfBorder cf).
      { destruct (Z.eq_dec (cfBorder cf) 0) as [Z0|NZ]; [|lia]. exfalso.
        destruct (BuildMesh.C71_fills (cfNvp cf) (cfBorder cf) (chf_w chf - cfBorder cf * 2) (chf_h chf - cfBorder cf * 2) conts ltac:(pose proof (cg_nvp _ _ CG); lia) T (UM (BL Z0))) as (m & ? & ? & EM' & _).
        rewrite EM in EM'. discriminate. }
      rewrite EM. cbn [bind]. auto 10.
Qed.

(** *** Cases *)

Lemma same_few : forall c c' bs, same_links c c' -> chf_areas c' = chf_areas c -> few_runs c bs -> few_runs c' bs.
Proof.
  intros c c' bs S EA (A & B). assert (RS : forall x y i, run_start c' bs x y i -> run_start c bs x y i).
  { intros x y i (R1 & R2 & R3 & R4). split; [now apply (same_at _ _ S)|]. pose proof S as (EW & EH & _). unfold interior, walkable in *. rewrite EW, EH, EA in *. split; [exact R2|]. split; [exact R3|].
    intros (x' & y' & j & L & Q). apply R4. exists x', y', j. split; [now apply (same_linked _ _ S)|exact Q]. }
  pose proof S as (EW & EH & _). split.
  - intros y l ND H. rewrite EW, EH. apply (A y l ND). intros i I. destruct (H i I) as (x & R). eauto.
  - intros l ND H. apply (B l ND). intros i I. destruct (H i I) as (x & y & R). eauto.
Qed.
(** Open fields with a ridge, four cells higher, at x = 2. *)
Definition hills (w h : Z) : CompactHeightfield := HeightData.raised (openField w h) (map (fun k => if k mod w =? 2 then 9 else 5) (zseq (Z.to_nat (w * h)))).
Lemma hills_height : forall w h i y, has_height (hills w h) i y -> y = 5 \/ y = 9.
Proof.
  intros w h i y (s & G & <-). apply get_ok in G as [_ G]. unfold hills, HeightData.raised in G. cbn [chf_spans] in G. rewrite nth_error_map in G.
  destruct (nth_error (combine _ _) (Z.to_nat i)) as [[s0 z]|] eqn:E; [|discriminate]. injection G as <-. cbn [csY]. apply nth_error_In, in_combine_r, in_map_iff in E as (k & <- & _). destruct (k mod w =? 2); auto.
Qed.
Lemma hills_same : forall w h, same_links (openField w h) (hills w h).
Proof. intros w h. apply HeightData.raised_same. unfold openField. cbn [chf_spans]. now rewrite !map_length. Qed.
Example C80_field_case : forall w h bs, 2 <= w -> 0 < h <= 32760 -> w * h < 2 ^ 31 -> 0 <= bs -> field_ok (hills w h) /\ few_runs (hills w h) bs.
Proof.
  intros w h bs Hw Hh HN Hb. destruct (Regions.C48_open_hypotheses w h bs Hw Hh HN Hb) as (wf & _ & _ & R). split.
  - constructor.
    + exact (same_wf _ _ (hills_same w h) wf).
    + apply (same_mutual _ _ (hills_same w h)), open_mutual; lia.
    + intros i y H. apply hills_height in H. lia.
    + intros i a G. apply get_ok in G as [_ G]. apply nth_error_In in G. unfold hills, HeightData.raised, openField in G. cbn [chf_areas] in G. apply repeat_spec in G. lia.
    + exact HN.
  - exact (same_few _ _ bs (hills_same w h) eq_refl R).
Qed.
Definition exConfig (bs : Z) : Config := mkConfig bs 1 20 (f_ratio 13 10) 12 6 (f_ratio 3 10) (f_ratio 2 10) (f_ratio 6 10) (f_ratio 2 10).
Definition grid3 (w h : Z) : list (Z * Z * Z) :=
  flat_map (fun x => flat_map (fun y => map (fun z => (x, y, z)) (zseq (Z.to_nat (h + 1)))) [5; 9]) (zseq (Z.to_nat (w + 1))).
Definition stepsFit (w h : Z) (cs ch sd : f32) : bool :=
  forallb (fun '(x, y, z) => forallb (fun '(x', y', z') =>
    let s := PolyDetailSpec.steps sd (fmul (f_of_Z x) cs, fmul (f_of_Z y) ch, fmul (f_of_Z z) cs) (fmul (f_of_Z x') cs, fmul (f_of_Z y') ch, fmul (f_of_Z z') cs) in
    (0 <=? s) && (s <? 2147483647)) (grid3 w h)) (grid3 w h).
Lemma hills_config : forall w h bs, 0 <= bs -> 0 <= w <= 65535 -> 0 <= h <= 65535 -> w * h <= 1073741824 -> stepsFit w h (f_ratio 3 10) (f_ratio 2 10) (f_ratio 6 10) = true -> config_ok (exConfig bs) (hills w h).
Proof.
  intros w h bs Hb Hw Hh HA HS. constructor; cbn [exConfig cfBorder cfNvp cfMaxError cfSampleDist cfCs cfCh hills HeightData.raised openField chf_w chf_h]; try lia.
  - vm_compute. discriminate.
  - reflexivity.
  - intros x y z x' y' z' i i' B1 B2 B3 B4 H1 H2. change (chf_w (hills w h)) with w in *. change (chf_h (hills w h)) with h in *. apply hills_height in H1, H2.
    assert (IG : forall a b c, 0 <= a <= w -> 0 <= c <= h -> b = 5 \/ b = 9 -> In (a, b, c) (grid3 w h)).
    { intros a b c A C Q. apply in_flat_map. exists a. split; [apply in_zseq; lia|]. apply in_flat_map. exists b. split; [cbn; lia|]. apply in_map_iff. exists c. split; [reflexivity|apply in_zseq; lia]. }
    unfold stepsFit in HS. rewrite forallb_forall in HS. specialize (HS _ (IG x y z B1 B3 H1)). cbv beta iota in HS. rewrite forallb_forall in HS. specialize (HS _ (IG x' y' z' B2 B4 H2)). cbv beta iota zeta in HS.
    apply andb_true_iff in HS as [S1 S2]. apply Z.leb_le in S1. apply Z.ltb_lt in S2. lia.
Qed.
Example C80_config_case : config_ok (exConfig 0) (hills 6 5) /\ config_ok (exConfig 1) (hills 7 4).
Proof. split; apply hills_config; try lia; vm_compute; reflexivity. Qed.
(** Outlines of fields of this size are always short enough. *)
Example C80_outlines_case : forall chf bs minArea mergeArea chf' mx, field_ok chf -> 0 <= bs -> few_runs chf bs -> chf_spanCount chf <= 9999 ->
  BuildRegionsMonotone chf bs minArea mergeArea = Ok (chf', mx) -> forall r, 0 < r <= mx -> short_outlines chf' r.
Proof.
  intros chf bs minArea mergeArea chf' mx F Hb FR N E r B. destruct (C80_regions chf bs minArea mergeArea F Hb FR) as (c & k & E' & BM & FO & _ & _ & EA & _ & R16 & _). rewrite E in E'. apply Ok_inj in E'. injection E' as <- <-.
  apply Contours.C69_short; [exact (fo_wf _ FO)|exact (fo_mutual _ FO)|exact R16|lia|]. apply few_spans; [exact (fo_wf _ FO)|]. rewrite <- (ok_areas _ (fo_wf _ FO)), EA, (ok_areas _ (fo_wf _ F)). exact N.
Qed.
(** Without border: one rectangle, with the ridge in its details. *)
Example C80_solo_case : match buildMeshes (exConfig 0) (f0, f0, f0) (hills 6 5) with
  | Ok (Some (m, dm)) => mVerts m = [0; 5; 0; 0; 5; 5; 6; 5; 5; 6; 5; 0] /\ mRegs m = [1] /\ mAreas m = [63] /\ firstn 6 (mPolys m) = [0; 1; 2; 3; 65535; 65535] /\
      dmMeshes dm = [(0, 6, 0, 6)]
  | _ => False
  end.
Proof. vm_compute. repeat split. Qed.
(** With border: vertices from the border on; the sides are portals (32768 + side). *)
Example C80_tile_case : match buildMeshes (exConfig 1) (f0, f0, f0) (hills 7 4) with
  | Ok (Some (m, dm)) => mVerts m = [0; 5; 2; 5; 5; 2; 5; 5; 0; 0; 5; 0] /\ mRegs m = [5] /\
      mPolys m = [0; 1; 2; 3; 65535; 65535; 32769; 32770; 32771; 32768; 65535; 65535] /\ dmMeshes dm = [(0, 8, 0, 6)]
  | _ => False
  end.
Proof. vm_compute. repeat split. Qed.

Print Assumptions C80_field.
Print Assumptions C80_eroded.
Print Assumptions C80_marked.
Print Assumptions C80_regions.
Print Assumptions C80_contours.
Print Assumptions C80_mesh.
Print Assumptions C80_place.
Print Assumptions C80_builds.
