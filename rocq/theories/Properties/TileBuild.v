(** From the heightfield to the bytes of a tile (sample/solomesh/builder.go, sample/tilemesh/builder.go,
    detour/navmeshcreate.go). *)
From Coq Require Import ZArith List Bool Lia Permutation.
From Verif.Base Require Import Res GoNum Grid F32 Num.
From Verif.Model Require Import Geom Poly MeshTypes Compact RegionMerge BuildMesh PolyDetail MeshDetail SoloMesh BvTree Serial MeshLinks Create Delaunay NavData.
From Verif.Spec Require Import SerialSpec TraceSpec MeshOpsSpec PipelineSpec CreateSpec NavDataSpec.
From Verif.Spec Require MeshDetailSpec BuildSpec MeshSpec.
From Verif.Model Require Status MeshTiles.
From Verif.Proofs Require Import NavDataProofs.
From Verif.Proofs Require DelaunayGeo PipelineProofs.
From Verif.Properties Require Pipeline DetourCreate DetourBv DetourMesh.
Import ListNotations.
Open Scope Z_scope.

(** Areas and flags of all polygons. *)
Theorem C81_flags : forall areas, setFlags (Z.of_nat (length areas)) areas = Ok (map tile_area areas, map tile_flags areas).
Proof. exact setFlags_ok. Qed.

Lemma triFlags_u8 : forall a b c p, 0 <= getTriFlags a b c p < 64.
Proof.
  intros. rewrite DelaunayGeo.triFlags_ok.
  assert (B : forall a b, getEdgeFlags a b p = 0 \/ getEdgeFlags a b p = 1) by (intros; apply DelaunayGeo.edgeFlag_loop).
  destruct (B a b), (B b c), (B c a); lia.
Qed.

(** No tile from a mesh without polygons, or with too many vertices per polygon. *)
Theorem C81_none : forall sort cf ag cn tx ty bmin bmax chf m dm cap w h V Q,
  buildMeshes cf bmin chf = Ok (Some (m, dm)) -> BuildSpec.holdsMesh cap (cfNvp cf) (cfBorder cf) w h V Q m -> 6 < cfNvp cf \/ Q = [] ->
  buildTile sort cf ag cn tx ty bmin bmax chf = Ok None.
Proof.
  intros sort cf ag cn tx ty bmin bmax chf m dm cap w h V Q E HM H. unfold buildTile. rewrite E. cbn [bind]. destruct (Z.ltb_spec 6 (cfNvp cf)); [reflexivity|].
  destruct H as [H| ->]; [lia|]. destruct HM as (_ & _ & _ & NP & _ & EA & _). rewrite NP, EA. cbn [map length]. change (setFlags (Z.of_nat 0) []) with (Ok (@nil Z, @nil Z)). cbn [bind].
  apply DetourCreate.C33_rejects. right. right. right. right. left. exact NP.
Qed.

(** From both meshes to the tile: its header, polygons and details, connections and, without these, all it holds. *)
Theorem C81_tile : forall sort cf ag cn tx ty bmin bmax chf chf' m dm cap w h V Q subs, (forall less l, Permutation (sort less l) l) ->
  buildMeshes cf bmin chf = Ok (Some (m, dm)) -> 0 <= cfBorder cf -> 3 <= cfNvp cf <= 6 ->
  BuildSpec.holdsMesh cap (cfNvp cf) (cfBorder cf) w h V Q m -> cap * cfNvp cf <= 65535 -> Forall (BuildSpec.proper (cfNvp cf) (Z.of_nat (length V))) Q ->
  Z.of_nat (length Q) <= cap -> Q <> [] -> MeshDetailSpec.packed dm subs ->
  Forall2 (fun i sub => MeshDetailSpec.submesh (detailInput cf bmin chf' m) (cfSampleDist cf) (cfSampleErr cf) i sub /\
                        MeshDetailSpec.submesh_sane (detailInput cf bmin chf' m) i sub) (zseq (length Q)) subs ->
  let lo := low_corner (cfBorder cf) (cfCs cf) bmin in let hi := high_corner (cfBorder cf) (cfCs cf) bmax in
  conns_ok cn (Z.of_nat (length V)) (Z.of_nat (length Q)) lo hi -> is_i32 tx -> is_i32 ty ->
  3 * (zlen (concat (map fst subs)) - zlen (concat (map fst Q))) <= 65535 ->
  exists buf hd, buildTile sort cf ag cn tx ty bmin bmax chf = Ok (Some buf) /\ header_unserialize buf = Ok hd /\ header_holds hd ag tx ty lo hi V Q subs /\
    exists t, tile_unserialize hd (skipn (Z.to_nat header_size) buf) = Ok t /\ tile_polys t (cfNvp cf) (mPolys m) Q subs /\
      (exists f, let ks := filter f (zseq (Z.to_nat (cnCount cn))) in hOffMeshConCount hd = zlen ks /\ tile_conns t cn (length V) (length Q) ks /\ forall k, In k ks -> starts_inside cn lo hi k) /\
      (cnCount cn = 0 -> tile_holds t lo (cfCs cf) (cfCh cf) V Q /\ MeshSpec.fit_data buf hd).
Proof.
  intros sort cf ag cn tx ty bmin bmax chf chf' m dm cap w h V Q subs Hs E Hbs Hn HM Hcap PR LQ NE PK F2 lo hi CO TX TY DT.
  assert (LS : length subs = length Q) by (assert (LF : forall (B : Type) (l1 : list Z) (l2 : list B) (R : Z -> B -> Prop), Forall2 R l1 l2 -> length l1 = length l2) by (clear; intros B l1 l2 R F; induction F; cbn; congruence); pose proof (LF _ _ _ _ F2) as L; unfold zseq in L; rewrite map_length, seq_length in L; lia).
  assert (SS : forall i q sub, nth_error Q i = Some q -> nth_error subs i = Some sub ->
    zlen (fst q) <= zlen (fst sub) <= 127 /\ zlen (snd sub) <= 255 /\ Forall is_u8 (flat_map quad (snd sub))).
  { intros i q sub EQ ES. assert (L : (i < length Q)%nat) by (apply nth_error_Some; congruence).
    assert (EZ : nth_error (zseq (length Q)) i = Some (Z.of_nat i)).
    { unfold zseq. apply map_nth_error. rewrite (nth_error_nth' _ 0%nat) by (rewrite seq_length; lia). now rewrite seq_nth. }
    assert (G : forall (B : Type) (l1 : list Z) (l2 : list B) (R : Z -> B -> Prop) k x y, Forall2 R l1 l2 -> nth_error l1 k = Some x -> nth_error l2 k = Some y -> R x y).
    { clear. intros B l1 l2 R k x y F. revert k. induction F; intros [|k] X Y; try discriminate X; cbn in X, Y; [congruence|eauto]. }
    destruct (G _ _ _ _ _ _ _ F2 EZ ES) as ((data0 & data & room & room' & n & ts & reg & _ & _ & _ & _ & _ & _ & ET) & (S1 & S2 & _ & S4)).
    assert (EP : MeshDetailSpec.polygon (detailInput cf bmin chf' m) (Z.of_nat i) = fst q).
    { assert (VE : verts_of (prm cf ag cn tx ty bmin bmax m dm Q) (Z.of_nat i) = fst q) by (eapply verts_is; eassumption).
      rewrite <- VE. symmetry. unfold verts_of. etransitivity; [apply before_upto|]. unfold part, MeshDetailSpec.polygon, prm, createParams. cbn [detailInput diNvp diPolys cpPolys cpNvp nilOr]. do 3 f_equal. lia. }
    rewrite EP in S1. split; [exact S1|]. split; [exact S2|]. apply Forall_forall. intros x Ix. apply in_flat_map in Ix as ([[[a b] c] f] & I & Ix). pose proof (S4 _ _ _ _ I) as B.
    assert (BF : 0 <= f < 64). { rewrite ET in I. apply in_map_iff in I as ([[a' b'] c'] & EI & _). injection EI as _ _ _ <-. apply triFlags_u8. }
    unfold is_u8. cbn [quad In] in Ix. lia. }
  set (p := prm cf ag cn tx ty bmin bmax m dm Q).
  assert (SZ : sized p) by (eapply prm_sized; eassumption). assert (DE : detailed p) by (eapply prm_detailed; eassumption).
  assert (HH : header_holds (spec_header p) ag tx ty lo hi V Q subs) by (eapply header_is; eassumption).
  destruct (DetourCreate.C33_create sort p Hs SZ DE eq_refl) as (bv & buf & H). cbv zeta in H. destruct H as (_ & EB & _ & EH & _ & _ & _ & ET & EC).
  assert (TH : cnCount cn = 0 -> tile_holds (spec_tile p bv) lo (cfCs cf) (cfCh cf) V Q) by (eapply holds; eassumption).
  assert (TP : tile_polys (spec_tile p bv) (cfNvp cf) (mPolys m) Q subs) by (eapply polys_hold; eassumption).
  assert (TC : tile_conns (spec_tile p bv) cn (length V) (length Q) (kept p)) by (eapply conns_hold; eassumption).
  assert (AF : cnCount cn = 0 -> 1 <= link_room p /\ Forall (MeshSpec.fit_poly (zlen (tdVerts (spec_tile p bv)))) (tdPolys (spec_tile p bv))) by (eapply all_fit; eassumption).
  assert (KI : forall k, In k (kept p) -> starts_inside cn lo hi k).
  { intros k I. apply filter_In in I as (I & S). unfold upto in I. change (cpOMCount p) with (cnCount cn) in I. apply in_zseq in I. eapply kept_inside; try eassumption; lia. }
  assert (KF : exists f, let ks := filter f (zseq (Z.to_nat (cnCount cn))) in ks = kept p) by (exists (starts_here p); reflexivity). destruct KF as (f & KF). cbv zeta in KF.
  exists buf, (spec_header p). split; [|split; [exact EH|split; [exact HH|]]].
  - unfold buildTile. rewrite E. cbn [bind]. rewrite (proj2 (Z.ltb_ge _ _)) by lia. destruct HM as (_ & _ & _ & NP & _ & EA & _). rewrite EA, NP.
    replace (Z.of_nat (length Q)) with (Z.of_nat (length (map (fun q : list Z * (Z * Z) => snd (snd q)) Q))) by now rewrite map_length. rewrite setFlags_ok. cbn [bind]. rewrite !map_map. exact EB.
  - destruct (kept p) as [|k0 l0] eqn:EK.
    + exists (spec_tile p bv). split; [exact (ET eq_refl)|]. split; [exact TP|]. split; [|intros C0; split; [exact (TH C0)|]; destruct (AF C0) as (AL & AP); split; [exact EH|split; [reflexivity|split; [reflexivity|]]]; exists (spec_tile p bv); split; [exact (ET eq_refl)|split; [exact AL|split; [unfold spec_header; cbn [hOffMeshConCount]; now rewrite EK|exact AP]]]]. exists f. cbv zeta. rewrite KF. split; [|split; [exact TC|exact KI]].
      unfold spec_header. cbn [hOffMeshConCount]. now rewrite EK.
    + destruct (exists_last (l := k0 :: l0)) as (l & i & El); [discriminate|]. eexists. split; [exact (EC l i El)|]. split; [exact TP|]. split.
      * exists f. cbv zeta. rewrite KF. split; [unfold spec_header; cbn [hOffMeshConCount]; now rewrite EK|]. split; [|exact KI].
        destruct TC as ((T1 & T2) & T3). split; [split; [exact T1|cbn [tdCons]; rewrite map_length; exact T2]|]. intros n k En. destruct (T3 n k En) as (TA & (c & Ec & Hc)). split; [exact TA|].
        cbn [tdCons]. eexists. split; [exact (map_nth_error _ _ _ Ec)|]. exact Hc.
      * intros C0. exfalso. assert (K : kept p = []) by (unfold kept; change (cpOMCount p) with (cnCount cn); rewrite C0; reflexivity). rewrite K in EK. discriminate EK.
Qed.

Lemma Forall2_weak : forall {A B} (R S : A -> B -> Prop) l1 l2, Forall2 R l1 l2 -> (forall x y, R x y -> S x y) -> Forall2 S l1 l2.
Proof. intros A B R S l1 l2 F H. induction F; [apply Forall2_nil|apply Forall2_cons; auto]. Qed.
(** From the field to the tile. *)
Theorem C81_builds : forall sort cf ag cn tx ty bmin bmax chf, (forall less l, Permutation (sort less l) l) ->
  field_ok chf -> config_ok cf chf -> few_runs chf (cfBorder cf) -> is_i32 tx -> is_i32 ty ->
  let lo := low_corner (cfBorder cf) (cfCs cf) bmin in let hi := high_corner (cfBorder cf) (cfCs cf) bmax in
  exists chf' mx, BuildRegionsMonotone chf (cfBorder cf) (cfMinArea cf) (cfMergeArea cf) = Ok (chf', mx) /\
  ((forall r, 0 < r <= mx -> short_outlines chf' r) ->
   exists conts tr, TraceSpec.stored chf' (cfBorder cf) (cfMaxError cf) (cfMaxEdgeLen cf) 1 tr conts /\
    (Z.max mx 8 < zlen conts -> buildTile sort cf ag cn tx ty bmin bmax chf = Panic) /\
    (zlen conts <= Z.max mx 8 -> 65534 <= BuildSpec.total conts -> buildTile sort cf ag cn tx ty bmin bmax chf = Ok None) /\
    (zlen conts <= Z.max mx 8 -> BuildSpec.total conts * cfNvp cf <= 65535 ->
     (buildMeshes cf bmin chf = Panic /\ buildTile sort cf ag cn tx ty bmin bmax chf = Panic) \/
     exists m dm V Q subs, buildMeshes cf bmin chf = Ok (Some (m, dm)) /\
       BuildSpec.holdsMesh (BuildSpec.total conts) (cfNvp cf) (cfBorder cf) (chf_w chf - cfBorder cf * 2) (chf_h chf - cfBorder cf * 2) V Q m /\
       Forall (fits chf' (cfBorder cf) V) Q /\ MeshDetailSpec.packed dm subs /\
       Forall2 (fun i sub => MeshDetailSpec.submesh (detailInput cf bmin chf' m) (cfSampleDist cf) (cfSampleErr cf) i sub) (zseq (length Q)) subs /\
       (6 < cfNvp cf \/ Q = [] -> buildTile sort cf ag cn tx ty bmin bmax chf = Ok None) /\
       (cfNvp cf <= 6 -> Q <> [] -> conns_ok cn (Z.of_nat (length V)) (Z.of_nat (length Q)) lo hi ->
        3 * (zlen (concat (map fst subs)) - zlen (concat (map fst Q))) <= 65535 ->
        exists buf hd, buildTile sort cf ag cn tx ty bmin bmax chf = Ok (Some buf) /\ header_unserialize buf = Ok hd /\ header_holds hd ag tx ty lo hi V Q subs /\
          exists t, tile_unserialize hd (skipn (Z.to_nat header_size) buf) = Ok t /\ tile_polys t (cfNvp cf) (mPolys m) Q subs /\
      (exists f, let ks := filter f (zseq (Z.to_nat (cnCount cn))) in hOffMeshConCount hd = zlen ks /\ tile_conns t cn (length V) (length Q) ks /\ forall k, In k ks -> starts_inside cn lo hi k) /\
      (cnCount cn = 0 -> tile_holds t lo (cfCs cf) (cfCh cf) V Q /\ MeshSpec.fit_data buf hd)))).
Proof.
  intros sort cf ag cn tx ty bmin bmax chf Hs F CG FR TX TY lo hi. destruct (Pipeline.C80_builds cf bmin chf F CG FR) as (chf' & mx & E & H). exists chf', mx. split; [exact E|]. intros SO.
  destruct (H SO) as (conts & tr & ST & _ & H1 & H2 & H3). exists conts, tr. split; [exact ST|]. unfold buildTile at 1 2. split; [intros L; rewrite (H1 L); reflexivity|]. split; [intros L T; rewrite (H2 L T); reflexivity|].
  intros L T. destruct (H3 L T) as (V0 & Q0 & V & F' & Q & j & _ & _ & FT & PR & LQ & H4).
  assert (PA : buildMeshes cf bmin chf = Panic -> buildMeshes cf bmin chf = Panic /\ buildTile sort cf ag cn tx ty bmin bmax chf = Panic) by (intros P; split; [exact P|]; unfold buildTile; rewrite P; reflexivity).
  destruct H4 as [(m & HM & [(dm & subs & EM & PK & F2)|(P & _)])|(_ & P & _)]; [|left; exact (PA P)|left; exact (PA P)].
  right. exists m, dm, V, Q, subs. split; [exact EM|]. split; [exact HM|]. split; [exact FT|]. split; [exact PK|]. split.
  - apply (Forall2_weak _ _ _ _ F2). intros i sub R. exact (proj1 R).
  - split; [intros N; exact (C81_none _ _ _ _ _ _ _ _ _ _ _ _ _ _ _ _ EM HM N)|]. intros N6 NE CO DT.
    destruct (cg_nvp _ _ CG) as (N3 & _).
    exact (C81_tile sort cf ag cn tx ty bmin bmax chf chf' m dm _ _ _ V Q subs Hs EM (cg_border _ _ CG) (conj N3 N6) HM T PR LQ NE PK F2 CO TX TY DT).
Qed.

(** Such a tile can be added to every mesh with a free slot and no tile at its place. *)
Theorem C81_added : forall buf hd ag tx ty lo hi V Q subs mesh A, MeshSpec.fit_data buf hd -> header_holds hd ag tx ty lo hi V Q subs ->
  MeshSpec.Run MeshSpec.fits mesh A -> ~ In (tx, ty, 0) (map MeshSpec.eLoc A) -> Z.of_nat (length A) < npMaxTiles (mParams mesh) ->
  exists mesh' ref, MeshTiles.AddTile mesh buf 0 = Ok (mesh', Status.Success, ref).
Proof.
  intros buf hd ag tx ty lo hi V Q subs mesh A F (HX & HY & HL & _) R N L. refine (proj1 (DetourMesh.C13_add_iff_free_slot mesh A buf hd R F _) L). unfold MeshSpec.loc. rewrite HX, HY, HL. exact N.
Qed.

(** ** Cases *)
Definition noConns : Connections := mkConns [] [] [] [] [] [] 0.
Example C81_conns_case : forall nv np lo hi, nv <= 65536 -> conns_ok noConns nv np lo hi.
Proof. intros. constructor; unfold zlen; cbn; repeat split; try lia; auto. Qed.
(** One connection from (1, 1, 1) to (2, 1, 2), with radius 1, in a tile from (0, 0, 0) to (4, 4, 4). *)
Example C81_conn_case : let b z := bits32 (f_of_Z z) in
  conns_ok (mkConns [b 1; b 1; b 1; b 2; b 1; b 2] [b 1] [1] [4] [1] [7] 1) 4 1 (f0, f0, f0) (f_of_Z 4, f_of_Z 4, f_of_Z 4).
Proof.
  intros b. constructor; cbn [cnCount cnVerts cnRad cnFlags cnAreas cnDir cnId]; unfold zlen, is_u32, is_u16, is_u8; cbn [length].
  - lia.
  - split; [lia|]. repeat (apply Forall_cons; [vm_compute; split; congruence|]). apply Forall_nil.
  - split; [lia|]. repeat (apply Forall_cons; [vm_compute; split; congruence|]). apply Forall_nil.
  - split; [lia|]. apply Forall_cons; [lia|apply Forall_nil].
  - split; [lia|]. apply Forall_cons; [lia|apply Forall_nil].
  - lia.
  - split; [right; lia|]. apply Forall_cons; [lia|apply Forall_nil].
  - intros _. repeat split; vm_compute; reflexivity.
Qed.
(** Zero and the sizes used below are float32. *)
Example C81_float_case : Forall float32 [f0; f_ratio 3 10; f_ratio 2 10; fadd f0 (fmul (f_of_Z 1) (f_ratio 3 10))].
Proof. repeat (apply Forall_cons; [vm_compute; reflexivity|]). apply Forall_nil. Qed.
Example C81_flags_case : setFlags 8 [63; 0; 1; 2; 3; 4; 5; 63] = Ok ([0; 0; 1; 2; 3; 4; 5; 0], [1; 1; 2; 1; 5; 1; 0; 1]).
Proof. reflexivity. Qed.
Definition exAgent : Agent := mkAgent (f_of_Z 2) (f_ratio 6 10) (f_ratio 9 10).
Definition exTile (cf : Config) (cn : Connections) (tx ty : Z) (w h : Z) : res (option (MeshHeader * TileData)) :=
  let* r := buildTile DetourBv.isort cf exAgent cn tx ty (f0, f0, f0) (f_of_Z 3, f_of_Z 3, f_of_Z 3) (Pipeline.hills w h) in
  match r with
  | None => Ok None
  | Some buf => let* hd := header_unserialize buf in let* t := tile_unserialize hd (skipn (Z.to_nat header_size) buf) in Ok (Some (hd, t))
  end.
(** The field of C80_solo_case: one polygon, no neighbours, two more vertices in its details. *)
Example C81_solo_case : match exTile (Pipeline.exConfig 0) noConns 0 0 6 5 with
  | Ok (Some (hd, t)) => (hPolyCount hd, hVertCount hd, hDetailVertCount hd, hDetailTriCount hd) = (1, 4, 2, 6) /\
      map pVerts (tdPolys t) = [[0; 1; 2; 3; 0; 0]] /\ map pNeis (tdPolys t) = [[0; 0; 0; 0; 0; 0]] /\ map pFlags (tdPolys t) = [1] /\ map pAreaAndType (tdPolys t) = [0]
  | _ => False
  end.
Proof. vm_compute. repeat split. Qed.
(** The field of C80_tile_case: sides are portals to the neighbour tiles. *)
Example C81_tile_case : match exTile (Pipeline.exConfig 1) noConns 3 (-2) 7 4 with
  | Ok (Some (hd, t)) => (hX hd, hY hd) = (3, -2) /\ (hPolyCount hd, hVertCount hd, hDetailVertCount hd, hDetailTriCount hd) = (1, 4, 4, 6) /\
      map pNeis (tdPolys t) = [[32770; 32768; 32774; 32772; 0; 0]]
  | _ => False
  end.
Proof. vm_compute. repeat split. Qed.
(** Two connections, the second of which starts outside: the first is polygon 1, with vertices 4 and 5. *)
Example C81_conns_tile_case : let b n := bits32 (f_ratio n 10) in
  match exTile (Pipeline.exConfig 0) (mkConns [b 6; b 10; b 6; b 12; b 10; b 9; b 60; b 10; b 6; b 12; b 10; b 9] [b 6; b 3] [9; 1] [5; 2] [0; 0] [77; 78] 2) 0 0 6 5 with
  | Ok (Some (hd, t)) => (hPolyCount hd, hVertCount hd, hOffMeshConCount hd) = (2, 6, 1) /\ map pVerts (tdPolys t) = [[0; 1; 2; 3; 0; 0]; [4; 5; 0; 0; 0; 0]] /\
      map pFlags (tdPolys t) = [1; 9] /\ map pAreaAndType (tdPolys t) = [0; 69] /\ map ocPoly (tdCons t) = [1] /\ map ocUserID (tdCons t) = [77] /\ map ocRad (tdCons t) = [b 6]
  | _ => False
  end.
Proof. vm_compute. repeat split. Qed.
(** The tile of C81_solo_case in a new mesh of one tile: added, and then a second time refused. *)
Example C81_added_case : (let one := bits32 (f_of_Z 1) in
  let* (mesh, _) := MeshTiles.Init (mkParams (0, 0, 0) one one 1 4) in
  let* r := buildTile DetourBv.isort (Pipeline.exConfig 0) exAgent noConns 0 0 (f0, f0, f0) (f_of_Z 3, f_of_Z 3, f_of_Z 3) (Pipeline.hills 6 5) in
  match r with
  | Some buf => let* (mesh, st, _) := MeshTiles.AddTile mesh buf 0 in let* (_, st', _) := MeshTiles.AddTile mesh buf 0 in Ok (st, st')
  | None => Panic
  end) = Ok (Status.Success, Status.Failure).
Proof. vm_compute. reflexivity. Qed.

Print Assumptions C81_flags.
Print Assumptions C81_none.
Print Assumptions C81_tile.
Print Assumptions C81_builds.
Print Assumptions C81_added.
