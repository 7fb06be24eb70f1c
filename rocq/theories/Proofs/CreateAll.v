(** CreateNavMeshData as a whole: the sections put together, their types and sizes. *)
From Coq Require Import ZArith List Lia Bool Permutation.
From Verif.Base Require Import Res GoNum F32 Num Grid Bits Bytes.
From Verif.Model Require Import Poly MeshTypes Geom MeshLinks BvTree Serial SegDist Create.
From Verif.Spec Require Import SerialSpec CreateSpec BvSpec.
From Verif.Proofs Require Import CompactProofs SerialProofs BvProofs FloatAdd FloatMag FloatOk CreateBase CreateProofs CreateTile.
From Verif.Properties Require Import DetourBv.
Import ListNotations.
Open Scope Z_scope.

Lemma bv_item_ok : forall dm dv org qf i, 0 <= i -> 4 * i + 4 <= zlen dm -> 0 <= elt dm (4 * i) -> 1 <= elt dm (4 * i + 1) ->
  3 * (elt dm (4 * i) + elt dm (4 * i + 1)) <= zlen dv -> exists it, bv_item dm dv org qf i = Ok it.
Proof.
  intros dm dv org qf i Hi Hl H0 H1 H2. unfold bv_item. rewrite !get_elt by lia. cbn [bind]. rewrite (Z.mul_comm i 4).
  set (vb := elt dm (4 * i)) in *. set (n := elt dm (4 * i + 1)) in *.
  assert (G : forall k, 0 <= k < zlen dv -> exists x, get dv k = Ok x) by (intros k Hk; apply get_in_range; exact Hk).
  assert (A : forall k, 0 <= k -> k + 3 <= 3 * n -> exists v,
    (let* x := get dv (vb * 3 + k) in let* y := get dv (vb * 3 + k + 1) in let* z := get dv (vb * 3 + k + 2) in Ok (x, y, z)) = Ok v).
  { intros k K1 K2. destruct (G (vb * 3 + k)) as [x ->]; [lia|]. destruct (G (vb * 3 + k + 1)) as [y ->]; [lia|]. destruct (G (vb * 3 + k + 2)) as [z ->]; [lia|].
    cbn [bind]. eauto. }
  destruct (A 0) as [v ->]; [lia|lia|]. cbn [bind].
  match goal with |- context [foldM ?f (zseq ?m) ?s0] => destruct (foldM_zseq f (fun _ _ => True) m s0 I) as ([mn mx] & E & _) end.
  - intros k [mn mx] Hk _. destruct (A ((Z.of_nat k + 1) * 3)) as [w ->]; [lia|lia|]. cbn [bind]. eauto.
  - rewrite E. cbn [bind]. eauto.
Qed.

Lemma mk_ok : forall n, 0 <= n -> make_len n = Ok (Z.to_nat n).
Proof. intros n H. apply make_len_ok. lia. Qed.

Section All.
Variable sort : (bvItem -> bvItem -> bool) -> list bvItem -> list bvItem.
Hypothesis Hsort : forall less l, Permutation (sort less l) l.
Variable p : CreateParams.
Hypothesis Hz : sized p.
Hypothesis Hd : detailed p.

Lemma link_room_le : 0 <= link_room p < 2147483648.
Proof using Hz.
  destruct (edges_eq p Hz) as [_ L]. pose proof (b_nums p Hz). pose proof (kept_le p Hz). pose proof (ends_le p Hz).
  unfold link_room. pose proof (filter_zlen_le is_portal (all_edges p)). pose proof (zlen_nonneg (all_edges p)). pose proof (zlen_nonneg (filter is_portal (all_edges p))). lia.
Qed.
Definition the_tree (bv : list BvNode) : Prop :=
  createBVTree sort (cpPolyCount p) (nilOr (cpDMeshes p)) (map f_of_bits (nilOr (cpDVerts p))) (fvec_of (cpBMin p)) (f_of_bits (cpCs p))
    (repeat zeroBv (Z.to_nat (2 * cpPolyCount p))) = Ok (bv, 2 * cpPolyCount p - 1).
Lemma tree_ok : exists bv, the_tree bv /\ zlen bv = 2 * cpPolyCount p /\ Forall typed_bv bv.
Proof using Hz Hd Hsort.
  pose proof (b_nums p Hz) as N. destruct (b_dm p Hd) as [E L].
  destruct (C21_createBVTree sort Hsort (cpPolyCount p) (nilOr (cpDMeshes p)) (map f_of_bits (nilOr (cpDVerts p))) (fvec_of (cpBMin p)) (f_of_bits (cpCs p))
    (repeat zeroBv (Z.to_nat (2 * cpPolyCount p)))) as (bv & items & C & _ & Lb & _).
  - lia.
  - rewrite zlen_repeat. lia.
  - rewrite zlen_repeat. lia.
  - intros Hn. rewrite Hn in L. change (zlen (@nil Z)) with 0 in L. lia.
  - intros i Hi. pose proof (b_each p Hd i Hi) as (B1 & B2 & B3 & B4 & B5 & _). apply bv_item_ok; try lia. unfold zlen in *. rewrite map_length. lia.
  - exists bv. split; [exact C|]. split; [rewrite Lb, zlen_repeat; lia|]. eapply createBV_typed; [exact Hsort| | |exact C]; [lia|].
    apply Forall_forall. intros x Hx. apply repeat_spec in Hx. subst x. unfold typed_bv, zeroBv, u16x3, is_u16, is_i32. cbn. lia.
Qed.

Lemma verts_zlen : zlen (flat_map (world p) (upto (cpVertCount p))) = 3 * cpVertCount p.
Proof using Hz. pose proof (b_nums p Hz). rewrite (flat_map_zlen _ _ 3), upto_zlen by (intros; try apply world_len; lia). lia. Qed.
Lemma kept_in : forall i, In i (kept p) -> 0 <= i < cpOMCount p.
Proof using Hz. intros i H. pose proof (b_nums p Hz). apply filter_In in H as [H _]. apply in_upto in H; lia. Qed.
Lemma ends_zlen : zlen (flat_map (ends p) (kept p)) = 6 * zlen (kept p).
Proof using Hz. rewrite (flat_map_zlen _ _ 6); [lia|]. intros i Hi. apply (ends_len p Hz). now apply kept_in. Qed.

Lemma tileSections_eq : cpBuildBvTree p = true -> forall bv, the_tree bv -> zlen bv = 2 * cpPolyCount p ->
  tileSections sort p = Ok (spec_header p, spec_tile p bv, 100 + data_bytes (spec_tile p bv)).
Proof using Hz Hd.
  intros Hb bv T Lb. pose proof (b_nums p Hz) as N. pose proof (kept_le p Hz) as K. pose proof (ends_le p Hz) as KE. destruct (edges_eq p Hz) as [EE LE].
  pose proof link_room_le as LR. destruct (b_dm p Hd) as [Em Lm]. destruct (z_tricount p Hz) as (T0 & T1 & T2).
  pose proof (extra_le p Hz Hd (Z.to_nat (cpPolyCount p)) ltac:(lia)) as X. rewrite Z2Nat.id in X by lia.
  unfold tileSections. rewrite (classify_eq p Hz). cbn [bind]. rewrite stored_eq, ends_eq, EE. cbn [bind].
  assert (LR2 : i32 (i32 (zlen (all_edges p) + i32 (zlen (filter is_portal (all_edges p)) * 2)) + i32 ((zlen (kept p) + zlen (ends_here p)) * 2)) = link_room p).
  { pose proof (filter_zlen_le is_portal (all_edges p)). pose proof (zlen_nonneg (all_edges p)). pose proof (zlen_nonneg (filter is_portal (all_edges p))).
    rewrite (i32_id (zlen (filter is_portal (all_edges p)) * 2)) by (unfold is_i32; lia). rewrite (i32_id ((zlen (kept p) + zlen (ends_here p)) * 2)) by (unfold is_i32; lia).
    rewrite (i32_id (zlen (all_edges p) + _)) by (unfold is_i32; lia). rewrite i32_id by (unfold is_i32; lia). unfold link_room. lia. }
  rewrite LR2. rewrite (detailCounts_eq p Hz Hd). cbn [bind].
  rewrite (i32_id (zlen (kept p) * 2)) by (unfold is_i32; lia). rewrite (i32_id (cpVertCount p + zlen (kept p) * 2)) by (unfold is_i32; lia).
  rewrite (i32_id (cpPolyCount p + zlen (kept p))) by (unfold is_i32; lia). rewrite (i32_id (3 * extra_total p (cpPolyCount p))) by (unfold is_i32; lia).
  rewrite (i32_id (4 * cpDTriCount p)) by (unfold is_i32; lia). rewrite (i32_id (cpPolyCount p * 2)) by (unfold is_i32; lia).
  rewrite !mk_ok by lia. cbn [bind].
  set (nv := Z.to_nat (3 * (cpVertCount p + zlen (kept p) * 2))). set (np := Z.to_nat (cpPolyCount p + zlen (kept p))).
  rewrite (fillVerts_eq p Hz nv) by (unfold nv; lia). cbn [bind].
  destruct (fillConVerts_eq p Hz nv (flat_map (world p) (upto (cpVertCount p)))) as [m1 ->]; [apply verts_zlen|unfold nv; lia|]. cbn [bind].
  destruct (fillPolys_eq p Hz np) as [src ->]; [unfold np; lia|]. cbn [bind].
  assert (LG : zlen (map (ground p) (upto (cpPolyCount p))) = cpPolyCount p) by (rewrite map_zlen, upto_zlen; lia).
  destruct (fillConPolys_eq p Hz np (map (ground p) (upto (cpPolyCount p)))) as [m2 ->]; [exact LG|unfold np; lia|]. cbn [bind].
  assert (LV : zlen (flat_map (world p) (upto (cpVertCount p)) ++ flat_map (ends p) (kept p)) = 3 * (cpVertCount p + 2 * zlen (kept p))).
  { rewrite zlen_app, verts_zlen, ends_zlen. lia. }
  assert (LP : zlen (map (ground p) (upto (cpPolyCount p)) ++ map (con_poly p) (numbered (kept p))) = cpPolyCount p + zlen (kept p)).
  { rewrite zlen_app, LG, map_zlen, numbered_zlen. lia. }
  rewrite (pad_full nv) by (unfold nv, zlen in *; lia). rewrite (pad_full np) by (unfold np, zlen in *; lia).
  destruct (nilOr (cpDMeshes p)) as [|d0 ds] eqn:Edm; [change (zlen (@nil Z)) with 0 in Lm; lia|]. rewrite <- Edm in *.
  destruct (fillDetails_eq p Hz Hd _ (map (con_poly p) (numbered (kept p))) eq_refl) as [vb Ev]. cbv zeta in Ev. rewrite Ev. clear Ev. cbn [bind].
  rewrite slice_part by lia. cbn [bind]. rewrite Z.sub_0_r.
  assert (LT : zlen (part (cpDTris p) 0 (4 * cpDTriCount p)) = 4 * cpDTriCount p) by (apply part_zlen; lia).
  rewrite <- (pad_nil (Z.to_nat (4 * cpDTriCount p)) 0). rewrite copyA_pad by (try reflexivity; change (zlen (@nil Z)) with 0; lia). cbn [app bind].
  rewrite pad_full by (unfold zlen in LT; lia). rewrite Hb. cbn [bind].
  unfold the_tree in T. rewrite (Z.mul_comm (cpPolyCount p) 2). rewrite T. cbn [bind].
  destruct (fillCons_eq p Hz) as [m3 ->]. cbn [bind].
  assert (LD : zlen (flat_map (extra_verts p) (upto (cpPolyCount p))) = 3 * extra_total p (cpPolyCount p)).
  { pose proof (extra_flat p Hd (Z.to_nat (cpPolyCount p)) ltac:(lia)) as F. rewrite Z2Nat.id in F by lia. exact F. }
  f_equal. f_equal; [f_equal|].
  - unfold spec_header. f_equal; lia.
  - unfold data_bytes, spec_tile. cbn [tdVerts tdPolys tdLinks tdDMeshes tdDVerts tdDTris tdBv tdCons].
    rewrite LV, LP, LD, LT, Lb, zlen_repeat, !map_zlen, numbered_zlen, upto_zlen by lia. lia.
Qed.

(** ** Types *)
Lemma ok_vec : forall v, ok32 (vx (fvec_of v)) /\ ok32 (vy (fvec_of v)) /\ ok32 (vz (fvec_of v)).
Proof. intros [[a b] c]. repeat split; apply ok_of_bits. Qed.
Lemma world_u32 : forall i, Forall is_u32 (world p i).
Proof.
  intros i. destruct (ok_vec (cpBMin p)) as (A & B & C). unfold world. destruct (fvec_of (cpBMin p)) as [[x y] z]. cbn [vx vy vz] in *.
  repeat constructor; apply bits_u32, ok_fadd; try assumption; apply ok_fmul; (apply ok_of_Z || apply ok_of_bits).
Qed.
Lemma Forall_flat : forall {A B} (P : B -> Prop) (f : A -> list B) l, (forall x, In x l -> Forall P (f x)) -> Forall P (flat_map f l).
Proof. intros A B P f l H. apply Forall_forall. intros y Hy. apply in_flat_map in Hy as (x & Hx & Hy). specialize (H x Hx). rewrite Forall_forall in H. now apply H. Qed.
Lemma six_len : forall l, zlen l <= 6 -> length (six l) = 6%nat.
Proof. intros l H. unfold six, zlen in *. rewrite app_length, repeat_length. lia. Qed.
Lemma six_u16 : forall l, Forall is_u16 l -> Forall is_u16 (six l).
Proof. intros l H. unfold six. apply Forall_app. split; [exact H|]. apply Forall_forall. intros x Hx. apply repeat_spec in Hx. subst x. unfold is_u16. lia. Qed.
Lemma elt_default : forall (P : Z -> Prop) l i, Forall P l -> P 0 -> P (elt l i).
Proof. intros P l i F H. unfold elt. destruct (nth_in_or_default (Z.to_nat i) l 0) as [I| ->]; [|exact H]. rewrite Forall_forall in F. now apply F. Qed.
Lemma ground_typed : forall i, 0 <= i < cpPolyCount p -> typed_poly (ground p i).
Proof using Hz.
  intros i Hi. pose proof (b_nums p Hz). pose proof (verts_len p Hz i). pose proof (edges_len p Hz i Hi) as EL. pose proof (zlen_nonneg (verts_of p i)). 
  unfold ground, typed_poly. cbn [pFirstLink pVerts pNeis pFlags pVertCount pAreaAndType].
  repeat match goal with |- _ /\ _ => split end.
  - unfold is_u32; lia.
  - apply six_len. lia.
  - apply six_u16. unfold verts_of. apply before_null_Forall. rewrite <- (Z.add_0_r (2 * cpNvp p * i)). apply (row_u16 p Hz); lia.
  - apply six_len. rewrite map_zlen. lia.
  - apply six_u16. apply Forall_forall. intros x Hx. apply in_map_iff in Hx as (e & <- & He). apply nei_u16. assert (F : Forall is_u16 (edges_of p i)) by (apply (row_u16 p Hz); lia).
    rewrite Forall_forall in F. now apply F.
  - apply elt_default; [apply (z_pflags p Hz)|unfold is_u16; lia].
  - unfold is_u8. lia.
  - pose proof (Z.mod_pos_bound (elt (cpPolyAreas p) i) 64 ltac:(lia)). unfold is_u8. lia.
Qed.
Lemma numbered_in : forall l n i, In (n, i) (numbered l) -> 0 <= n < zlen l /\ In i l.
Proof. intros l n i H. split; [apply in_combine_l in H; apply in_zseq in H; exact H|now apply in_combine_r in H]. Qed.
Lemma con_poly_typed : forall ni, In ni (numbered (kept p)) -> typed_poly (con_poly p ni).
Proof using Hz.
  intros [n i] H. apply numbered_in in H as [Hn Hi]. apply kept_in in Hi. pose proof (b_nums p Hz). pose proof (kept_le p Hz).
  unfold con_poly, typed_poly. cbn [pFirstLink pVerts pNeis pFlags pVertCount pAreaAndType].
  repeat match goal with |- _ /\ _ => split end; try (unfold is_u32, is_u8; lia).
  - reflexivity.
  - apply six_u16. repeat constructor; lia.
  - reflexivity.
  - apply six_u16. constructor.
  - apply elt_default; [apply (z_omflags p Hz)|unfold is_u16; lia].
  - pose proof (Z.mod_pos_bound (elt (cpOMAreas p) i) 64 ltac:(lia)). unfold is_u8. lia.
Qed.
Lemma sector_u8 : forall pt, is_u8 (sector p pt).
Proof. intros pt. unfold sector, is_u8. destruct (side1 _ _ _), (side1 _ _ _); lia. Qed.
Lemma con_of_typed : forall ni, In ni (numbered (kept p)) -> typed_con (con_of p ni).
Proof using Hz.
  intros [n i] H. apply numbered_in in H as [Hn Hi]. apply kept_in in Hi. pose proof (b_nums p Hz). pose proof (kept_le p Hz). pose proof (z_ompoly p Hz).
  unfold con_of, typed_con. cbn [ocPos ocRad ocPoly ocFlags ocSide ocUserID].
  repeat match goal with |- _ /\ _ => split end.
  - pose proof (ends_len p Hz i Hi) as L. unfold zlen in L. lia.
  - apply Forall_part, (z_omverts p Hz).
  - apply elt_default; [apply (z_omrad p Hz)|unfold is_u32; lia].
  - unfold is_u16. lia.
  - unfold is_u8. destruct (_ =? 0); lia.
  - apply sector_u8.
  - apply elt_default; [apply (z_omuid p Hz)|unfold is_u32; lia].
Qed.
Lemma detail_typed : forall i, 0 <= i < cpPolyCount p -> typed_detail (detail_of p i).
Proof using Hz Hd.
  intros i Hi. pose proof (b_each p Hd i Hi) as (B1 & B2 & B3 & B4 & B5 & B6 & B7). pose proof (extra_le p Hz Hd (Z.to_nat i) ltac:(lia)) as X. rewrite Z2Nat.id in X by lia.
  unfold detail_of, typed_detail, is_u32, is_u8. cbn [dVertBase dTriBase dVertCount dTriCount]. lia.
Qed.
Lemma spec_typed : forall bv, Forall typed_bv bv -> typed_tile (spec_tile p bv).
Proof using Hz Hd.
  intros bv Fb. pose proof (b_nums p Hz). unfold typed_tile, spec_tile. cbn [tdVerts tdPolys tdLinks tdDMeshes tdDVerts tdDTris tdBv tdCons].
  repeat match goal with |- _ /\ _ => split end.
  - apply Forall_app. split; apply Forall_flat; intros i Hi; [apply world_u32|]. apply Forall_part, (z_omverts p Hz).
  - apply Forall_app. split; apply Forall_forall; intros x Hx; apply in_map_iff in Hx as (y & <- & Hy); [|now apply con_poly_typed].
    apply ground_typed. apply in_upto in Hy; lia.
  - apply Forall_forall. intros x Hx. apply repeat_spec in Hx. subst x. unfold typed_link, zeroLink, is_u32, is_u8. cbn. lia.
  - apply Forall_forall; intros x Hx; apply in_map_iff in Hx as (y & <- & Hy). apply detail_typed. apply in_upto in Hy; lia.
  - apply Forall_flat. intros i Hi. apply Forall_part, (z_dvu32 p Hz).
  - exact (z_triu8 p Hz).
  - exact Fb.
  - apply Forall_forall; intros x Hx; apply in_map_iff in Hx as (y & <- & Hy). now apply con_of_typed.
Qed.
Lemma header_typed : typed_header (spec_header p).
Proof using Hz Hd.
  pose proof (b_nums p Hz) as N. pose proof (kept_le p Hz) as K. pose proof link_room_le as LR. destruct (z_tricount p Hz) as (T0 & T1 & T2).
  pose proof (extra_le p Hz Hd (Z.to_nat (cpPolyCount p)) ltac:(lia)) as X. rewrite Z2Nat.id in X by lia.
  destruct (z_scalars p Hz) as (A & B & C & D). inversion_clear A as [|? ? A1 A']. inversion_clear A' as [|? ? A2 A'']. inversion_clear A'' as [|? ? A3 _].
  assert (U : forall x, In x [cpUserID p; cpWalkableHeight p; cpWalkableRadius p; cpWalkableClimb p] -> is_u32 x).
  { intros x Hx. rewrite Forall_forall in B. apply B. cbn [In] in *. tauto. }
  unfold typed_header, spec_header. cbn [hMagic hVersion hX hY hLayer hPolyCount hVertCount hMaxLinkCount hDetailMeshCount hDetailVertCount hDetailTriCount hBvNodeCount hOffMeshConCount hOffMeshBase hUserID hWalkableHeight hWalkableRadius hWalkableClimb hBvQuantFactor hBMin hBMax].
  repeat match goal with |- _ /\ _ => split end; try assumption.
  - unfold navMeshMagic, navMeshVersion. repeat (apply Forall_cons; [first [assumption | unfold is_i32; lia]|]). apply Forall_nil.
  - repeat (constructor; [apply U; cbn [In]; tauto|]). repeat constructor; apply bits_u32, ok_inv, ok_of_bits.
Qed.
Lemma spec_counts : forall bv, zlen bv = 2 * cpPolyCount p -> counts_match (spec_header p) (spec_tile p bv).
Proof using Hz Hd.
  intros bv Lb. pose proof (b_nums p Hz) as N. pose proof (kept_le p Hz) as K. pose proof link_room_le as LR. destruct (z_tricount p Hz) as (T0 & T1 & T2).
  pose proof (extra_le p Hz Hd (Z.to_nat (cpPolyCount p)) ltac:(lia)) as X. rewrite Z2Nat.id in X by lia.
  pose proof (extra_flat p Hd (Z.to_nat (cpPolyCount p)) ltac:(lia)) as F. rewrite Z2Nat.id in F by lia.
  unfold counts_match, spec_header, spec_tile. cbn [tdVerts tdPolys tdLinks tdDMeshes tdDVerts tdDTris tdBv tdCons hPolyCount hVertCount hMaxLinkCount hDetailMeshCount hDetailVertCount hDetailTriCount hBvNodeCount hOffMeshConCount].
  rewrite !zlen_app, verts_zlen, ends_zlen, !map_zlen, numbered_zlen, upto_zlen, zlen_repeat, part_zlen by lia.
  repeat match goal with |- _ /\ _ => split end; try lia. exact F.
Qed.

(** ** The bytes *)
Lemma not_rejected : rejects p = false.
Proof using Hz.
  pose proof (b_nums p Hz). destruct (z_verts p Hz) as (vs & Ev & _). destruct (z_polys p Hz) as (ps & Ep & _). unfold rejects. rewrite Ev, Ep.
  unfold VertsPerPolygon. rewrite !Z.gtb_ltb, Z.geb_leb. repeat (apply orb_false_iff; split); try reflexivity; try (apply Z.ltb_ge; lia); try (apply Z.leb_gt; lia); apply Z.eqb_neq; lia.
Qed.
Lemma create_eq : cpBuildBvTree p = true -> forall bv, the_tree bv -> zlen bv = 2 * cpPolyCount p -> forall bytes,
  serializeTileData (repeat 0 (Z.to_nat (data_bytes (spec_tile p bv)))) (spec_tile p bv) = Ok bytes ->
  CreateNavMeshData sort p = Ok (Some (enc_header (spec_header p) ++ bytes)).
Proof using Hz Hd.
  intros Hb bv T Lb bytes S. unfold CreateNavMeshData. rewrite not_rejected, (tileSections_eq Hb bv T Lb). cbn [bind].
  assert (NN : 0 <= data_bytes (spec_tile p bv)).
  { unfold data_bytes. repeat match goal with |- context [zlen ?l] => lazymatch goal with H : 0 <= zlen l |- _ => fail | _ => pose proof (zlen_nonneg l) end end; lia. }
  set (n := data_bytes (spec_tile p bv)) in *. rewrite mk_ok by lia. cbn [bind].
  assert (LH : length (enc_header (spec_header p)) = 100%nat) by (unfold spec_header; destruct (cpBMin p) as [[? ?] ?], (cpBMax p) as [[? ?] ?]; reflexivity).
  rewrite header_serialize_enc by (rewrite zlen_repeat; lia). cbn [bind].
  replace (Z.to_nat (100 + n)) with (100 + Z.to_nat n)%nat by lia. rewrite repeat_app.
  rewrite skipn_app, skipn_all2 by (rewrite repeat_length; lia). rewrite repeat_length, Nat.sub_diag. cbn [skipn app].
  unfold header_size. rewrite from_ok by (rewrite zlen_app, zlen_repeat; unfold zlen; lia). cbn [bind]. change (Z.to_nat 100) with 100%nat.
  rewrite skipn_app, skipn_all2 by lia. rewrite LH, Nat.sub_diag. cbn [skipn app]. rewrite S. cbn [bind].
  rewrite firstn_app, firstn_all2 by lia. rewrite LH, Nat.sub_diag. cbn [firstn]. rewrite app_nil_r. reflexivity.
Qed.
End All.
