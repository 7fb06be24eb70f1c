(** BuildPolyMesh as a whole. *)
From Coq Require Import ZArith List Bool Lia.
From Verif.Base Require Import Res GoNum Grid.
From Verif.Model Require Import Heightfield Contour Triangulate PolyMeshOps BuildMesh.
From Verif.Spec Require Import AreaSpec MeshOpsSpec BuildSpec.
From Verif.Proofs Require Import TriangulateProofs WeldProofs MergeProofs AdjacencyProofs EdgeProofs MergeLoop BuildProofs PortalProofs.
Import ListNotations.
Open Scope Z_scope.

Lemma total_cons : forall c cs, total (c :: cs) = (if null c then 0 else zlen (ctVerts c)) + total cs.
Proof. reflexivity. Qed.
Lemma tris_cons : forall c cs, tris (c :: cs) = (if null c then 0 else zlen (ctVerts c) - 2) + tris cs.
Proof. reflexivity. Qed.

Lemma build_loop : forall nvp maxTris mc cap, 3 <= nvp -> Z.of_nat cap <= 21845 ->
  forall cs V Q st, binv nvp cap mc V Q st ->
  (forall c, In c cs -> null c = false -> zlen (ctVerts c) <= mc) ->
  zlen V + total cs <= Z.of_nat cap -> zlen Q + tris cs <= maxTris ->
  exists st' V' Q', foldM (buildContour nvp maxTris mc) cs st = Ok st' /\ binv nvp cap mc V' (Q ++ Q') st' /\
    built nvp V cs Q' V' /\ zlen Q' <= tris cs /\ zlen V' <= zlen V + total cs /\ bsFlags st' = setAll (marked_ids V cs) (bsFlags st).
Proof.
  intros nvp maxTris mc cap Hn Hcap. induction cs as [|c cs IH]; intros V Q st HB Hmc HV HQ.
  - exists st, V, []. rewrite app_nil_r. split; [reflexivity|]. split; [exact HB|]. split; [constructor|]. cbn. unfold total, tris. cbn. unfold zlen. cbn. split; [lia|]. split; [lia|]. auto.
  - rewrite total_cons in *. rewrite tris_cons in *. cbn [foldM]. destruct (null c) eqn:Nc.
    + assert (buildContour nvp maxTris mc st c = Ok st) as -> by (unfold buildContour; rewrite null_ltb, Nc; reflexivity). cbn [bind].
      destruct (IH V Q st HB) as (st' & V' & Q' & E & HB' & B & L1 & L2 & U); [intros; apply Hmc; [now right|assumption]|lia|lia|].
      exists st', V', Q'. split; [exact E|]. split; [exact HB'|]. split; [now constructor|]. split; [lia|]. split; [lia|]. cbn [marked_ids]. rewrite Nc. exact U.
    + pose proof (total_nonneg cs) as T0. pose proof (tris_bound cs) as T1.
      pose proof (buildContour_ok nvp maxTris mc cap V Q st c Hn Hcap HB Nc (Hmc c (or_introl eq_refl) Nc)) as H.
      destruct (welded_prefix (points c) V) as [W EW].
      destruct (welded V (points c)) as [ids V1] eqn:EWd. cbn [snd] in EW.
      destruct H as (st1 & G & E1 & HB1 & HF & LG & UG); [unfold zlen in *; lia|lia|].
      rewrite E1. cbn [bind].
      assert (zlen V1 <= zlen V + zlen (ctVerts c)) as LV1.
      { assert (forall ps V, (length (snd (welded V ps)) <= length V + length ps)%nat) as K.
        { clear. induction ps as [|p ps IH]; intros V; [cbn; lia|]. cbn [welded length]. destruct (newest V p).
          - specialize (IH V). destruct (welded V ps). cbn [snd] in *. lia.
          - specialize (IH (V ++ [p])). destruct (welded (V ++ [p]) ps). cbn [snd] in *. rewrite app_length in IH. cbn [length] in IH. lia. }
        specialize (K (points c) V). rewrite EWd in K. cbn [snd] in K. unfold points in K. rewrite map_length in K. unfold zlen. lia. }
      destruct (IH V1 (Q ++ map (fun l => (l, (ctReg c, ctArea c))) G) st1 HB1) as (st' & V' & Q' & E & HB' & B & L1 & L2 & U).
      * intros; apply Hmc; [now right|assumption].
      * lia.
      * rewrite zlen_app. unfold zlen at 2. rewrite map_length. unfold null in Nc. apply Nat.ltb_ge in Nc. unfold zlen in *. lia.
      * exists st', V', (map (fun l => (l, (ctReg c, ctArea c))) G ++ Q'). split; [exact E|]. rewrite app_assoc. split; [exact HB'|].
        split; [eapply built_cons; try eassumption|].
        split; [rewrite zlen_app; unfold zlen at 1; rewrite map_length; unfold null in Nc; apply Nat.ltb_ge in Nc; unfold zlen in *; lia|].
        split; [lia|]. cbn [marked_ids]. rewrite Nc, EWd, U, UG. unfold setAll. rewrite fold_left_app. reflexivity.
Qed.

(** No vertex is marked: nothing is removed. *)
Lemma removeFlagged_none : forall fuel nvp maxTris m fl i, 0 <= i -> (Z.to_nat (pmNVerts m - i) <= fuel)%nat -> pmNVerts m <= zlen fl ->
  Forall (fun x => x = 0) fl -> removeFlagged fuel nvp maxTris i m fl = Ok m.
Proof.
  induction fuel as [|fuel IH]; intros nvp maxTris m fl i Hi Hf Hl HF; cbn [removeFlagged].
  - destruct (Z.ltb_spec i (pmNVerts m)); [lia|reflexivity].
  - destruct (Z.ltb_spec i (pmNVerts m)); [|reflexivity]. destruct (get_in_range fl i ltac:(lia)) as (f & E). rewrite E. cbn [bind].
    apply get_ok in E. destruct E as [_ E]. apply nth_error_In in E. rewrite Forall_forall in HF. specialize (HF f E) as E0. subst f. cbn.
    apply IH; try lia. now apply Forall_forall.
Qed.

Lemma init_binv : forall nvp cap mc, 0 <= mc -> binv nvp cap mc [] [] (mkB (newWeld (Z.of_nat cap)) (repeat 0 cap) (repeat 0 (Z.to_nat mc)) []).
Proof.
  intros nvp cap mc H. constructor; cbn [bsWeld bsFlags bsInd bsPolys].
  - apply newWeld_inv.
  - split; [apply repeat_length|]. apply Forall_forall. intros x Hx. apply repeat_spec in Hx. auto.
  - unfold zlen. rewrite repeat_length. lia.
  - apply Forall_forall. intros x Hx. apply repeat_spec in Hx. subst. unfold is_u16. lia.
  - reflexivity.
  - constructor.
Qed.

Lemma build_contours : forall nvp cs, 3 <= nvp -> total cs * nvp <= 65535 -> exists mc st V Q,
  countVerts cs = (total cs, tris cs, mc) /\
  foldM (buildContour nvp (tris cs) mc) cs
    (mkB (newWeld (total cs)) (repeat 0 (Z.to_nat (total cs))) (repeat 0 (Z.to_nat mc)) []) = Ok st /\
  binv nvp (Z.to_nat (total cs)) mc V Q st /\ built nvp [] cs Q V /\ zlen Q <= tris cs /\ zlen V <= total cs /\
  bsFlags st = setAll (marked_ids [] cs) (repeat 0 (Z.to_nat (total cs))).
Proof.
  intros nvp cs Hn HT. pose proof (total_nonneg cs) as T0. pose proof (tris_bound cs) as T1.
  destruct (countVerts_ok cs) as (mc & Ec & Hm0 & Hmc).
  assert (Z.of_nat (Z.to_nat (total cs)) <= 21845) as Hc by nia.
  destruct (build_loop nvp (tris cs) mc (Z.to_nat (total cs)) Hn Hc cs [] []
    (mkB (newWeld (total cs)) (repeat 0 (Z.to_nat (total cs))) (repeat 0 (Z.to_nat mc)) [])) as (st & V & Q & E & HB & B & L1 & L2 & U).
  - pose proof (init_binv nvp (Z.to_nat (total cs)) mc Hm0) as I. rewrite Z2Nat.id in I by exact T0. exact I.
  - exact Hmc.
  - unfold zlen. cbn. lia.
  - unfold zlen. cbn. lia.
  - exists mc, st, V, Q. cbn [app] in HB. change (zlen (@nil vert)) with 0 in L2. auto 10.
Qed.

Lemma unmarked_none : forall cs V, Forall unmarked cs -> marked_ids V cs = [].
Proof.
  induction cs as [|c cs IH]; intros V H; [reflexivity|]. inversion H as [|? ? Hc H']; subst. cbn [marked_ids]. destruct (null c); [auto|].
  destruct (welded V (points c)) as [ids V1]. rewrite IH by exact H'. rewrite app_nil_r. unfold marked_in. unfold unmarked in Hc. clear -Hc. revert ids.
  induction Hc as [|v vs Hv _ IH]; intros [|i ids]; try reflexivity. cbn [combine filter fst]. rewrite Hv. apply IH.
Qed.
Lemma build_ok : forall nvp borderSize w h cs, 3 <= nvp -> total cs * nvp <= 65535 -> Forall unmarked cs ->
  exists m V Q, BuildPolyMesh nvp borderSize w h cs = Ok (Some m) /\ built nvp [] cs Q V /\
    holdsMesh (total cs) nvp borderSize w h V Q m.
Proof.
  intros nvp borderSize w h cs Hn HT HU. pose proof (total_nonneg cs) as T0. pose proof (tris_bound cs) as T1.
  destruct (build_contours nvp cs Hn HT) as (mc & st & V & Q & Ec & E & HB & B & L1 & L2 & U). rewrite (unmarked_none cs [] HU) in U. cbn [setAll fold_left] in U.
  unfold BuildPolyMesh. rewrite Ec. rewrite Z.geb_leb. destruct (Z.leb_spec 65534 (total cs)); [nia|]. rewrite E. cbn [bind]. cbn [pmNVerts pmPolys pmVerts].
  pose proof (bi_weld _ _ _ _ _ _ HB) as HI. pose proof (wi_nv _ _ _ HI) as Env.
  rewrite removeFlagged_none; cbn [pmNVerts].
  2: lia.
  2: rewrite Env; pose proof (zlen_nonneg V); lia.
  2: rewrite U; rewrite Env; unfold zlen in *; rewrite repeat_length; lia.
  2: rewrite U; apply Forall_forall; intros x Hx; now apply repeat_spec in Hx.
  cbn [bind pmNVerts pmPolys pmVerts]. rewrite (bi_polys _ _ _ _ _ _ HB), Env.
  destruct (wi_verts _ _ _ HI) as (rest & Ev & Lv).
  destruct (finish_ok nvp borderSize w h Q (wVerts (bsWeld st)) (zlen V) V Hn) as (t & Et & HC).
  - nia.
  - pose proof (zlen_nonneg V). nia.
  - unfold zlen in *. lia.
  - intros v Hv. eapply at_xz_pos; eauto.
  - apply (bi_good _ _ _ _ _ _ HB).
  - apply bind_ok in Et. destruct Et as (t0 & E1 & E2). rewrite E1. cbn [bind]. rewrite E2. cbn [bind].
    eexists _, V, Q. split; [reflexivity|]. split; [exact B|]. unfold holdsMesh. cbn [mNVerts mVerts mNPolys mRegs mAreas mPolys].
    split; [reflexivity|]. split; [lia|]. split.
    { rewrite Ev, firstn_app, flatten_length, Nat.sub_diag. cbn [firstn]. rewrite app_nil_r. apply firstn_all2. rewrite flatten_length. lia. }
    split; [unfold zlen; now rewrite map_length|]. rewrite !map_map. split; [reflexivity|]. split; [reflexivity|]. exact HC.
Qed.
Lemma build_too_many : forall nvp borderSize w h cs, 65534 <= total cs -> BuildPolyMesh nvp borderSize w h cs = Ok None.
Proof.
  intros nvp borderSize w h cs H. unfold BuildPolyMesh. destruct (countVerts_ok cs) as (mc & Ec & _). rewrite Ec, Z.geb_leb.
  destruct (Z.leb_spec 65534 (total cs)); [reflexivity|lia].
Qed.
