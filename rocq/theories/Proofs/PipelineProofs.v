(** From regions to polygons with details (C80). *)
From Coq Require Import ZArith List Bool Lia.
From Verif.Base Require Import Res GoNum Grid F32 Num.
From Verif.Model Require Import Geom Raster Heightfield Dirs Compact Erode Region RegionMerge HeightSearch Contour BuildMesh PolyDetail MeshDetail SoloMesh.
From Verif.Spec Require Import HeightfieldSpec CompactSpec ErodeSpec RegionSpec MergeSpec ContourSpec TraceSpec MeshOpsSpec.
From Verif.Spec Require HeightSpec PolyDetailSpec MeshDetailSpec BuildSpec.
From Verif.Spec Require Import PipelineSpec.
From Verif.Proofs Require Import ErodeProofs RegionBase TraceStep TraceAll TraceEnd TraceRegions.
From Verif.Proofs Require WeldProofs BuildAll MeshDetailProofs.
From Verif.Properties Require ContourSimplify RegionMerge BuildMesh MeshDetail.
Import ListNotations.
Open Scope Z_scope.

(** ** Contours *)
Lemma region_fun : forall chf i r r', has_region chf i r -> has_region chf i r' -> r = r'.
Proof. intros chf i r r' (s & H & <-) (s' & H' & <-). rewrite H in H'. apply Ok_inj in H'. now subst. Qed.
Lemma loop_region : forall chf loop e r, closed_outline chf loop -> hd_error loop = Some e -> has_region chf (eI e) r ->
  forall e', In e' loop -> has_region chf (eI e') r.
Proof.
  intros chf loop e r (NE & _ & NX) HD HR. assert (K : forall k e', nth_error loop k = Some e' -> has_region chf (eI e') r).
  { induction k as [|k IH]; intros e' He'.
    - destruct loop; [discriminate|]. cbn in HD, He'. congruence.
    - assert (L : (S k < length loop)%nat) by (apply nth_error_Some; congruence).
      destruct (nth_error loop k) as [e0|] eqn:E0; [|apply nth_error_None in E0; lia].
      destruct (NX k e0 e' E0) as (_ & _ & r' & R1 & R2); [rewrite Nat.mod_small by lia; now rewrite Nat.add_1_r|].
      rewrite (region_fun _ _ _ _ (IH e0 eq_refl) R1). exact R2. }
  intros e' I. apply In_nth_error in I as (k & Hk). eauto.
Qed.
Lemma forall2_in_r : forall {A B} (R : A -> B -> Prop) l l' b, Forall2 R l l' -> In b l' -> exists a, In a l /\ R a b.
Proof. intros A B R l l' b F. induction F as [|x y l l' H F IH]; intros I; [destruct I|]. destruct I as [<- | I]; [exists x; split; [now left|exact H]|]. destruct (IH I) as (a & Ia & Ha). exists a. split; [now right|exact Ha]. Qed.
Lemma sublist_in : forall {A} (l k : list A) a, sublist l k -> In a l -> In a k.
Proof. intros A l k a S. induction S as [|b l k S IH|b l k S IH]; intros I; [exact I| |right; auto]. destruct I as [<- | I]; [now left|right; auto]. Qed.
Lemma bit16 : forall a (b : bool), Z.land (a mod 2 ^ 16 + (if b then 2 ^ 17 else 0)) 65536 = 0.
Proof.
  intros a b. apply Z.bits_inj'. intros n Hn. rewrite Z.land_spec, Z.bits_0. change 65536 with (2 ^ 16). rewrite Z.pow2_bits_eqb by lia. destruct (Z.eqb_spec 16 n) as [<-|]; [|apply andb_false_r].
  rewrite andb_true_r. apply Bool.not_true_iff_false. intros T. apply Z.testbit_true in T; [|lia]. pose proof (Z.mod_pos_bound a (2 ^ 16) ltac:(lia)) as B.
  assert (Q : (a mod 2 ^ 16 + (if b then 2 ^ 17 else 0)) / 2 ^ 16 = if b then 2 else 0).
  { destruct b; [|rewrite Z.add_0_r; apply Z.div_small; lia]. change (2 ^ 17) with (2 * 2 ^ 16). rewrite Z.div_add by lia. rewrite Z.div_small by lia. reflexivity. }
  rewrite Q in T. destruct b; discriminate.
Qed.

Section Contours.
Variable chf : CompactHeightfield.
Lemma corner_ends : forall e, (eD e < 4)%nat -> eX e <= fst (edge_to e) <= eX e + 1 /\ eY e <= snd (edge_to e) <= eY e + 1.
Proof. intros [x y i d] D. unfold edge_to. cbn [eX eY eD] in *. destruct d as [|[|[|[|d]]]]; cbn; lia. Qed.
Lemma no_border_bit : borderless chf -> forall e v, point_of chf e v -> Z.testbit (vR v) 16 = false.
Proof.
  intros BL e v (_ & _ & _ & _ & _ & T & _). apply not_true_iff_false. intros B. apply T in B as (r0 & r1 & r2 & r3 & (H0 & H1 & H3 & H2) & TT).
  assert (R0 : forall P r, region_or_0 chf P r -> r < 32768). { intros P r [(j & _ & H)|[_ ->]]; [exact (BL _ _ H)|lia]. }
  apply R0 in H1, H2, H3. apply BL in H0. unfold two_two in TT. lia.
Qed.
Lemma out_of_walk : forall bs maxError mel bf loop t l c, walk_of chf loop t -> result_of maxError mel bf t l -> (3 <= length l)%nat ->
  contour_for chf (Z.max 0 bs) t l c -> contour_ok chf (Z.max 0 bs) c /\ (borderless chf -> BuildSpec.unmarked c).
Proof.
  intros bs me mel bf loop [[i0 vs] we] l c (CO & F2 & _ & (e & HD & EI)) (out & ES & TH & _) L3 (EV & _ & HR & HA). cbn [fst snd] in *.
  pose proof (two_of_loop chf loop vs CO F2) as TP. destruct (ContourSimplify.C68_simplify vs me mel bf TP) as (ks1 & ks & out' & ES' & FO & CY & _).
  rewrite ES in ES'. apply Ok_inj in ES'. subst out'.
  assert (RAW : forall v, In v l -> exists k e' , In e' loop /\ point_of chf e' (raw vs k) /\ out_vertex vs k v).
  { intros v Iv. apply (sublist_in _ _ _ TH) in Iv. destruct (forall2_in_r _ _ _ _ FO Iv) as (k & Ik & O). destruct CY as [CY _]. rewrite Forall_forall in CY. specialize (CY k Ik).
    assert (Ir : In (raw vs k) vs) by (unfold raw; apply nth_In; unfold count in CY; lia).
    destruct (forall2_in_r _ _ _ _ F2 Ir) as (e' & Ie & P). exists k, e'. auto. }
  pose proof (loop_region chf loop e (ctReg c) CO HD) as LR. rewrite EI in LR. specialize (LR HR).
  assert (OL : forall e', In e' loop -> outline chf e'). { destruct CO as (_ & OL & _). now rewrite Forall_forall in OL. }
  assert (Ie : In e loop). { destruct loop; [discriminate|]. cbn in HD. injection HD as ->. now left. }
  split.
  - constructor.
    + now rewrite EV, map_length.
    + destruct (OL e Ie) as (_ & _ & (r & Hr & B) & _). rewrite EI in Hr. now rewrite (region_fun _ _ _ _ HR Hr).
    + exists i0. auto.
    + intros v Iv. rewrite EV in Iv. apply in_map_iff in Iv as (v0 & <- & Iv). destruct (RAW v0 Iv) as (k & e' & Ie' & P & O).
      destruct (OL e' Ie') as (A & D & _). destruct O as (OP & OY & _). destruct P as (PE & (j & _ & PY) & _). unfold without_border. cbn [vX vY vZ]. split.
      * exists (eX e'), (eY e'), (eI e'). split; [exact A|]. split; [now apply LR|]. pose proof (corner_ends e' D) as CE. rewrite <- PE in CE. cbn [fst snd] in CE.
        unfold place in OP. assert (vX v0 = vX (raw vs k)) by congruence. assert (vZ v0 = vZ (raw vs k)) by congruence. lia.
      * exists j. now rewrite OY.
  - intros BL. unfold BuildSpec.unmarked. rewrite EV. apply Forall_forall. intros v Iv. apply in_map_iff in Iv as (v0 & <- & Iv). destruct (RAW v0 Iv) as (k & e' & Ie' & P & O).
    unfold without_border. cbn [vR]. destruct O as (_ & _ & OR). rewrite (no_border_bit BL e' _ P), Z.add_0_r in OR. rewrite OR. apply bit16.
Qed.
Lemma stored_ok : forall bs maxError mel bf tr conts loops, Forall2 (walk_of chf) loops tr -> 0 <= bs -> TraceSpec.stored chf bs maxError mel bf tr conts ->
  Forall (contour_ok chf bs) conts /\ (borderless chf -> Forall BuildSpec.unmarked conts).
Proof.
  intros bs me mel bf tr conts loops W Hbs S. revert loops W.
  assert (SN : forall loops t tr, Forall2 (walk_of chf) loops (tr ++ [t]) -> exists lo lo', Forall2 (walk_of chf) lo tr /\ walk_of chf lo' t).
  { intros loops t tr' W. apply Forall2_app_inv_r in W as (l1 & l2 & W1 & W2 & _). inversion W2 as [|a ? ? ? W3]; subst. eauto. }
  induction S as [|t tr l c cs S IH R L C|t tr l cs S IH R L]; intros loops W; [split; constructor| |].
  - destruct (SN _ _ _ W) as (lo & lo' & W1 & W2). destruct (IH _ W1) as (A & B). replace bs with (Z.max 0 bs) in C by lia.
    destruct (out_of_walk bs me mel bf lo' t l c W2 R L C) as (O & U). replace (Z.max 0 bs) with bs in O by lia.
    split; [apply Forall_app; auto|]. intros BL. apply Forall_app. auto.
  - destruct (SN _ _ _ W) as (lo & lo' & W1 & W2). eauto.
Qed.
End Contours.

(** ** Vertices and polygons *)
Lemma built_incl : forall nvp V cs Q V', BuildSpec.built nvp V cs Q V' -> incl V' (V ++ flat_map BuildSpec.points cs).
Proof.
  induction 1 as [V|V c cs Q V' Hn Hb IH|V c cs ids V1 G Q V' Hn Hw Hf Hb IH]; cbn [flat_map].
  - rewrite app_nil_r. apply incl_refl.
  - intros v Hv. apply IH in Hv. rewrite !in_app_iff in *. tauto.
  - pose proof (WeldProofs.welded_incl (BuildSpec.points c) V) as W. rewrite Hw in W. cbn [snd] in W. intros v Hv. apply IH in Hv. rewrite !in_app_iff in *.
    destruct Hv as [Hv|Hv]; [|tauto]. apply W in Hv. rewrite in_app_iff in Hv. tauto.
Qed.
Lemma built_nonneg : forall nvp V cs Q V', BuildSpec.built nvp V cs Q V' -> forall q, In q Q -> forall v, In v (fst q) -> 0 <= v.
Proof.
  induction 1 as [V|V c cs Q V' Hn Hb IH|V c cs ids V1 G Q V' Hn Hw Hf Hb IH]; intros q Iq v Iv; [destruct Iq|eauto|]. apply in_app_iff in Iq as [Iq|Iq]; [|eauto].
  apply in_map_iff in Iq as (l & <- & Il). cbn [fst] in Iv. destruct Hf as (ts & left & _ & _ & _ & FG & _). rewrite Forall_forall in FG. destruct (FG l Il) as [_ I]. apply I in Iv.
  apply in_map_iff in Iv as (k & <- & _). lia.
Qed.
Lemma row_polygon : forall n t off (l : list Z), (length l <= n)%nat -> (forall v, In v l -> v <> 65535) ->
  (forall j, (j < n)%nat -> nth_error t (off + j) = Some (if (j <? length l)%nat then nth j l 0 else 65535)) ->
  MeshDetailSpec.upto (firstn n (skipn off t)) = l.
Proof.
  induction n as [|n IH]; intros t off l L NL H; [destruct l; [reflexivity|cbn in L; lia]|].
  assert (SK : forall x, nth_error t off = Some x -> skipn off t = x :: skipn (S off) t).
  { clear. revert off. induction t as [|a t IHt]; intros [|off] x E; try discriminate; cbn in E |- *; [congruence|]. now rewrite (IHt _ _ E). }
  pose proof (H 0%nat ltac:(lia)) as H0. rewrite Nat.add_0_r in H0. rewrite (SK _ H0). cbn [firstn MeshDetailSpec.upto]. destruct l as [|v l].
  - cbn. reflexivity.
  - cbn [length Nat.ltb Nat.leb nth]. destruct (Z.eqb_spec v 65535) as [E|E]; [exfalso; apply (NL v); [now left|exact E]|]. f_equal. apply IH.
    + cbn in L. lia.
    + intros u Hu. apply NL. now right.
    + intros j Hj. specialize (H (S j) ltac:(lia)). rewrite <- Nat.add_succ_comm in H. exact H.
Qed.

Lemma nth_low : forall (V : list vert) i u p, (i < length V)%nat -> 0 <= u -> u <> Z.of_nat i -> nth_error V (Z.to_nat u) = Some p ->
  0 <= BuildSpec.low (Z.of_nat i) u /\ nth_error (BuildSpec.without (Z.of_nat i) V) (Z.to_nat (BuildSpec.low (Z.of_nat i) u)) = Some p.
Proof.
  intros V i u p Hi Hu NE H. rewrite (BuildAll.without_nth i V) by exact Hi. unfold BuildSpec.low. destruct (Z.ltb_spec (Z.of_nat i) u).
  - split; [lia|]. destruct (Nat.ltb_spec (Z.to_nat (u - 1)) i); [lia|]. now replace (S (Z.to_nat (u - 1))) with (Z.to_nat u) by lia.
  - split; [lia|]. destruct (Nat.ltb_spec (Z.to_nat u) i); [exact H|lia].
Qed.
Lemma trimmed_fits : forall chf bs nvp maxT i V F Q V' F' Q' j, BuildSpec.trimmed nvp maxT i V F Q V' F' Q' j -> length V = length F ->
  Forall (fits chf bs V) Q -> Forall (fits chf bs V') Q'.
Proof.
  intros chf bs. induction 1 as [i V F Q|i V F Q V' F' Q' j Hk Ht IH|i V F Q R K hole Q1 V' F' Q' j Hf Hr Htn Hp Ht IH]; intros L FQ; [exact FQ|auto|].
  assert (Hi : (i < length V)%nat) by (rewrite L; apply nth_error_Some; congruence).
  apply IH; [now apply BuildAll.without_length|]. destruct Htn as (PM & _ & NK & _). destruct Hp as (N & -> & _ & _ & FN & _).
  assert (FI : forall q, In q R \/ In q K -> fits chf bs V q). { intros q I. rewrite Forall_forall in FQ. apply FQ. apply (Permutation.Permutation_in q (Permutation.Permutation_sym PM)). now apply in_app_iff. }
  apply Forall_app. split; apply Forall_forall; intros q Iq.
  - apply in_map_iff in Iq as (q0 & <- & I0). rewrite Forall_forall in NK. specialize (NK q0 I0). destruct (FI q0 (or_intror I0)) as [Z0|A]; [left; exact Z0|right].
    intros v Iv. unfold BuildSpec.renumbered in Iv. cbn [fst] in Iv. apply in_map_iff in Iv as (u & <- & Iu). destruct (A u Iu) as (U0 & x & y & z & NV & C).
    destruct (nth_low V i u _ Hi U0 ltac:(intros ->; contradiction) NV) as (L0 & LN). split; [exact L0|]. exists x, y, z. split; [exact LN|exact C].
  - assert (I1 : In q N). { rewrite <- (firstn_skipn (Z.to_nat (maxT - Z.of_nat (length K))) N). apply in_app_iff. now left. }
    rewrite Forall_forall in FN. destruct (FN q I1) as (_ & [Z0|T]); [left; exact Z0|]. destruct (Z.eq_dec (fst (snd q)) 0) as [Z0|NZ]; [left; exact Z0|right].
    intros v Iv. destruct (T v Iv) as (ar & q0 & u & Iq0 & E & Iu & NU & ->). destruct (FI q0 (or_introl Iq0)) as [Z0|A]; [rewrite E in Z0; contradiction|].
    rewrite E in A. cbn [fst] in A. destruct (A u Iu) as (U0 & x & y & z & NV & C). destruct (nth_low V i u _ Hi U0 NU NV) as (L0 & LN). split; [exact L0|]. exists x, y, z. split; [exact LN|exact C].
Qed.

Section Mesh.
Variables (chf : CompactHeightfield) (bs : Z).
Hypothesis wf : chf_wf chf.
Hypothesis HI : heights_in chf.
Hypothesis IN : inner chf bs.
Hypothesis Hbs : 0 <= bs.
Hypothesis W16 : chf_w chf <= 65535.
Hypothesis H16 : chf_h chf <= 65535.

Lemma corner_in : forall r x z, 0 < r < 32768 -> corner_of chf r (x + bs) (z + bs) -> 0 <= x <= chf_w chf - 2 * bs /\ 0 <= z <= chf_h chf - 2 * bs.
Proof.
  intros r x z B (cx & cz & i & A & R & X & Z). destruct (IN cx cz i A) as (I1 & I2); [exists r; auto|]. lia.
Qed.
Lemma point_id : forall c v, contour_ok chf bs c -> In v (ctVerts c) -> BuildSpec.point v = (vX v, vY v, vZ v).
Proof.
  intros c v CO Iv. destruct (co_verts _ _ _ CO v Iv) as (C & i & H). pose proof (corner_in _ _ _ (co_region _ _ _ CO) C) as (B1 & B2). pose proof (HI _ _ H).
  unfold BuildSpec.point. rewrite !Z.mod_small by lia. reflexivity.
Qed.
Lemma built_fits : forall nvp cs Q V, BuildSpec.built nvp [] cs Q V -> Forall (contour_ok chf bs) cs -> Forall (fits chf bs V) Q.
Proof.
  intros nvp cs Q V B FC. apply Forall_forall. intros [l [reg ar]] Iq. right. cbn [fst snd]. intros v Iv.
  destruct (BuildMesh.C71_origin _ _ _ _ _ B l reg ar Iq) as (c & Ic & -> & _ & _ & O). rewrite Forall_forall in FC. specialize (FC c Ic).
  destruct (O v Iv) as (p & q & Ip & NV & NR). unfold BuildSpec.points in Ip. apply in_map_iff in Ip as (v0 & <- & I0). rewrite (point_id c v0 FC I0) in NR.
  destruct q as [[x y] z]. unfold MeshOpsSpec.near in NR. rewrite !andb_true_iff in NR. destruct NR as ((E1 & E2) & _). apply Z.eqb_eq in E1, E2.
  split.
  - exact (built_nonneg _ _ _ _ _ B _ Iq v Iv).
  - exists x, y, z. split; [exact NV|]. destruct (co_verts _ _ _ FC v0 I0) as (C & _). now rewrite E1, E2.
Qed.

(** *** The input of the detail mesh *)
Variables (cf : Config) (bmin : vec f32) (conts : list Contour) (V : list vert) (Q : list (list Z * (Z * Z))) (m : PolyMesh).
Hypothesis Ebs : cfBorder cf = bs.
Hypothesis FC : Forall (contour_ok chf bs) conts.
Hypothesis VI : incl V (flat_map BuildSpec.points conts).
Hypothesis PR : Forall (BuildSpec.proper (cfNvp cf) (Z.of_nat (length V))) Q.
Variables (w h : Z).
Hypothesis HM : BuildSpec.holdsMesh (BuildSpec.total conts) (cfNvp cf) bs w h V Q m.
Hypothesis NV3 : 3 <= cfNvp cf <= 126.
Hypothesis TT : BuildSpec.total conts * cfNvp cf <= 65535.
Local Notation I := (detailInput cf bmin chf m).

Lemma vert_of : forall i x y z, nth_error V i = Some (x, y, z) -> exists c v, In c conts /\ contour_ok chf bs c /\ In v (ctVerts c) /\ x = vX v /\ y = vY v /\ z = vZ v.
Proof.
  intros i x y z E. apply nth_error_In in E. apply VI in E. apply in_flat_map in E as (c & Ic & E). unfold BuildSpec.points in E. apply in_map_iff in E as (v & E & Iv).
  rewrite Forall_forall in FC. pose proof (FC c Ic) as CO. rewrite (point_id c v CO Iv) in E. exists c, v. split; [exact Ic|]. split; [exact CO|]. split; [exact Iv|]. repeat split; congruence.
Qed.
Lemma few_verts : 3 * Z.of_nat (length V) <= zlen (mVerts m) /\ Z.of_nat (length V) <= 21845.
Proof.
  destruct HM as (_ & LV & FV & _). pose proof (f_equal (@length Z) FV) as L. rewrite firstn_length, WeldProofs.flatten_length in L. unfold zlen. assert (BuildSpec.total conts <= 21845) by nia. lia.
Qed.
Lemma coords : forall p x y z, 0 <= p -> nth_error V (Z.to_nat p) = Some (x, y, z) ->
  get (mVerts m) (3 * p) = Ok x /\ get (mVerts m) (3 * p + 1) = Ok y /\ get (mVerts m) (3 * p + 2) = Ok z.
Proof.
  intros p x y z P E. destruct HM as (_ & _ & FV & _). rewrite <- (firstn_skipn (3 * length V) (mVerts m)), FV.
  pose proof (WeldProofs.flatten_nth V (skipn (3 * length V) (mVerts m)) _ x y z E) as Q0. rewrite Z2Nat.id in Q0 by lia. now rewrite (Z.mul_comm 3 p).
Qed.
Lemma coords3 : forall p x y z, 0 <= p -> nth_error V (Z.to_nat p) = Some (x, y, z) ->
  MeshDetailSpec.coord I 0 p = x /\ MeshDetailSpec.coord I 1 p = y /\ MeshDetailSpec.coord I 2 p = z.
Proof.
  intros p x y z P E. destruct (coords p x y z P E) as (G0 & G1 & G2). unfold MeshDetailSpec.coord. cbn [detailInput diVerts]. rewrite Z.add_0_r.
  apply get_ok in G0 as [_ G0]. apply get_ok in G1 as [_ G1]. apply get_ok in G2 as [_ G2]. repeat split; now apply nth_error_nth.
Qed.
Lemma polygon_is : forall i q, 0 <= i -> nth_error Q (Z.to_nat i) = Some q -> MeshDetailSpec.polygon I i = fst q.
Proof.
  intros i q Hi E. pose proof (proj1 (Forall_forall _ _) PR) as PR1. pose proof (PR1 q (nth_error_In _ _ E)) as (L & FV & _). destruct HM as (_ & _ & _ & _ & _ & _ & (C1 & _)).
  unfold MeshDetailSpec.polygon. cbn [detailInput diNvp diPolys]. apply row_polygon.
  - lia.
  - intros v Iv. rewrite Forall_forall in FV. specialize (FV v Iv). pose proof few_verts. lia.
  - intros j Hj. pose proof (map_nth_error fst _ _ E) as EM. pose proof (C1 _ _ (Z.of_nat j) EM ltac:(lia)) as C. unfold BuildSpec.vslot in C. rewrite Z2Nat.id in C by lia.
    replace (Z.to_nat (i * cfNvp cf * 2 + Z.of_nat j)) with (Z.to_nat (i * cfNvp cf * 2) + j)%nat in C by lia. rewrite C. f_equal.
    destruct (Nat.ltb_spec j (length (fst q))) as [Lj|Lj]; [rewrite (proj2 (Z.ltb_lt _ _)) by lia|rewrite (proj2 (Z.ltb_ge _ _)) by lia; reflexivity].
    unfold cyc. rewrite Z.mod_small by lia. now rewrite Nat2Z.id.
Qed.
Lemma nth_poly : forall i, 0 <= i < mNPolys m -> exists q, nth_error Q (Z.to_nat i) = Some q /\ In q Q.
Proof.
  intros i Hi. destruct HM as (_ & _ & _ & NP & _). destruct (nth_error Q (Z.to_nat i)) as [q|] eqn:E; [|apply nth_error_None in E; lia]. exists q. split; [reflexivity|exact (nth_error_In _ _ E)].
Qed.
(** A vertex of a polygon. *)
Lemma in_polygon : forall i p, 0 <= i < mNPolys m -> In p (MeshDetailSpec.polygon I i) -> 0 <= p < Z.of_nat (length V) /\ exists x y z, nth_error V (Z.to_nat p) = Some (x, y, z).
Proof.
  intros i p Hi Ip. destruct (nth_poly i Hi) as (q & E & Iq). rewrite (polygon_is i q ltac:(lia) E) in Ip. pose proof (proj1 (Forall_forall _ _) PR) as PR1. destruct (PR1 q Iq) as (_ & FV & _).
  rewrite Forall_forall in FV. specialize (FV p Ip). split; [exact FV|]. destruct (nth_error V (Z.to_nat p)) as [[[x y] z]|] eqn:N; [eauto|apply nth_error_None in N; lia].
Qed.
Lemma point_in : forall p x y z, nth_error V p = Some (x, y, z) -> 0 <= x <= chf_w chf - 2 * bs /\ 0 <= z <= chf_h chf - 2 * bs /\ 0 <= y < 65535 /\ (exists i, has_height chf i y) /\
  exists r, 0 < r < 32768 /\ corner_of chf r (x + bs) (z + bs).
Proof.
  intros p x y z E. destruct (vert_of _ _ _ _ E) as (c & v & Ic & CO & Iv & -> & -> & ->). destruct (co_verts _ _ _ CO v Iv) as (C & i & Hh). pose proof (co_region _ _ _ CO) as R.
  destruct (corner_in _ _ _ R C) as (B1 & B2). pose proof (HI _ _ Hh). split; [exact B1|]. split; [exact B2|]. split; [assumption|]. split; [eauto|]. exists (ctReg c). auto.
Qed.
Lemma input_ok : chf_w chf * chf_h chf <= 1073741824 -> f_ceil_i32 (cfMaxError cf) <= 23169 -> fgt (cfSampleDist cf) f0 = true ->
  countable chf (cfCs cf) (cfCh cf) (cfSampleDist cf) -> mNPolys m <> 0 -> MeshDetailSpec.detail_ok I (cfSampleDist cf).
Proof.
  intros SZ RD SD CT NE. pose proof HM as (NVE & LV & FV & NP & ER & _ & (_ & C2 & _)). destruct few_verts as (FW1 & FW2).
  assert (NP0 : 0 < mNPolys m) by lia. destruct (nth_poly 0 ltac:(lia)) as (q0 & E0 & I0). pose proof (proj1 (Forall_forall _ _) PR) as PR1. pose proof (PR1 q0 I0) as (L0 & F0 & _).
  assert (X0 : exists p, In p (fst q0)). { destruct (fst q0); [cbn in L0; lia|]. exists z. now left. } destruct X0 as (p0 & P0).
  rewrite Forall_forall in F0. pose proof (F0 p0 P0) as BP0. destruct (nth_error V (Z.to_nat p0)) as [[[x0 y0] z0]|] eqn:N0; [|apply nth_error_None in N0; lia].
  destruct (point_in _ _ _ _ N0) as (_ & _ & _ & _ & r0 & R0 & (cx & cz & ii & A & _)). destruct A as (AX & AY & _).
  constructor; cbn [detailInput diChf diBorder diNVerts diNPolys diNvp diPolys diRegs diMaxEdgeError diVerts].
  - exact wf.
  - intros i s G. apply (HI i). exists s. auto.
  - split; [lia|]. split; [lia|exact SZ].
  - lia.
  - split; [lia|]. split; [exact NP0|exact NV3].
  - destruct (C2 (mNPolys m - 1) (cfNvp cf - 1)) as (k & Hk & _); [rewrite map_length; lia|lia|]. assert (B : (Z.to_nat (BuildSpec.nslot (cfNvp cf) (mNPolys m - 1) (cfNvp cf - 1)) < length (mPolys m))%nat) by (apply nth_error_Some; congruence).
    unfold BuildSpec.nslot in B. unfold zlen. nia.
  - rewrite ER. unfold zlen. rewrite map_length. lia.
  - intros i p k Hi Ip Hk. destruct (in_polygon i p Hi Ip) as (BP & x & y & z & N). destruct (coords3 p x y z ltac:(lia) N) as (Q0 & Q1 & Q2). destruct (point_in _ _ _ _ N) as (B1 & B2 & B3 & _).
    assert (k = 0 \/ k = 1 \/ k = 2) as [-> | [-> | ->]] by lia; lia.
  - intros i Hi. destruct (nth_poly i Hi) as (q & E & Iq). rewrite (polygon_is i q ltac:(lia) E). destruct (PR1 q Iq) as (L & _). unfold zlen. lia.
  - intros i p Hi Ip. destruct (in_polygon i p Hi Ip) as (BP & x & y & z & N). destruct (coords3 p x y z ltac:(lia) N) as (Q0 & Q1 & Q2). destruct (point_in _ _ _ _ N) as (B1 & B2 & B3 & _).
    rewrite Q0, Q2, Ebs. lia.
  - exact RD.
  - exact SD.
  - intros i p q Hi Ip Iq. destruct (in_polygon i p Hi Ip) as (BP & x & y & z & N). destruct (coords3 p x y z ltac:(lia) N) as (Q0 & Q1 & Q2). destruct (point_in _ _ _ _ N) as (B1 & B2 & B3 & (j & Hj) & _).
    destruct (in_polygon i q Hi Iq) as (BP' & x' & y' & z' & N'). destruct (coords3 q x' y' z' ltac:(lia) N') as (Q0' & Q1' & Q2'). destruct (point_in _ _ _ _ N') as (B1' & B2' & B3' & (j' & Hj') & _).
    unfold MeshDetailSpec.corner. rewrite Q0, Q1, Q2, Q0', Q1', Q2'. cbn [detailInput diCs diCh]. apply (CT x y z x' y' z' j j'); lia || assumption.
Qed.
(** The cell of a region at a vertex is in the patch. *)
Lemma cell_in_patch : forall i p x y z data r, 0 <= i < mNPolys m -> In p (MeshDetailSpec.polygon I i) -> nth_error V (Z.to_nat p) = Some (x, y, z) ->
  0 < r < 32768 -> corner_of chf r (x + bs) (z + bs) ->
  exists cx cz k, span_at chf (cx + bs) (cz + bs) k /\ has_region chf k r /\ HeightSpec.in_patch (MeshDetailSpec.patch_of I i data) cx cz /\ Z.abs (cx - x) <= 1 /\ Z.abs (cz - z) <= 1.
Proof.
  intros i p x y z data r Hi Ip N R (cx & cz & k & A & HR & BX & BZ). destruct (IN cx cz k A) as (I1 & I2); [exists r; auto|]. destruct (in_polygon i p Hi Ip) as (BP & _).
  destruct (coords3 p x y z ltac:(lia) N) as (Q0 & _ & Q2). exists (cx - bs), (cz - bs), k. rewrite !Z.sub_add. split; [exact A|]. split; [exact HR|]. split; [|lia].
  assert (X1 : In x (map (MeshDetailSpec.coord I 0) (MeshDetailSpec.polygon I i))) by (rewrite <- Q0; now apply in_map).
  assert (Z1 : In z (map (MeshDetailSpec.coord I 2) (MeshDetailSpec.polygon I i))) by (rewrite <- Q2; now apply in_map).
  unfold HeightSpec.in_patch, MeshDetailSpec.patch_of, MeshDetailSpec.span_from, MeshDetailSpec.span_to. cbn [hpXmin hpYmin hpWidth hpHeight detailInput diChf].
  pose proof (proj2 (MeshDetailProofs.fold_min_le (map (MeshDetailSpec.coord I 0) (MeshDetailSpec.polygon I i)) (chf_w chf)) x X1).
  pose proof (proj2 (MeshDetailProofs.fold_max_ge (map (MeshDetailSpec.coord I 0) (MeshDetailSpec.polygon I i)) 0) x X1).
  pose proof (proj2 (MeshDetailProofs.fold_min_le (map (MeshDetailSpec.coord I 2) (MeshDetailSpec.polygon I i)) (chf_h chf)) z Z1).
  pose proof (proj2 (MeshDetailProofs.fold_max_ge (map (MeshDetailSpec.coord I 2) (MeshDetailSpec.polygon I i)) 0) z Z1). cbn [detailInput] in *. lia.
Qed.
Lemma not_lost : forall i data reg, 0 <= i < mNPolys m -> ~ MeshDetailSpec.heights_lost I i (MeshDetailSpec.patch_of I i data) reg.
Proof.
  intros i data reg Hi (_ & H). destruct (nth_poly i Hi) as (q & E & Iq). pose proof (polygon_is i q ltac:(lia) E) as EP. pose proof (proj1 (Forall_forall _ _) PR) as PR1. destruct (PR1 q Iq) as (L & _).
  assert (X : exists p, In p (MeshDetailSpec.polygon I i)). { rewrite EP. destruct (fst q); [cbn in L; lia|]. exists z. now left. } destruct X as (p & Ip).
  destruct (in_polygon i p Hi Ip) as (BP & x & y & z & N). destruct (point_in _ _ _ _ N) as (_ & _ & BY & _ & r & R & C).
  destruct (cell_in_patch i p x y z data r Hi Ip N R C) as (cx & cz & k & A & (s & Hs & _) & INP & AX & AZ).
  assert (HY : 0 <= csY s < 65535) by (apply (HI k); exists s; auto). destruct (coords p x y z ltac:(lia) N) as (G0 & G1 & G2).
  specialize (H cx cz k (Z.abs (y - csY s))). cbn [detailInput diChf diVerts diBorder] in H. rewrite Ebs in H. cut (65535 <= Z.abs (y - csY s)); [lia|]. apply H.
  exists p, x, y, z, s. repeat split; try assumption; try apply INP; apply A.
Qed.
Lemma lowest_there : forall hp r x y i, HeightSpec.in_patch hp x y -> span_at chf (x + bs) (y + bs) i -> has_region chf i r -> exists j, HeightSpec.lowest chf bs hp r (x, y, j).
Proof.
  intros hp r x y i IP. remember (Z.to_nat i) as n eqn:En. revert i En. induction n as [n IH] using lt_wf_ind. intros i En A R. pose proof (ok_at _ wf _ _ _ A) as Bi.
  pose proof A as (AX & AY & c & Hc & RC).
  set (f := fun j => match get (chf_spans chf) (cIndex c + j) with Ok s => csReg s =? r | _ => false end).
  destruct (existsb f (zseq (Z.to_nat (i - cIndex c)))) eqn:EX.
  - apply existsb_exists in EX as (j & Ij & Fj). apply in_zseq in Ij. unfold f in Fj. destruct (get (chf_spans chf) (cIndex c + j)) as [s| | |] eqn:G; try discriminate. apply Z.eqb_eq in Fj.
    assert (Aj : span_at chf (x + bs) (y + bs) (cIndex c + j)) by (split; [exact AX|]; split; [exact AY|]; exists c; split; [exact Hc|lia]).
    pose proof (ok_at _ wf _ _ _ Aj). apply (IH (Z.to_nat (cIndex c + j)) ltac:(lia) (cIndex c + j) eq_refl Aj). exists s. auto.
  - exists i. split; [exact IP|]. split; [exact A|]. split; [exact R|]. intros j s Aj Lj Gj E. assert (existsb f (zseq (Z.to_nat (i - cIndex c))) = true) as T; [|congruence].
    destruct Aj as (_ & _ & c' & Hc' & RC'). rewrite Hc in Hc'. apply Ok_inj in Hc'. subst c'. apply existsb_exists. exists (j - cIndex c). split; [apply in_zseq; lia|]. unfold f.
    replace (cIndex c + (j - cIndex c)) with j by lia. rewrite Gj. now apply Z.eqb_eq.
Qed.
Lemma region_there : forall i data reg, Forall (fits chf bs V) Q -> (forall q, In q Q -> fst (snd q) < 32768) -> 0 <= i < mNPolys m -> get (mRegs m) i = Ok reg -> reg <> 0 ->
  exists p, HeightSpec.lowest chf bs (MeshDetailSpec.patch_of I i data) reg p.
Proof.
  intros i data reg FT LR Hi GR NZ. destruct (nth_poly i Hi) as (q & E & Iq). pose proof (polygon_is i q ltac:(lia) E) as EP. pose proof (proj1 (Forall_forall _ _) PR) as PR1. rewrite Forall_forall in FT. destruct (PR1 q Iq) as (L & _ & BR & _).
  destruct HM as (_ & _ & _ & _ & ER & _). rewrite ER in GR. apply get_ok in GR as [_ GR]. rewrite (map_nth_error _ _ _ E) in GR. injection GR as <-. cbv beta in NZ |- *.
  assert (X : exists p, In p (fst q)). { destruct (fst q); [cbn in L; lia|]. exists z. now left. } destruct X as (p & Ip).
  destruct (FT q Iq) as [Z0|FQ]; [contradiction|]. destruct (FQ p Ip) as (P0 & x & y & z & N & C). specialize (LR q Iq). rewrite <- EP in Ip.
  destruct (cell_in_patch i p x y z data (fst (snd q)) Hi Ip N ltac:(lia) C) as (cx & cz & k & A & R & INP & _). destruct (lowest_there _ _ _ _ _ INP A R) as (j & J). eauto.
Qed.
End Mesh.

(** ** Fields *)
Lemma rank_onto : forall col k, 0 <= k < walkables col -> exists i s, nth_error col i = Some s /\ sarea s <> 0 /\ rank col i = k.
Proof.
  induction col as [|s col IH]; intros k Hk; [cbn in Hk; lia|]. assert (WS : walkables (s :: col) = (if negb (sarea s =? 0) then 1 else 0) + walkables col).
  { unfold walkables, zlen. cbn [filter]. destruct (negb (sarea s =? 0)); cbn [length]; lia. }
  destruct (Z.eqb_spec (sarea s) 0) as [E|E]; cbn [negb] in WS.
  - destruct (IH k ltac:(lia)) as (i & s' & N & A & R). exists (S i), s'. split; [exact N|]. split; [exact A|]. rewrite CompactProofs.rank_S, E. cbn. lia.
  - destruct (Z.eq_dec k 0) as [->|NZ]; [exists 0%nat, s; repeat split; assumption|]. destruct (IH (k - 1) ltac:(lia)) as (i & s' & N & A & R). exists (S i), s'. split; [exact N|]. split; [exact A|].
    rewrite CompactProofs.rank_S. destruct (Z.eqb_spec (sarea s) 0); [contradiction|]. cbn [negb]. lia.
Qed.
Lemma field_same : forall chf chf', same_links chf chf' -> field_ok chf -> (forall i y, has_height chf' i y -> has_height chf i y) -> areas_in chf' -> field_ok chf'.
Proof.
  intros chf chf' S [A B C D E] H AR. constructor.
  - exact (same_wf _ _ S A).
  - exact (same_mutual _ _ S B).
  - intros i y Hy. exact (C i y (H i y Hy)).
  - exact AR.
  - destruct S as (_ & _ & -> & _). exact E.
Qed.
