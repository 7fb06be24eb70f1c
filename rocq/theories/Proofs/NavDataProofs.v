(** Proofs for the tile built from both meshes. *)
From Coq Require Import ZArith List Bool Lia.
From Verif.Base Require Import Res GoNum F32 Num Grid.
From Verif.Model Require Import Geom Poly MeshTypes Compact BuildMesh MeshDetail SoloMesh BvTree MeshLinks Create NavData.
From Verif.Spec Require Import SerialSpec MeshOpsSpec CreateSpec NavDataSpec.
From Verif.Spec Require BuildSpec MeshDetailSpec MeshSpec.
From Verif.Proofs Require Import FloatOk CreateBase CreateProofs CreateAll.
From Verif.Proofs Require PipelineProofs.
Import ListNotations.
Open Scope Z_scope.

Lemma foldM_snoc : forall {A S} (f : S -> A -> res S) l x s, foldM f (l ++ [x]) s = let* s := foldM f l s in f s x.
Proof. induction l as [|a l IH]; intros x s; cbn [app foldM bind]; [destruct (f s x); reflexivity|]. destruct (f s a); cbn [bind]; auto. Qed.

Lemma get_mid : forall (l : list Z) x r, get (l ++ x :: r) (Z.of_nat (length l)) = Ok x.
Proof. intros. apply get_ok. split; [lia|]. rewrite Nat2Z.id, nth_error_app2, Nat.sub_diag by lia. reflexivity. Qed.

(** ** Offsets *)
Lemma offsets_len : forall subs a b, length (MeshDetailSpec.offsets a b subs) = length subs.
Proof. induction subs as [|[v t] subs IH]; intros; cbn; [reflexivity|now rewrite IH]. Qed.
Lemma offsets_nth : forall subs i a b v t, nth_error subs i = Some (v, t) ->
  nth_error (MeshDetailSpec.offsets a b subs) i =
    Some (a + zlen (concat (map fst (firstn i subs))), zlen v, b + zlen (concat (map snd (firstn i subs))), zlen t).
Proof.
  induction subs as [|[v0 t0] subs IH]; intros i a b v t E; destruct i as [|i]; try discriminate E.
  - injection E as -> ->. cbn. unfold zlen. cbn. now rewrite !Z.add_0_r.
  - cbn [nth_error] in E. cbn [MeshDetailSpec.offsets nth_error firstn map concat fst snd]. rewrite (IH _ _ _ _ _ E). unfold zlen. rewrite !app_length, !Nat2Z.inj_add, !Z.add_assoc. reflexivity.
Qed.
Lemma Some_inj : forall {A} (x y : A), Some x = Some y -> x = y.
Proof. intros A x y E. now injection E. Qed.
Definition quad (q : Z * Z * Z * Z) : list Z := let '(a, b, c, d) := q in [a; b; c; d].
Lemma quad_elt : forall l i a b c d, nth_error l i = Some (a, b, c, d) ->
  elt (flat_map quad l) (4 * Z.of_nat i) = a /\ elt (flat_map quad l) (4 * Z.of_nat i + 1) = b /\
  elt (flat_map quad l) (4 * Z.of_nat i + 2) = c /\ elt (flat_map quad l) (4 * Z.of_nat i + 3) = d.
Proof.
  induction l as [|[[[a0 b0] c0] d0] l IH]; intros i a b c d E; destruct i as [|i]; try discriminate E.
  - injection E as -> -> -> ->. repeat split.
  - cbn [nth_error] in E. destruct (IH _ _ _ _ _ E) as (H0 & H1 & H2 & H3). unfold elt in *. cbn [flat_map quad app].
    replace (Z.to_nat (4 * Z.of_nat (S i))) with (S (S (S (S (Z.to_nat (4 * Z.of_nat i)))))) by lia.
    replace (Z.to_nat (4 * Z.of_nat (S i) + 1)) with (S (S (S (S (Z.to_nat (4 * Z.of_nat i + 1)))))) by lia.
    replace (Z.to_nat (4 * Z.of_nat (S i) + 2)) with (S (S (S (S (Z.to_nat (4 * Z.of_nat i + 2)))))) by lia.
    replace (Z.to_nat (4 * Z.of_nat (S i) + 3)) with (S (S (S (S (Z.to_nat (4 * Z.of_nat i + 3)))))) by lia.
    cbn [nth]. auto.
Qed.
Lemma quad_len : forall l, zlen (flat_map quad l) = 4 * zlen l.
Proof. induction l as [|[[[a b] c] d] l IH]; [reflexivity|]. unfold zlen in *. cbn [flat_map quad app length]. lia. Qed.
Lemma flat_len : forall l, zlen (MeshDetailSpec.flat l) = 3 * zlen l.
Proof. induction l as [|v l IH]; [reflexivity|]. unfold zlen, MeshDetailSpec.flat in *. cbn [flat_map app length]. lia. Qed.
Lemma before_upto : forall l, before_null l = MeshDetailSpec.upto l.
Proof. induction l as [|v l IH]; [reflexivity|]. cbn. now rewrite IH. Qed.
Lemma bits32_u32 : forall x, is_u32 (bits32 x).
Proof. intros x. unfold bits32, is_u32. pose proof (Z.mod_pos_bound (bits_of_f x) 4294967296). lia. Qed.
Lemma area_u8 : forall a, is_u8 a -> is_u8 (tile_area a).
Proof. intros a H. unfold tile_area, is_u8 in *. destruct (a =? 63); lia. Qed.
Lemma flags_u16 : forall a, is_u16 (tile_flags a).
Proof. intros a. unfold tile_flags, is_u16. repeat match goal with |- context[match ?x with _ => _ end] => destruct x end; lia. Qed.

(** ** Areas and flags *)
Lemma flags_cases : forall a, tile_flags a = if (a =? 63) || (a =? 0) || (a =? 4) || (a =? 2) then 1 else if a =? 1 then 2 else if a =? 3 then 5 else 0.
Proof. intros [|p|p]; [reflexivity| |reflexivity]. do 7 (try reflexivity; destruct p as [p|p|]; try reflexivity). Qed.
Lemma upd_mid : forall (l : list Z) x r v, upd (l ++ x :: r) (length l) v = l ++ v :: r.
Proof. induction l as [|a l IH]; intros; cbn; [reflexivity|now rewrite IH]. Qed.
Lemma set_mid : forall (l : list Z) x r v, set (l ++ x :: r) (Z.of_nat (length l)) v = Ok (l ++ v :: r).
Proof. intros. apply set_ok. split; [unfold zlen; rewrite app_length; cbn [length]; lia|]. now rewrite Nat2Z.id, upd_mid. Qed.
Lemma setFlags_ok : forall areas, setFlags (Z.of_nat (length areas)) areas = Ok (map tile_area areas, map tile_flags areas).
Proof.
  intros l. unfold setFlags. rewrite Nat2Z.id.
  match goal with |- foldM ?f _ _ = _ => set (F := f) end.
  assert (G : forall pre post, l = pre ++ post -> foldM F (zseq (length pre)) (l, repeat 0 (length l)) =
    Ok (map tile_area pre ++ post, map tile_flags pre ++ repeat 0 (length post))).
  { induction pre as [|a pre IH] using rev_ind; intros post E; [cbn in E |- *; subst; reflexivity|].
    rewrite app_length, Nat.add_1_r, zseq_S, foldM_snoc. rewrite <- app_assoc in E. cbn [app] in E. rewrite (IH _ E). cbn [bind].
    unfold F. cbv beta iota. cbn [length repeat]. set (i := Z.of_nat (length pre)).
    assert (GA : forall x, get (map tile_area pre ++ x :: post) i = Ok x) by (intros x; rewrite <- (get_mid (map tile_area pre) x post), map_length; reflexivity).
    assert (SA : forall x v, set (map tile_area pre ++ x :: post) i v = Ok (map tile_area pre ++ v :: post)) by (intros x v; rewrite <- (set_mid (map tile_area pre) x post v), map_length; reflexivity).
    assert (SF : forall x v, set (map tile_flags pre ++ x :: repeat 0 (length post)) i v = Ok (map tile_flags pre ++ v :: repeat 0 (length post))) by (intros x v; rewrite <- (set_mid (map tile_flags pre) x _ v), map_length; reflexivity).
    rewrite GA. cbn [bind]. rewrite SA, !map_app. cbn [map].
    assert (EA : (if a =? 63 then Ok (map tile_area pre ++ 0 :: post) else Ok (map tile_area pre ++ a :: post)) = Ok (map tile_area pre ++ tile_area a :: post)) by (unfold tile_area; destruct (a =? 63); reflexivity).
    rewrite EA. cbn [bind]. rewrite GA. cbn [bind]. rewrite !SF, flags_cases. rewrite <- !app_assoc. cbn [app]. unfold tile_area.
    destruct (a =? 63) eqn:E63; [reflexivity|]. cbn [orb].
    destruct ((a =? 0) || (a =? 4) || (a =? 2)); [reflexivity|]. destruct (a =? 1); [reflexivity|]. destruct (a =? 3); reflexivity. }
  rewrite (G l [] ltac:(now rewrite app_nil_r)). cbn [length repeat]. now rewrite !app_nil_r.
Qed.

(** ** The parameters *)
Lemma low_is : forall bs cs b, 0 <= bs -> contourBMin bs cs b = low_corner bs cs b.
Proof. intros. unfold contourBMin, low_corner. destruct (Z.ltb_spec 0 bs), (Z.eqb_spec bs 0); try lia; reflexivity. Qed.
Lemma high_is : forall bs cs b, 0 <= bs -> contourBMax bs cs b = high_corner bs cs b.
Proof. intros. unfold contourBMax, high_corner. destruct (Z.ltb_spec 0 bs), (Z.eqb_spec bs 0); try lia; reflexivity. Qed.

Section Params.
Variables (cf : Config) (ag : Agent) (cn : Connections) (tx ty : Z) (bmin bmax : vec f32) (m : PolyMesh) (dm : DetailMesh).
Variables (V : list vert) (Q : list (list Z * (Z * Z))) (subs : list (list (vec f32) * list (Z * Z * Z * Z))) (cap w h : Z).
Hypothesis Hbs : 0 <= cfBorder cf.
Hypothesis Hn : 3 <= cfNvp cf <= 6.
Hypothesis HM : BuildSpec.holdsMesh cap (cfNvp cf) (cfBorder cf) w h V Q m.
Hypothesis Hcap : cap * cfNvp cf <= 65535.
Hypothesis PR : Forall (BuildSpec.proper (cfNvp cf) (Z.of_nat (length V))) Q.
Hypothesis LQ : Z.of_nat (length Q) <= cap.
Hypothesis NE : Q <> [].
Definition prm : CreateParams := createParams cf ag cn tx ty bmin bmax m dm
  (map (fun q => tile_area (snd (snd q))) Q) (map (fun q => tile_flags (snd (snd q))) Q).

Lemma proper_at : forall i q, nth_error Q i = Some q -> BuildSpec.proper (cfNvp cf) (Z.of_nat (length V)) q.
Proof. intros i q E. pose proof (proj1 (Forall_forall _ _) PR) as PR1. exact (PR1 q (nth_error_In _ _ E)). Qed.
Lemma nQ : 1 <= Z.of_nat (length Q) <= 21845.
Proof. split; [destruct Q; [contradiction|cbn; lia]|nia]. Qed.
Lemma flatten_len : forall l : list vert, length (flatten l) = (3 * length l)%nat.
Proof. induction l as [|[[x y] z] l IH]; [reflexivity|]. unfold flatten in *. cbn [flat_map app length]. lia. Qed.
Lemma nV : 1 <= Z.of_nat (length V) <= cap.
Proof.
  destruct HM as (_ & LV & FV & _). assert (L : (length (firstn (3 * length V) (mVerts m)) = 3 * length V)%nat) by (rewrite FV; apply flatten_len).
  rewrite firstn_length in L. split; [|lia].
  destruct (nth_error Q 0) as [q|] eqn:E; [|apply nth_error_None in E; pose proof nQ; lia]. destruct (proper_at _ _ E) as (L3 & F & _).
  destruct (fst q) as [|v l]; [cbn in L3; lia|]. inversion F; subst. lia.
Qed.
(** Entries of the table. *)
Lemma at_vert : forall i q j, nth_error Q i = Some q -> 0 <= j < cfNvp cf ->
  nth_error (mPolys m) (Z.to_nat (2 * cfNvp cf * Z.of_nat i + j)) = Some (if j <? zlen (fst q) then nth (Z.to_nat j) (fst q) 0 else 65535).
Proof.
  intros i q j E Hj. destruct HM as (_ & _ & _ & _ & _ & _ & (C1 & _)). pose proof (C1 _ _ j (map_nth_error fst _ _ E) Hj) as C.
  unfold BuildSpec.vslot in C. replace (2 * cfNvp cf * Z.of_nat i + j) with (Z.of_nat i * cfNvp cf * 2 + j) by lia. rewrite C. unfold zlen.
  destruct (Z.ltb_spec j (Z.of_nat (length (fst q)))); [|reflexivity]. unfold cyc. now rewrite Z.mod_small by lia.
Qed.
Lemma at_edge : forall i j, 0 <= i < Z.of_nat (length Q) -> 0 <= j < cfNvp cf ->
  exists k, nth_error (mPolys m) (Z.to_nat (2 * cfNvp cf * i + cfNvp cf + j)) = Some k /\ (k = 65535 \/ 0 <= k < Z.of_nat (length Q) \/ 32768 <= k <= 32771).
Proof.
  intros i j Hi Hj. destruct HM as (_ & _ & _ & _ & _ & _ & (_ & C2 & _)). rewrite map_length in C2. destruct (C2 i j Hi Hj) as (k & E & H). exists k.
  unfold BuildSpec.nslot in E. replace (2 * cfNvp cf * i + cfNvp cf + j) with (i * cfNvp cf * 2 + (cfNvp cf + j)) by lia. split; [exact E|].
  destruct H as [H|[(j' & a & b & _ & (K0 & l & K1 & _) & _)|(_ & s & a & b & -> & _ & (B & _))]]; [now left| |right; right; lia].
  right; left. assert (K2 : (Z.to_nat k < length (map fst Q))%nat) by (apply nth_error_Some; congruence). rewrite map_length in K2. lia.
Qed.
Lemma polys_len : 2 * cfNvp cf * Z.of_nat (length Q) <= zlen (mPolys m).
Proof.
  pose proof nQ. destruct (at_edge (Z.of_nat (length Q) - 1) (cfNvp cf - 1) ltac:(lia) ltac:(lia)) as (k & E & _).
  assert (L : (Z.to_nat (2 * cfNvp cf * (Z.of_nat (length Q) - 1) + cfNvp cf + (cfNvp cf - 1)) < length (mPolys m))%nat) by (apply nth_error_Some; congruence).
  unfold zlen. nia.
Qed.
Lemma polys_u16 : forall k, 0 <= k < 2 * cfNvp cf * Z.of_nat (length Q) -> is_u16 (elt (mPolys m) k).
Proof.
  intros k Hk. set (n2 := 2 * cfNvp cf) in *. pose proof (Z.div_mod k n2 ltac:(lia)) as D. pose proof (Z.mod_pos_bound k n2 ltac:(lia)) as B.
  assert (BI : 0 <= k / n2 < Z.of_nat (length Q)) by (split; [apply Z.div_pos; lia|apply Z.div_lt_upper_bound; lia]).
  set (i := k / n2) in *. set (r := k mod n2) in *. unfold elt. destruct (Z_lt_dec r (cfNvp cf)) as [C|C].
  - destruct (nth_error Q (Z.to_nat i)) as [q|] eqn:E; [|apply nth_error_None in E; lia]. pose proof (at_vert _ _ r E ltac:(lia)) as A. rewrite Z2Nat.id in A by lia.
    replace (2 * cfNvp cf * i + r) with k in A by (unfold n2 in D; lia). rewrite (nth_error_nth _ _ 0 A). destruct (proper_at _ _ E) as (_ & F & _). pose proof nV.
    destruct (Z.ltb_spec r (zlen (fst q))); unfold is_u16; [|lia]. rewrite Forall_forall in F. pose proof (F (nth (Z.to_nat r) (fst q) 0) ltac:(apply nth_In; unfold zlen in *; lia)). nia.
  - destruct (at_edge i (r - cfNvp cf) BI ltac:(unfold n2 in *; lia)) as (e & A & H). replace (2 * cfNvp cf * i + cfNvp cf + (r - cfNvp cf)) with k in A by (unfold n2 in D; lia).
    rewrite (nth_error_nth _ _ 0 A). pose proof nQ. unfold is_u16. lia.
Qed.
Lemma verts_is : forall i q, nth_error Q i = Some q -> verts_of prm (Z.of_nat i) = fst q.
Proof.
  intros i q E. destruct (proper_at _ _ E) as (L & F & _). unfold verts_of, part, prm, createParams. cbn [cpPolys cpNvp nilOr]. rewrite before_upto. apply PipelineProofs.row_polygon.
  - lia.
  - intros v Iv. rewrite Forall_forall in F. specialize (F v Iv). pose proof nV. nia.
  - intros j Hj. pose proof (at_vert i q (Z.of_nat j) E ltac:(lia)) as A. replace (Z.to_nat (2 * cfNvp cf * Z.of_nat i + Z.of_nat j)) with (Z.to_nat (2 * cfNvp cf * Z.of_nat i) + j)%nat in A by lia.
    rewrite A, Nat2Z.id. unfold zlen. destruct (Z.ltb_spec (Z.of_nat j) (Z.of_nat (length (fst q)))), (Nat.ltb_spec j (length (fst q))); try lia; reflexivity.
Qed.
Hypothesis PK : MeshDetailSpec.packed dm subs.
Hypothesis LS : length subs = length Q.
Hypothesis SS : forall i q sub, nth_error Q i = Some q -> nth_error subs i = Some sub ->
  zlen (fst q) <= zlen (fst sub) <= 127 /\ zlen (snd sub) <= 255 /\ Forall is_u8 (flat_map quad (snd sub)).
Hypothesis CO : conns_ok cn (Z.of_nat (length V)) (Z.of_nat (length Q)) (low_corner (cfBorder cf) (cfCs cf) bmin) (high_corner (cfBorder cf) (cfCs cf) bmax).
Hypothesis TX : is_i32 tx.
Hypothesis TY : is_i32 ty.
Hypothesis DT : 3 * (zlen (concat (map fst subs)) - zlen (concat (map fst Q))) <= 65535.

Lemma sub_at : forall i q, nth_error Q i = Some q -> exists v t, nth_error subs i = Some (v, t).
Proof.
  intros i q E. assert (L : (i < length Q)%nat) by (apply nth_error_Some; congruence). destruct (nth_error subs i) as [[v t]|] eqn:ES; [eauto|]. apply nth_error_None in ES. lia.
Qed.
Lemma dm_at : forall i v t, nth_error subs i = Some (v, t) -> let d := elt (nilOr (cpDMeshes prm)) in
  d (4 * Z.of_nat i) = zlen (concat (map fst (firstn i subs))) /\ d (4 * Z.of_nat i + 1) = zlen v /\ d (4 * Z.of_nat i + 2) = zlen (concat (map snd (firstn i subs))) /\ d (4 * Z.of_nat i + 3) = zlen t.
Proof.
  intros i v t E d. unfold d, prm, createParams. cbn [cpDMeshes nilOr]. destruct PK as (EM & _). rewrite EM.
  exact (quad_elt _ _ _ _ _ _ (offsets_nth subs i 0 0 v t E)).
Qed.
Lemma extra_is : forall i q v t, nth_error Q i = Some q -> nth_error subs i = Some (v, t) -> extra prm (Z.of_nat i) = zlen v - zlen (fst q).
Proof. intros i q v t E ES. unfold extra. rewrite (verts_is i q E). destruct (dm_at i v t ES) as (_ & -> & _). reflexivity. Qed.
Lemma firstn_snoc : forall {A} (l : list A) k x, nth_error l k = Some x -> firstn (S k) l = firstn k l ++ [x].
Proof. induction l as [|a l IH]; intros k x E; destruct k; try discriminate E; cbn in *; [congruence|]. now rewrite (IH _ _ E). Qed.
Lemma total_is : forall k, (k <= length Q)%nat -> extra_total prm (Z.of_nat k) = zlen (concat (map fst (firstn k subs))) - zlen (concat (map fst (firstn k Q))).
Proof.
  induction k as [|k IH]; intros H; [reflexivity|].
  destruct (nth_error Q k) as [q|] eqn:E; [|apply nth_error_None in E; lia]. destruct (sub_at _ _ E) as (v & t & ES).
  assert (X : extra_total prm (Z.of_nat (S k)) = extra_total prm (Z.of_nat k) + extra prm (Z.of_nat k)).
  { unfold extra_total. rewrite !upto_nat, zseq_S, map_app. unfold sum_up. rewrite fold_right_app. cbn [map fold_right]. rewrite Z.add_0_r.
    generalize (map (extra prm) (zseq k)) (extra prm (Z.of_nat k)). intros l x. induction l as [|a l IHl]; cbn [fold_right]; lia. }
  rewrite X, (IH ltac:(lia)), (extra_is _ _ _ _ E ES), (firstn_snoc _ _ _ E), (firstn_snoc _ _ _ ES), !map_app, !concat_app. cbn [map concat fst]. unfold zlen. rewrite !app_length. cbn [length]. lia.
Qed.
Lemma split_at : forall {A} (l : list A) i x, nth_error l i = Some x -> l = firstn i l ++ x :: skipn (S i) l.
Proof. induction l as [|a l IH]; intros i x E; destruct i; try discriminate E; cbn in *; [congruence|]. f_equal. now apply IH. Qed.
Lemma concat_bound : forall k, (k <= length subs)%nat -> zlen (concat (map fst (firstn k subs))) <= 127 * Z.of_nat k /\ zlen (concat (map snd (firstn k subs))) <= 255 * Z.of_nat k.
Proof.
  induction k as [|k IH]; intros H; [cbn; unfold zlen; cbn; lia|].
  destruct (nth_error Q k) as [q|] eqn:E; [|apply nth_error_None in E; lia]. destruct (sub_at _ _ E) as (v & t & ES). destruct (SS _ _ _ E ES) as (B1 & B2 & _). cbn [fst snd] in *.
  rewrite (firstn_snoc _ _ _ ES), !map_app, !concat_app. cbn [map concat fst snd]. specialize (IH ltac:(lia)). unfold zlen in *. rewrite !app_length. cbn [length]. lia.
Qed.
Lemma parts_fit : forall i v t, nth_error subs i = Some (v, t) ->
  zlen (concat (map fst (firstn i subs))) + zlen v <= dmNVerts dm /\ zlen (concat (map snd (firstn i subs))) + zlen t <= dmNTris dm.
Proof.
  intros i v t E. destruct PK as (_ & -> & _ & -> & _). rewrite (split_at _ _ _ E) at 2 4. rewrite !map_app, !concat_app. cbn [map concat fst snd]. unfold zlen. rewrite !app_length. lia.
Qed.
Lemma counts : 0 <= dmNVerts dm <= 127 * 21845 /\ 0 <= dmNTris dm <= 255 * 21845 /\ 3 * dmNVerts dm <= zlen (dmVerts dm) /\ 4 * dmNTris dm <= zlen (dmTris dm).
Proof.
  pose proof nQ. pose proof (concat_bound (length subs) ltac:(lia)) as (B1 & B2). rewrite !firstn_all in *. destruct PK as (_ & EV & FV & ET & FT).
  pose proof (flat_len (concat (map fst subs))) as L1. pose proof (quad_len (concat (map snd subs))) as L2.
  assert (L3 : zlen (firstn (Z.to_nat (3 * dmNVerts dm)) (dmVerts dm)) = 3 * dmNVerts dm) by (rewrite FV, EV; exact L1).
  assert (L4 : zlen (firstn (Z.to_nat (4 * dmNTris dm)) (dmTris dm)) = 4 * dmNTris dm) by (rewrite FT, ET; exact L2).
  unfold zlen in *. rewrite firstn_length in L3, L4. lia.
Qed.
Lemma float_back : forall v, float32 (vx v) -> float32 (vz v) -> vx (fvec_of (vecBits v)) = vx v /\ vz (fvec_of (vecBits v)) = vz v.
Proof. intros v X Z. split; [exact X|exact Z]. Qed.
Lemma prm_sized : sized prm.
Proof.
  pose proof nQ as BQ. pose proof nV as BV. pose proof counts as (C1 & C2 & C3 & C4). destruct HM as (NV & LV & _ & NP & _).
  destruct CO as [[O1 [O2 O3]] O4 O5 O6 O7 O8 O9 O10].
  constructor; unfold prm, createParams; cbn [cpNvp cpVertCount cpPolyCount cpVerts cpPolys cpPolyFlags cpPolyAreas cpOMCount cpOMVerts cpOMRad cpOMFlags cpOMAreas cpOMDir cpOMUserID cpDVertsCount cpDVerts cpDTriCount cpDTris cpTileX cpTileY cpTileLayer cpUserID cpWalkableHeight cpWalkableRadius cpWalkableClimb cpCs cpCh cpBMin cpBMax nilOr]; rewrite ?NV, ?NP; try assumption; try lia.
  - nia.
  - exists (mVerts m). split; [reflexivity|]. unfold zlen. lia.
  - exists (mPolys m). split; [reflexivity|]. split; [exact polys_len|exact polys_u16].
  - split; [unfold zlen; rewrite map_length; lia|]. apply Forall_forall. intros x I. apply in_map_iff in I as (q & <- & _). apply flags_u16.
  - split; [unfold zlen; rewrite map_length; lia|]. apply Forall_forall. intros x I. apply in_map_iff in I as (q & <- & I). apply area_u8.
    pose proof (proj1 (Forall_forall _ _) PR) as PR1. destruct (PR1 q I) as (_ & _ & _ & A). unfold is_u8. lia.
  - unfold zlen in *. rewrite map_length. lia.
  - apply Forall_forall. intros x I. apply in_map_iff in I as (f & <- & _). apply bits32_u32.
  - unfold part. cbn [Z.to_nat skipn]. destruct PK as (_ & _ & _ & _ & FT). rewrite FT. apply Forall_forall. intros x I. apply in_flat_map in I as (q & I & Ix). apply in_concat in I as (t & It & Iq).
    apply in_map_iff in It as (sub & <- & Is). apply In_nth_error in Is as (i & Ei). assert (L : (i < length subs)%nat) by (apply nth_error_Some; congruence).
    destruct (nth_error Q i) as [q0|] eqn:EQ; [|apply nth_error_None in EQ; lia]. destruct (SS _ _ _ EQ Ei) as (_ & _ & U). rewrite Forall_forall in U. apply U. apply in_flat_map. exists q. auto.
  - split; [apply Forall_cons; [exact TX|]; apply Forall_cons; [exact TY|]; apply Forall_cons; [unfold is_i32; lia|apply Forall_nil]|]. split.
    + apply Forall_cons; [unfold is_u32; lia|]. apply Forall_cons; [apply bits32_u32|]. apply Forall_cons; [apply bits32_u32|]. apply Forall_cons; [apply bits32_u32|]. apply Forall_cons; [apply bits32_u32|]. apply Forall_cons; [apply bits32_u32|]. apply Forall_nil.
    + split; (split; [apply bits32_u32|]; split; apply bits32_u32).
  - intros P. rewrite (low_is _ _ _ Hbs), (high_is _ _ _ Hbs). destruct (O10 P) as ((X1 & X2 & X3) & (Z1 & Z2 & Z3)).
    destruct (float_back _ X1 Z1) as (-> & ->). destruct (float_back _ X2 Z2) as (-> & ->). auto.
Qed.
Lemma prm_detailed : detailed prm.
Proof.
  pose proof nQ as BQ. pose proof counts as (C1 & C2 & C3 & C4). destruct HM as (_ & _ & _ & NP & _). destruct PK as (EM & _).
  assert (EP : cpPolyCount prm = Z.of_nat (length Q)) by exact NP.
  constructor.
  - exists (flat_map quad (dmMeshes dm)). split; [reflexivity|]. rewrite EP, EM, quad_len. split; [unfold zlen; rewrite offsets_len; lia|].
    apply Forall_forall. intros x I. apply in_flat_map in I as ([[[a b] c] d] & I & Ix). apply In_nth_error in I as (i & Ei).
    assert (L : (i < length subs)%nat) by (rewrite <- (offsets_len subs 0 0); apply nth_error_Some; congruence).
    destruct (nth_error subs i) as [[v t]|] eqn:ES; [|apply nth_error_None in ES; lia]. rewrite (offsets_nth _ _ _ _ _ _ ES) in Ei. pose proof (parts_fit _ _ _ ES) as (F1 & F2).
    apply Some_inj in Ei. rewrite <- Ei in Ix. unfold is_i32, zlen in *. cbn [quad In] in Ix. lia.
  - intros i Hi. rewrite EP in Hi. destruct (nth_error Q (Z.to_nat i)) as [q|] eqn:E; [|apply nth_error_None in E; lia]. destruct (sub_at _ _ E) as (v & t & ES).
    pose proof (dm_at _ _ _ ES) as D. pose proof (verts_is _ _ E) as VE. rewrite Z2Nat.id in D, VE by lia. cbv zeta in *. destruct D as (-> & -> & -> & ->). rewrite VE.
    destruct (SS _ _ _ E ES) as (B1 & B2 & _). cbn [fst snd] in *. pose proof (parts_fit _ _ _ ES) as (F1 & F2). destruct (proper_at _ _ E) as (L3 & _).
    assert (LV : zlen (nilOr (cpDVerts prm)) = zlen (dmVerts dm)) by (unfold prm, createParams, zlen; cbn [cpDVerts nilOr]; now rewrite map_length). rewrite LV. unfold zlen in *. lia.
  - rewrite EP, (total_is _ (Nat.le_refl _)), <- LS, firstn_all, LS, firstn_all. exact DT.
Qed.
(** ** Contents *)
Lemma part_mid : forall {A} (a b c : list A) x y, x = zlen a -> y = zlen b -> part (a ++ b ++ c) x y = b.
Proof.
  intros A a b c x y -> ->. unfold part, zlen. rewrite !Nat2Z.id, skipn_app, skipn_all, Nat.sub_diag. cbn [app skipn]. rewrite firstn_app, firstn_all, Nat.sub_diag. cbn [firstn]. apply app_nil_r.
Qed.
Lemma part_prefix : forall {A} (l : list A) n x y, 0 <= x -> 0 <= y -> x + y <= n -> part (firstn (Z.to_nat n) l) x y = part l x y.
Proof. intros A l n x y Hx Hy H. unfold part. rewrite skipn_firstn_comm, firstn_firstn. f_equal. lia. Qed.
Lemma part_map : forall {A B} (f : A -> B) l x y, part (map f l) x y = map f (part l x y).
Proof. intros. unfold part. now rewrite skipn_map, firstn_map. Qed.
Lemma flat_app : forall a b, MeshDetailSpec.flat (a ++ b) = MeshDetailSpec.flat a ++ MeshDetailSpec.flat b.
Proof. intros. apply flat_map_app. Qed.
Lemma extra_verts_is : forall i q v t, nth_error Q i = Some q -> nth_error subs i = Some (v, t) ->
  extra_verts prm (Z.of_nat i) = map bits32 (MeshDetailSpec.flat (skipn (length (fst q)) v)).
Proof.
  intros i q v t E ES. unfold extra_verts. rewrite (extra_is _ _ _ _ E ES), (verts_is _ _ E). pose proof (dm_at _ _ _ ES) as D. cbv zeta in D. destruct D as (-> & _).
  unfold prm, createParams. cbn [cpDVerts nilOr]. rewrite part_map. f_equal. destruct (SS _ _ _ E ES) as (B & _). cbn [fst] in B. pose proof (parts_fit _ _ _ ES) as (F1 & _).
  rewrite <- (part_prefix _ (3 * dmNVerts dm)) by (unfold zlen in *; lia). destruct PK as (_ & _ & FV & _). rewrite FV.
  rewrite (split_at _ _ _ ES) at 1. rewrite map_app, concat_app. cbn [map concat fst]. rewrite <- (firstn_skipn (length (fst q)) v) at 1. rewrite <- !app_assoc, app_assoc, flat_app, (flat_app (skipn _ _)).
  apply part_mid; rewrite flat_len; unfold zlen in *; [rewrite app_length, firstn_length|rewrite skipn_length]; lia.
Qed.
Lemma zseq_app : forall a b, zseq (a + b) = zseq a ++ map (fun j => Z.of_nat a + j) (zseq b).
Proof.
  induction b as [|b IH]; [now rewrite Nat.add_0_r, app_nil_r|]. rewrite Nat.add_succ_r, !zseq_S, IH, map_app, <- app_assoc. cbn [map]. do 3 f_equal. lia.
Qed.
Lemma flat_zseq : forall {B} (f : Z -> list B) n i, (i < n)%nat -> exists r, flat_map f (zseq n) = flat_map f (zseq i) ++ f (Z.of_nat i) ++ r.
Proof.
  intros B f n i H. replace n with (S i + (n - S i))%nat by lia. rewrite zseq_app, zseq_S, !flat_map_app. cbn [flat_map]. rewrite app_nil_r, <- app_assoc. eauto.
Qed.
Lemma extra_len : forall k, (k <= length Q)%nat -> zlen (flat_map (extra_verts prm) (zseq k)) = 3 * extra_total prm (Z.of_nat k).
Proof.
  induction k as [|k IH]; intros H; [reflexivity|]. destruct (nth_error Q k) as [q|] eqn:E; [|apply nth_error_None in E; lia]. destruct (sub_at _ _ E) as (v & t & ES).
  rewrite zseq_S, flat_map_app. cbn [flat_map]. rewrite app_nil_r, (extra_verts_is _ _ _ _ E ES). unfold zlen in *. rewrite app_length, Nat2Z.inj_add, (IH ltac:(lia)).
  rewrite map_length. pose proof (flat_len (skipn (length (fst q)) v)) as L. unfold zlen in L. rewrite L, skipn_length. destruct (SS _ _ _ E ES) as (B & _). cbn [fst] in B. unfold zlen in B.
  rewrite !total_is by lia. rewrite (firstn_snoc _ _ _ E), (firstn_snoc _ _ _ ES), !map_app, !concat_app. cbn [map concat fst]. unfold zlen. rewrite !app_length. cbn [length]. lia.
Qed.
Lemma detail_is : forall bv i q v t, nth_error Q i = Some q -> nth_error subs i = Some (v, t) ->
  exists d, nth_error (tdDMeshes (spec_tile prm bv)) i = Some d /\ tile_detail (spec_tile prm bv) d (fst q) (v, t).
Proof.
  intros bv i q v t E ES. assert (L : (i < length Q)%nat) by (apply nth_error_Some; congruence). assert (EP : cpPolyCount prm = Z.of_nat (length Q)) by (destruct HM as (_ & _ & _ & NP & _); exact NP).
  exists (detail_of prm (Z.of_nat i)). unfold spec_tile. cbn [tdDMeshes]. rewrite EP, !upto_nat. split.
  - apply map_nth_error. unfold zseq. apply map_nth_error. rewrite (nth_error_nth' _ 0%nat) by (rewrite seq_length; lia). now rewrite seq_nth.
  - pose proof (dm_at _ _ _ ES) as D. cbv zeta in D. destruct D as (D0 & D1 & D2 & D3). unfold tile_detail, detail_of. cbn [dVertCount dTriCount dVertBase dTriBase tdDVerts tdDTris fst snd].
    rewrite D2, D3, (extra_is _ _ _ _ E ES). split; [reflexivity|]. split; [reflexivity|]. split.
    + destruct (flat_zseq (extra_verts prm) (length Q) i L) as (r & ->). rewrite <- (extra_len i) by lia.
      assert (EX : 3 * (zlen v - zlen (fst q)) = zlen (extra_verts prm (Z.of_nat i))).
      { rewrite (extra_verts_is _ _ _ _ E ES). unfold zlen at 3. rewrite map_length. pose proof (flat_len (skipn (length (fst q)) v)) as F. unfold zlen in F |- *. rewrite F, skipn_length.
        destruct (SS _ _ _ E ES) as (B & _). cbn [fst] in B. unfold zlen in B. lia. }
      rewrite EX, <- (extra_verts_is _ _ _ _ E ES). apply (part_mid _ _ _ _ _ eq_refl eq_refl).
    + unfold part at 1. cbn [Z.to_nat skipn]. destruct PK as (_ & _ & _ & _ & FT). change (cpDTriCount prm) with (dmNTris dm). change (cpDTris prm) with (dmTris dm). rewrite FT.
      rewrite (split_at _ _ _ ES) at 2. rewrite map_app, concat_app. cbn [map concat snd]. rewrite !flat_map_app.
      apply part_mid; symmetry; apply quad_len.
Qed.
Lemma nei_is : forall e, e = 65535 \/ 0 <= e < 32768 \/ 32768 <= e <= 32771 -> nei_of e = stored_nei e.
Proof.
  intros e H. unfold nei_of, stored_nei. destruct H as [-> |[H|H]]; [reflexivity| |].
  - rewrite (proj2 (Z.ltb_lt _ _)), (proj2 (Z.eqb_neq _ _)) by lia. reflexivity.
  - assert (e = 32768 \/ e = 32769 \/ e = 32770 \/ e = 32771) as [-> |[-> |[-> | ->]]] by lia; reflexivity.
Qed.
Lemma firstn_six : forall l, firstn (length l) (six l) = l.
Proof. intros l. unfold six. rewrite firstn_app, firstn_all, Nat.sub_diag. cbn [firstn]. apply app_nil_r. Qed.
Lemma map_elt : forall n l off, (off + n <= length l)%nat -> firstn n (skipn off l) = map (fun j => nth (off + Z.to_nat j) l 0) (zseq n).
Proof.
  induction n as [|n IH]; intros l off H; [reflexivity|]. rewrite zseq_S, map_app, <- (IH l off) by lia. cbn [map]. rewrite Nat2Z.id.
  apply firstn_snoc. rewrite (nth_error_nth' _ 0) by (rewrite skipn_length; lia). f_equal. rewrite <- (firstn_skipn off l) at 2. rewrite app_nth2; rewrite firstn_length; [f_equal; lia|lia].
Qed.
Lemma polygon_is : forall bv i l r ar, nth_error Q i = Some (l, (r, ar)) ->
  exists P, nth_error (tdPolys (spec_tile prm bv)) i = Some P /\
    tile_polygon P l ar (fun j => elt (mPolys m) (BuildSpec.nslot (cfNvp cf) (Z.of_nat i) j)).
Proof.
  intros bv i l r ar E. assert (L : (i < length Q)%nat) by (apply nth_error_Some; congruence). assert (EP : cpPolyCount prm = Z.of_nat (length Q)) by (destruct HM as (_ & _ & _ & NP & _); exact NP).
  pose proof (verts_is _ _ E) as VE. cbn [fst] in VE. destruct (proper_at _ _ E) as (L3 & _). cbn [fst] in L3. pose proof polys_len as PL.
  exists (ground prm (Z.of_nat i)). unfold spec_tile. cbn [tdPolys]. rewrite EP, !upto_nat. split.
  - rewrite nth_error_app1 by (rewrite map_length; unfold zseq; rewrite map_length, seq_length; lia).
    apply map_nth_error. unfold zseq. apply map_nth_error. rewrite (nth_error_nth' _ 0%nat) by (rewrite seq_length; lia). now rewrite seq_nth.
  - unfold tile_polygon, ground. cbn [pVertCount pVerts pNeis pAreaAndType pFlags]. rewrite VE. split; [reflexivity|]. split; [apply firstn_six|].
    assert (EE : edges_of prm (Z.of_nat i) = map (fun j => elt (mPolys m) (BuildSpec.nslot (cfNvp cf) (Z.of_nat i) j)) (zseq (length l))).
    { unfold edges_of, part. rewrite VE. unfold zlen. rewrite Nat2Z.id. change (nilOr (cpPolys prm)) with (mPolys m). change (cpNvp prm) with (cfNvp cf).
      rewrite map_elt by (unfold zlen in PL; nia). apply map_ext_in. intros j Hj. apply in_zseq in Hj. unfold elt, BuildSpec.nslot. f_equal. lia. }
    split; [|split].
    + rewrite EE, map_map.
      assert (LM : forall f : Z -> Z, firstn (length l) (six (map f (zseq (length l)))) = map f (zseq (length l))).
      { intros f. rewrite <- (firstn_six (map f (zseq (length l)))) at 2. f_equal. unfold zseq. now rewrite !map_length, seq_length. }
      rewrite LM. apply map_ext_in. intros j Hj. apply in_zseq in Hj. apply nei_is. destruct (at_edge (Z.of_nat i) j ltac:(lia) ltac:(lia)) as (k & A & H). unfold elt, BuildSpec.nslot.
        replace (Z.of_nat i * cfNvp cf * 2 + (cfNvp cf + j)) with (2 * cfNvp cf * Z.of_nat i + cfNvp cf + j) by lia. rewrite (nth_error_nth _ _ 0 A). pose proof nQ. lia.
    + unfold elt, prm, createParams. cbn [cpPolyAreas]. rewrite Nat2Z.id. f_equal. apply nth_error_nth. exact (map_nth_error (fun q => tile_area (snd (snd q))) _ _ E).
    + unfold elt, prm, createParams. cbn [cpPolyFlags]. rewrite Nat2Z.id. apply nth_error_nth. exact (map_nth_error (fun q => tile_flags (snd (snd q))) _ _ E).
Qed.
Lemma coord_at : forall i x y z, nth_error V i = Some (x, y, z) -> let e := elt (mVerts m) in
  e (3 * Z.of_nat i) = x /\ e (3 * Z.of_nat i + 1) = y /\ e (3 * Z.of_nat i + 2) = z.
Proof.
  intros i x y z E e. unfold e, elt. destruct HM as (_ & _ & FV & _).
  assert (X : mVerts m = flatten (firstn i V) ++ [x; y; z] ++ flatten (skipn (S i) V) ++ skipn (3 * length V) (mVerts m)).
  { rewrite <- (firstn_skipn (3 * length V) (mVerts m)) at 1. rewrite FV. rewrite (split_at _ _ _ E) at 1. unfold flatten. rewrite flat_map_app. cbn [flat_map]. rewrite <- !app_assoc. reflexivity. }
  rewrite X. assert (L : (length (flatten (firstn i V)) = 3 * i)%nat). { rewrite flatten_len, firstn_length. assert (i < length V)%nat by (apply nth_error_Some; congruence). lia. }
  repeat split; (rewrite app_nth2 by lia; rewrite L).
  - replace (Z.to_nat (3 * Z.of_nat i) - 3 * i)%nat with 0%nat by lia. reflexivity.
  - replace (Z.to_nat (3 * Z.of_nat i + 1) - 3 * i)%nat with 1%nat by lia. reflexivity.
  - replace (Z.to_nat (3 * Z.of_nat i + 2) - 3 * i)%nat with 2%nat by lia. reflexivity.
Qed.
Lemma world_len : forall k, length (flat_map (world prm) (zseq k)) = (3 * k)%nat.
Proof.
  induction k as [|k IH]; [reflexivity|]. rewrite zseq_S, flat_map_app, app_length, IH. cbn [flat_map]. rewrite app_nil_r. unfold world. destruct (fvec_of (cpBMin prm)) as [[? ?] ?]. cbn [length]. lia.
Qed.
Lemma holds : forall bv, cnCount cn = 0 -> tile_holds (spec_tile prm bv) (low_corner (cfBorder cf) (cfCs cf) bmin) (cfCs cf) (cfCh cf) V Q.
Proof.
  intros bv C0. destruct HM as (NV & _ & _ & NP & _). assert (EP : cpPolyCount prm = Z.of_nat (length Q)) by exact NP. assert (EV : cpVertCount prm = Z.of_nat (length V)) by exact NV.
  assert (K : kept prm = []) by (unfold kept; change (cpOMCount prm) with (cnCount cn); rewrite C0; reflexivity).
  assert (LZ : forall n, length (zseq n) = n) by (intros n; unfold zseq; now rewrite map_length, seq_length).
  split; [|split].
  - unfold spec_tile. cbn [tdVerts tdPolys tdDMeshes]. rewrite K, EP, EV, !upto_nat. cbn [flat_map numbered length combine map]. rewrite !app_nil_r, world_len, !map_length, LZ. auto.
  - unfold spec_tile. cbn [tdCons]. rewrite K. reflexivity.
  - intros FX FY FZ FC FH i x y z E. assert (L : (i < length V)%nat) by (apply nth_error_Some; congruence).
    unfold spec_tile. cbn [tdVerts]. rewrite K, EV, upto_nat. cbn [flat_map]. rewrite app_nil_r. destruct (flat_zseq (world prm) (length V) i L) as (r & ->).
    rewrite skipn_app, world_len, Nat.sub_diag, skipn_all2 by (rewrite world_len; lia). cbn [app skipn].
    pose proof (coord_at _ _ _ _ E) as CA. cbv zeta in CA. destruct CA as (CX & CY & CZ).
    unfold world. change (nilOr (cpVerts prm)) with (mVerts m). rewrite CX, CY, CZ.
    change (cpBMin prm) with (vecBits (contourBMin (cfBorder cf) (cfCs cf) bmin)). rewrite (low_is _ _ _ Hbs). change (cpCs prm) with (bits32 (cfCs cf)). change (cpCh prm) with (bits32 (cfCh cf)).
    rewrite FC, FH. unfold vecBits, fvec_of. rewrite FX, FY, FZ. reflexivity.
Qed.
Lemma polys_hold : forall bv, tile_polys (spec_tile prm bv) (cfNvp cf) (mPolys m) Q subs.
Proof. intros bv. split; [exact (polygon_is bv)|]. intros i q [v t] E ES. exact (detail_is bv i q v t E ES). Qed.
Lemma numbered_nth : forall l n (k : Z), nth_error l n = Some k -> nth_error (numbered l) n = Some (Z.of_nat n, k).
Proof.
  intros l n k E. unfold numbered. assert (L : (n < length l)%nat) by (apply nth_error_Some; congruence).
  assert (EZ : nth_error (zseq (length l)) n = Some (Z.of_nat n)). { unfold zseq. apply map_nth_error. rewrite (nth_error_nth' _ 0%nat) by (rewrite seq_length; lia). now rewrite seq_nth. }
  revert EZ E. generalize (zseq (length l)) (Z.of_nat n). clear. intros zs z. revert zs l. induction n as [|n IH]; intros [|z' zs] [|a l] EZ E; try discriminate; cbn in *; [congruence|]. now apply IH.
Qed.
Lemma conns_hold : forall bv, tile_conns (spec_tile prm bv) cn (length V) (length Q) (kept prm).
Proof.
  intros bv. destruct HM as (NV & _ & _ & NP & _). assert (EP : cpPolyCount prm = Z.of_nat (length Q)) by exact NP. assert (EV : cpVertCount prm = Z.of_nat (length V)) by exact NV.
  assert (LZ : forall n, length (zseq n) = n) by (intros n; unfold zseq; now rewrite map_length, seq_length).
  assert (LN : forall l : list Z, length (numbered l) = length l) by (intros l; unfold numbered; rewrite combine_length, LZ; lia).
  unfold tile_conns, spec_tile. cbn [tdPolys tdCons]. rewrite EP, upto_nat. split; [rewrite app_length, !map_length, LZ, LN; auto|].
  intros n k E. cbv zeta. pose proof (numbered_nth _ _ _ E) as EN. split.
  - exists (con_poly prm (Z.of_nat n, k)). split.
    + rewrite nth_error_app2 by (rewrite map_length, LZ; lia). rewrite map_length, LZ. replace (length Q + n - length Q)%nat with n by lia. exact (map_nth_error _ _ _ EN).
    + unfold con_poly. cbn [pVertCount pVerts pFlags pAreaAndType]. rewrite EV. split; [reflexivity|]. split; [|split; reflexivity]. cbn [six app firstn]. f_equal; [lia|f_equal; lia].
  - exists (con_of prm (Z.of_nat n, k)). split; [exact (map_nth_error _ _ _ EN)|]. unfold con_of. cbn [ocPos ocRad ocPoly ocUserID]. rewrite EP. split; [reflexivity|]. split; [reflexivity|]. split; [lia|reflexivity].
Qed.
Lemma kept_inside : forall k, starts_here prm k = true -> 0 < cnCount cn -> 0 <= k -> starts_inside cn (low_corner (cfBorder cf) (cfCs cf) bmin) (high_corner (cfBorder cf) (cfCs cf) bmax) k.
Proof.
  intros k H C K0. destruct CO as [_ _ _ _ _ _ _ O]. destruct (O C) as ((X1 & X2 & _) & (Z1 & Z2 & _)).
  unfold starts_here in H. apply andb_prop in H as (H & _). apply andb_prop in H as (H & _). apply Z.eqb_eq in H. unfold sector in H.
  change (cpBMin prm) with (vecBits (contourBMin (cfBorder cf) (cfCs cf) bmin)) in H. change (cpBMax prm) with (vecBits (contourBMax (cfBorder cf) (cfCs cf) bmax)) in H.
  rewrite (low_is _ _ _ Hbs), (high_is _ _ _ Hbs) in H. destruct (float_back _ X1 Z1) as (A1 & A2). destruct (float_back _ X2 Z2) as (A3 & A4). rewrite A1, A2, A3, A4 in H.
  unfold starts_inside. unfold start_pt, elt in H. change (cpOMVerts prm) with (cnVerts cn) in H. rewrite Z.add_0_r in H. cbn [vx vz fst snd] in H. unfold side1 in H.
  revert H. cbv zeta.
  repeat match goal with |- context[fge ?a ?b] => destruct (fge a b); try discriminate end;
  repeat match goal with |- context[flt ?a ?b] => destruct (flt a b); try discriminate end; auto.
Qed.
Lemma header_is : header_holds (spec_header prm) ag tx ty (low_corner (cfBorder cf) (cfCs cf) bmin) (high_corner (cfBorder cf) (cfCs cf) bmax) V Q subs.
Proof.
  destruct HM as (NV & _ & _ & NP & _). assert (EP : cpPolyCount prm = Z.of_nat (length Q)) by exact NP. assert (EV : cpVertCount prm = Z.of_nat (length V)) by exact NV.
  destruct PK as (_ & _ & _ & ET & _).
  unfold header_holds, spec_header. cbn [hX hY hLayer hOffMeshBase hPolyCount hVertCount hDetailMeshCount hDetailVertCount hDetailTriCount hBvNodeCount hWalkableHeight hWalkableRadius hWalkableClimb hBMin hBMax hOffMeshConCount].
  rewrite EP, EV, (total_is _ (Nat.le_refl _)), <- LS, firstn_all, LS, firstn_all. rewrite <- (low_is _ _ _ Hbs), <- (high_is _ _ _ Hbs).
  repeat (split; [reflexivity|]). split; [exact ET|]. repeat (split; [reflexivity|]). reflexivity.
Qed.
(** ** A tile for a mesh *)
Lemma all_fit : forall bv, cnCount cn = 0 -> 1 <= link_room prm /\ Forall (MeshSpec.fit_poly (zlen (tdVerts (spec_tile prm bv)))) (tdPolys (spec_tile prm bv)).
Proof.
  intros bv C0. destruct (holds bv C0) as ((LV & _ & _) & _). destruct HM as (NV & _ & _ & NP & _). assert (EP : cpPolyCount prm = Z.of_nat (length Q)) by exact NP.
  assert (K : kept prm = []) by (unfold kept; change (cpOMCount prm) with (cnCount cn); rewrite C0; reflexivity). pose proof nQ as BQ. pose proof nV as BV. pose proof polys_len as PL.
  assert (LE : forall i, (i < length Q)%nat -> exists q, nth_error Q i = Some q /\ length (edges_of prm (Z.of_nat i)) = length (fst q)).
  { intros i Hi. destruct (nth_error Q i) as [q|] eqn:E; [|apply nth_error_None in E; lia]. exists q. split; [reflexivity|]. destruct (proper_at _ _ E) as (L3 & _).
    unfold edges_of, part. rewrite (verts_is _ _ E). change (nilOr (cpPolys prm)) with (mPolys m). change (cpNvp prm) with (cfNvp cf). rewrite firstn_length, skipn_length. unfold zlen in *.
    assert (2 * cfNvp cf * (Z.of_nat i + 1) <= 2 * cfNvp cf * Z.of_nat (length Q)) by (apply Z.mul_le_mono_nonneg_l; lia). lia. }
  split.
  - unfold link_room, all_edges. rewrite EP, upto_nat. destruct (flat_zseq (edges_of prm) (length Q) 0 ltac:(lia)) as (r & ->). destruct (LE 0%nat ltac:(lia)) as (q & E & L). destruct (proper_at _ _ E) as (L3 & _).
    unfold zlen. rewrite !app_length, L. lia.
  - unfold spec_tile at 2. cbn [tdPolys]. rewrite K, EP, upto_nat. cbn [numbered length combine map]. rewrite app_nil_r. apply Forall_forall. intros P I. apply in_map_iff in I as (i & <- & I). apply in_zseq in I.
    destruct (LE (Z.to_nat i) ltac:(lia)) as (q & E & L). rewrite Z2Nat.id in L by lia. pose proof (verts_is _ _ E) as VE. rewrite Z2Nat.id in VE by lia. destruct (proper_at _ _ E) as (L3 & FV & _).
    unfold MeshSpec.fit_poly, ground. cbn [pVerts pNeis pVertCount]. rewrite VE. unfold six. rewrite !app_length, !repeat_length, map_length, L. split; [lia|]. split; [lia|]. split; [unfold zlen; lia|].
    intros j v Hj G. apply get_ok in G as (_ & G). unfold zlen in Hj. rewrite nth_error_app1 in G by lia. rewrite Forall_forall in FV. specialize (FV v (nth_error_In _ _ G)).
    unfold zlen. rewrite LV. assert (3 * cap <= 65535) by nia. lia.
Qed.
End Params.
