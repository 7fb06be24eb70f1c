(** C64: the integer boxes of the bounding volume tree lose no polygon. *)
From Coq Require Import ZArith List Bool Lia Permutation.
From Verif.Base Require Import Res GoNum F32 Num Grid Bytes.
From Verif.Model Require Import Status Poly PolyRef Bounds Geom MeshTypes MeshLinks MeshTiles BvTree TileQuery.
From Verif.Spec Require Import BvSpec QuerySpec PathSpec QuantSpec.
From Verif.Proofs Require Import BasicsProofs BvProofs TileQueryProofs ScanProofs FloatAdd FloatMag FloatMono QuantProofs FindPathEnd.
From Verif.Properties Require Import ExampleMesh DetourBv.
Import ListNotations.
Open Scope Z_scope.

Lemma real_num : forall a, real32 a -> num a.
Proof. intros [s|s| |s m e] [H N]; try exact I; [now apply N|exact H]. Qed.
Lemma finite_vec : forall v, finite_pos v -> fin (vx v) /\ fin (vy v) /\ fin (vz v).
Proof. intros [[x y] z] (A & B & C). cbn [vx vy vz fst snd] in *. now rewrite <- !finite32_fin. Qed.
Lemma fin_nonnan : forall a, fin a -> nonnan a.
Proof. intros a F. destruct (fin_cases a F) as [(s & ->)|(s & m & e & -> & _)]; discriminate. Qed.

(** The item of a polygon is the quantized box of its detail vertices. *)
Lemma bv_item_box : forall dmeshes dverts org qf i vs, detail_verts dmeshes dverts i vs -> vs <> [] -> Forall finite_pos vs ->
  exists bmin bmax, bv_item dmeshes dverts org qf i = Ok (quant_box bmin bmax org qf i) /\ box_of vs bmin bmax.
Proof.
  intros dmeshes dverts org qf i vs (vb & G1 & G2 & G3) NE F. unfold bv_item.
  rewrite (Z.mul_comm i 4), G1. cbn [bind]. rewrite G2. cbn [bind].
  assert (Nn : Forall vec_nonnan vs).
  { eapply Forall_impl; [|exact F]. intros v Hv. destruct (finite_vec v Hv) as (A & B & C). split; [|split]; now apply fin_nonnan. }
  set (at3 := fun k => let* x := get dverts (vb * 3 + k) in let* y := get dverts (vb * 3 + k + 1) in let* z := get dverts (vb * 3 + k + 2) in Ok (x, y, z)).
  assert (A : forall j v, nth_error vs j = Some v -> at3 (Z.of_nat j * 3) = Ok v).
  { intros j v E. destruct (G3 j v E) as (X & Y & W). unfold at3. replace (vb * 3 + Z.of_nat j * 3) with (3 * (vb + Z.of_nat j)) by lia.
    rewrite X. cbn [bind]. rewrite Y. cbn [bind]. rewrite W. cbn [bind]. destruct v as [[x y] z]. reflexivity. }
  destruct vs as [|v0 tl]; [congruence|].
  pose proof (A 0%nat v0 eq_refl) as A0. change (Z.of_nat 0 * 3) with 0 in A0. cbv zeta. match goal with |- context [bind ?r _] => change r with (at3 0) end. rewrite A0. cbn [bind].
  replace (Z.to_nat (zlen (v0 :: tl) - 1)) with (length tl) by (rewrite zlen_cons; unfold zlen; lia).
  assert (K : forall k, (k <= length tl)%nat -> exists bmin bmax,
    foldM (fun '(mn, mx) j => let* v := at3 ((j + 1) * 3) in Ok (vmin2 mn v, vmax2 mx v)) (zseq k) (v0, v0) = Ok (bmin, bmax) /\ box_of (v0 :: firstn k tl) bmin bmax).
  { induction k as [|k IH]; intros Hk.
    - exists v0, v0. split; [reflexivity|]. apply box_of_one. inversion Nn; assumption.
    - destruct IH as (bmin & bmax & E & B); [lia|]. rewrite zseq_S, foldM_app, E. cbn [bind foldM].
      destruct (nth_error_in_range tl k) as [w Ew]; [lia|]. pose proof (A (S k) w Ew) as Ak. rewrite Nat2Z.inj_succ in Ak. unfold Z.succ in Ak.
      rewrite Ak. cbn [bind]. exists (vmin2 bmin w), (vmax2 bmax w). split; [reflexivity|]. rewrite (firstn_snoc _ _ _ Ew).
      change (v0 :: firstn k tl ++ [w]) with ((v0 :: firstn k tl) ++ [w]). apply box_of_step; [exact B|].
      rewrite Forall_forall in Nn. apply Nn. right. apply nth_error_In with k. exact Ew. }
  destruct (K (length tl)) as (bmin & bmax & E & B); [lia|]. rewrite firstn_all in B. exists bmin, bmax. split; [|exact B].
  match goal with |- bind ?r _ = _ => change r with (foldM (fun '(mn, mx) j => let* v := at3 ((j + 1) * 3) in Ok (vmin2 mn v, vmax2 mx v)) (zseq (length tl)) (v0, v0)) end.
  rewrite E. reflexivity.
Qed.

(** One axis: neither interval is wholly below the other after quantization. *)
Lemma axis_overlap : forall (c : fvec -> f32) tmin tmax qf vs bn bx qn qx,
  fin (c tmin) -> fin (c tmax) -> fin qf -> nn qf -> fle (c tmin) (c tmax) = true ->
  flt (fadd (fmul qf (fsub (c tmax) (c tmin))) f1) (f_of_Z 65536) = true ->
  (forall v, In v vs -> fin (c v)) -> (forall v, In v vs -> flt (fmul (fsub (c v) (c tmin)) qf) (f_of_Z 2147483648) = true) ->
  (exists v, In v vs /\ fle (c v) (c tmax) = true) -> low c bn vs -> high c bx vs -> num qn -> num qx ->
  (exists v, In v vs /\ fle qn (c v) = true) -> (exists v, In v vs /\ fle (c v) qx = true) ->
  q_min qn (c tmin) (c tmax) qf <= quant_item bx (c tmin) qf /\ quant_item bn (c tmin) qf <= q_max qx (c tmin) (c tmax) qf.
Proof.
  intros c tmin tmax qf vs bn bx qn qx Fn Fx Fq Nq LE TOP Fv Sv (r & Ir & Lr) [(v & Iv & Ev) Hl] [(w & Iw & Ew) Hh] Nqn Nqx (a & Ia & La) (b & Ib & Lb).
  rewrite fle_SV in LE by (apply Fn || apply Fx). apply Z.leb_le in LE.
  split.
  - rewrite <- Ew. apply q_min_le; auto. pose proof (Hh a Ia) as H1. rewrite <- Ew in H1.
    pose proof (fle_trans _ _ _ La H1) as T. rewrite fle_SV in T by (auto; apply Fv; auto). now apply Z.leb_le.
  - rewrite <- Ev. apply q_max_ge; auto.
    + pose proof (Hl r Ir) as H1. rewrite <- Ev in H1. pose proof (fle_trans _ _ _ H1 Lr) as T. rewrite fle_SV in T by (apply Fv + apply Fx; auto). now apply Z.leb_le.
    + pose proof (Hl b Ib) as H1. rewrite <- Ev in H1. pose proof (fle_trans _ _ _ H1 Lb) as T. rewrite fle_SV in T by (auto; apply Fv; auto). now apply Z.leb_le.
Qed.

(** * C64 *)

(** A tile whose nodes were built by createBVTree (2n nodes as CreateNavMeshData makes them) from
    the same corner and quantization factor as in its header. A polygon whose detail vertices
    are not separated from the query box along any axis is reported, if the box of the tile fits
    the integers, its vertices are representable, and it does not lie above the tile. *)
Theorem C64_conservative : forall sort, (forall less l, Permutation (sort less l) l) ->
  forall n dmeshes dverts cs m it t h qmin qmax,
  1 <= n -> 2 * n < 2 ^ 31 -> dmeshes <> [] ->
  tile_of m it = Ok t -> tHeader t = Some h -> hBvNodeCount h = 2 * n -> zlen (tdPolys (tD t)) = n ->
  let tmin := fvec_of (hBMin h) in let tmax := fvec_of (hBMax h) in let qf := f_of_bits (hBvQuantFactor h) in
  qf = fdiv f1 cs -> createBVTree sort n dmeshes dverts tmin cs (repeat zeroBv (Z.to_nat (2 * n))) = Ok (tdBv (tD t), 2 * n - 1) ->
  tile_fits tmin tmax qf -> real_vec qmin -> real_vec qmax ->
  (forall i, 0 <= i < n -> exists vs, detail_verts dmeshes dverts i vs /\ vs <> [] /\ Forall finite_pos vs) ->
  exists l, queryPolygonsInTile accept_all log_process m it qmin qmax [] = Ok l /\
    forall i vs, 0 <= i < n -> detail_verts dmeshes dverts i vs -> vs <> [] -> Forall finite_pos vs ->
      steps_fit tmin qf vs -> reaches tmax vs -> touches_box vs qmin qmax ->
      In (t, Z.lor (base_ref m it t) i) l.
Proof.
  intros sort Hs n dmeshes dverts cs m it t h qmin qmax Hn Hb Hd Ht Hh Hc Hp tmin tmax qf Eq Cr (Ftn & Ftx & Fq & Pq & FA) Rn Rx Hall.
  destruct (C21_createBVTree sort Hs n dmeshes dverts tmin cs (repeat zeroBv (Z.to_nat (2 * n)))) as (nodes' & items & Cr' & BA & Ln & Rest & Pm & HI).
  - exact Hn.
  - unfold zlen. rewrite repeat_length. lia.
  - unfold zlen. rewrite repeat_length. lia.
  - exact Hd.
  - intros i Hi. destruct (Hall i Hi) as (vs & Dv & NE & F). destruct (bv_item_box dmeshes dverts tmin (fdiv f1 cs) i vs Dv NE F) as (a & b & E & _). eauto.
  - rewrite Cr in Cr'. apply Ok_inj in Cr'. inversion Cr' as [EN]. subst nodes'. clear Cr'.
    assert (Idx : forall x, In x items -> 0 <= iI x < n).
    { intros x I. assert (I' : In (iI x) (zseq (Z.to_nat n))) by (eapply Permutation_in; [exact Pm|now apply in_map]). apply in_zseq in I'. lia. }
    destruct (C22_padded_tree m it t h qmin qmax items Ht Hh) as (bmin & bmax & idxs & Q & R & tl & EI & _).
    + rewrite Hc. exact BA.
    + rewrite Hc, Rest by lia. apply get_ok. split; [lia|]. apply nth_error_repeat. lia.
    + lia.
    + intros x I. rewrite Hp. now apply Idx.
    + intros E. rewrite E in Hp. unfold zlen in Hp. cbn in Hp. lia.
    + exists (map (fun i => (t, Z.lor (base_ref m it t) i)) idxs). split; [exact R|].
      intros i vs Hi Dv NE F SF RT TB. apply (in_map (fun i => (t, Z.lor (base_ref m it t) i))). rewrite EI. apply in_or_app. left.
      assert (I0 : In i (map iI items)) by (eapply Permutation_in; [apply Permutation_sym; exact Pm|apply in_zseq; lia]).
      apply in_map_iff in I0 as (x & Ex & Ix). apply in_map_iff. exists x. split; [exact Ex|]. apply filter_In. split; [exact Ix|].
      destruct (bv_item_box dmeshes dverts tmin (fdiv f1 cs) i vs Dv NE F) as (a & b & E & ((A0 & A1 & A2) & (B0 & B1 & B2))).
      pose proof (HI x Ix) as E'. rewrite Ex, E in E'. apply Ok_inj in E'. subst x.
      unfold quant_query in Q. fold tmin tmax qf in Q. inversion Q; subst bmin bmax. clear Q.
      apply overlap3_iff. unfold quant_box. rewrite <- Eq.
      destruct (finite_vec _ Ftn) as (Fn0 & Fn1 & Fn2). destruct (finite_vec _ Ftx) as (Fx0 & Fx1 & Fx2).
      pose proof (proj1 (finite32_fin qf) Fq) as Fq'.
      assert (Nq : nn qf) by (apply nonneg32_nn; split; [apply Fq|exact Pq]).
      destruct Rn as (Rn0 & Rn1 & Rn2). destruct Rx as (Rx0 & Rx1 & Rx2).
      rewrite Forall_forall in F.
      assert (C : forall c bn bx qn qx, In c axes -> fin (c tmin) -> fin (c tmax) -> (forall v, In v vs -> fin (c v)) -> low c bn vs -> high c bx vs ->
        num qn -> num qx -> (exists v, In v vs /\ fle qn (c v) = true) -> (exists v, In v vs /\ fle (c v) qx = true) ->
        q_min qn (c tmin) (c tmax) qf <= quant_item bx (c tmin) qf /\ quant_item bn (c tmin) qf <= q_max qx (c tmin) (c tmax) qf).
      { intros c bn bx qn qx Ic F1 F2 F3 L1 H1 N1 N2 T1 T2. destruct (FA c Ic) as [LE TOP]. apply (axis_overlap c tmin tmax qf vs); auto. }
      assert (TB' : forall c, In c axes -> (exists v, In v vs /\ fle (c qmin) (c v) = true) /\ (exists v, In v vs /\ fle (c v) (c qmax) = true)) by exact TB.
      destruct (C (@vx f32) (vx a) (vx b) (vx qmin) (vx qmax)) as [X1 X2]; auto; try (now apply real_num); try (apply TB'; cbn; auto); [cbn; auto|intros v Iv; apply (finite_vec v (F v Iv))|].
      destruct (C (@vy f32) (vy a) (vy b) (vy qmin) (vy qmax)) as [Y1 Y2]; auto; try (now apply real_num); try (apply TB'; cbn; auto); [cbn; auto|intros v Iv; apply (finite_vec v (F v Iv))|].
      destruct (C (@vz f32) (vz a) (vz b) (vz qmin) (vz qmax)) as [W1 W2]; auto; try (now apply real_num); try (apply TB'; cbn; auto); [cbn; auto|intros v Iv; apply (finite_vec v (F v Iv))|].
      unfold overlaps3, le3. cbn [c0 c1 c2 iMin iMax]. auto 10.
Qed.

(** Example: the tile of the example mesh, one unit wide, five quantization steps per unit, with
    detail meshes of three vertices for its two triangles. *)
Definition q_dmeshes : list Z := [0; 3; 0; 1; 3; 3; 0; 1].
Definition q_dverts : list f32 :=
  flat_map (fun '(x, y, z) => [f_ratio x 4; f_ratio y 4; f_ratio z 4]) [(0, 0, 0); (4, 1, 0); (4, 0, 4); (0, 0, 0); (4, 0, 4); (0, 2, 4)].
Definition q_cs : f32 := f_ratio 1 5.
Definition built (dverts : list f32) : list BvNode :=
  match createBVTree isort 2 q_dmeshes dverts (f0, f0, f0) q_cs (repeat zeroBv 4) with Ok (nodes, _) => nodes | _ => [] end.
Definition q_tile (dverts : list f32) : MeshTile := bv_tile (built dverts) 4.
Definition rat3 (x y z d : Z) : fvec := (f_ratio x d, f_ratio y d, f_ratio z d).
Example C64_example : let t := q_tile q_dverts in
  (exists h, tHeader t = Some h /\ hBvNodeCount h = 2 * 2 /\ zlen (tdPolys (tD t)) = 2 /\ f_of_bits (hBvQuantFactor h) = fdiv f1 q_cs /\
     createBVTree isort 2 q_dmeshes q_dverts (fvec_of (hBMin h)) q_cs (repeat zeroBv 4) = Ok (tdBv (tD t), 3) /\
     tile_fits (fvec_of (hBMin h)) (fvec_of (hBMax h)) (f_of_bits (hBvQuantFactor h)) /\
     exists vs, detail_verts q_dmeshes q_dverts 1 vs /\ zlen vs = 3 /\ Forall finite_pos vs /\
       steps_fit (fvec_of (hBMin h)) (f_of_bits (hBvQuantFactor h)) vs /\ reaches (fvec_of (hBMax h)) vs /\
       touches_box vs (rat3 1 7 30 32) (rat3 2 8 31 32)) /\
  queryPolygonsInTile accept_all log_process (bv_mesh t) 0 (rat3 1 7 30 32) (rat3 2 8 31 32) [] = Ok [(t, 4); (t, 5)] /\
  queryPolygonsInTile accept_all log_process (bv_mesh t) 0 (rat3 1 14 30 32) (rat3 2 16 31 32) [] = Ok [(t, 5)].
Proof.
  cbv zeta. split; [|split; vm_compute; reflexivity].
  eexists. split; [reflexivity|]. split; [reflexivity|]. split; [reflexivity|]. split; [vm_compute; reflexivity|]. split; [vm_compute; reflexivity|]. split.
  - split; [vm_compute; auto|]. split; [vm_compute; auto|]. split; [vm_compute; auto|]. split; [vm_compute; reflexivity|].
    intros c [<-|[<-|[<-|[]]]]; vm_compute; auto.
  - exists [rat3 0 0 0 4; rat3 4 0 4 4; rat3 0 2 4 4]. split.
    + exists 3. split; [reflexivity|]. split; [reflexivity|]. intros [|[|[|j]]] v E; cbn [nth_error] in E; try (apply f_equal with (f := fun o => match o with Some x => x | None => v end) in E; subst v; split; [|split]; vm_compute; reflexivity).
      destruct j; discriminate E.
    + split; [reflexivity|]. split; [repeat (apply Forall_cons; [vm_compute; auto|]); apply Forall_nil|]. split.
      * intros v c [<-|[<-|[<-|[]]]] [<-|[<-|[<-|[]]]]; vm_compute; reflexivity.
      * split; [intros c [<-|[<-|[<-|[]]]]; eexists; (split; [left; reflexivity|vm_compute; reflexivity])|].
        intros c [<-|[<-|[<-|[]]]]; split.
        -- eexists; split; [right; left; reflexivity|vm_compute; reflexivity].
        -- eexists; split; [left; reflexivity|vm_compute; reflexivity].
        -- eexists; split; [right; right; left; reflexivity|vm_compute; reflexivity].
        -- eexists; split; [left; reflexivity|vm_compute; reflexivity].
        -- eexists; split; [right; left; reflexivity|vm_compute; reflexivity].
        -- eexists; split; [left; reflexivity|vm_compute; reflexivity].
Qed.

(** Without [reaches] a polygon can be lost: all of polygon 0 is beyond the upper bound of the
    tile, the query box lies inside the box of the polygon, and nothing is reported. *)
Definition q_above : list f32 :=
  flat_map (fun '(x, y, z) => [f_of_Z x; f_of_Z y; f_of_Z z]) [(3, 0, 0); (5, 2, 0); (5, 0, 2); (0, 0, 0); (1, 0, 1); (0, 0, 1)].
Theorem C64_above_refuted : let t := q_tile q_above in exists vs,
  detail_verts q_dmeshes q_above 0 vs /\ zlen vs = 3 /\
  touches_box vs (fvz 4 1 1) (fvz 4 1 1) /\
  queryPolygonsInTile accept_all log_process (bv_mesh t) 0 (fvz 4 1 1) (fvz 4 1 1) [] = Ok [].
Proof.
  cbv zeta. exists [fvz 3 0 0; fvz 5 2 0; fvz 5 0 2]. split; [|split; [reflexivity|split]].
  - exists 0. split; [reflexivity|]. split; [reflexivity|]. intros [|[|[|j]]] v E; cbn [nth_error] in E; try (apply f_equal with (f := fun o => match o with Some x => x | None => v end) in E; subst v; split; [|split]; vm_compute; reflexivity).
    destruct j; discriminate E.
  - intros c [<-|[<-|[<-|[]]]]; split.
    + eexists; split; [right; left; reflexivity|vm_compute; reflexivity].
    + eexists; split; [left; reflexivity|vm_compute; reflexivity].
    + eexists; split; [right; left; reflexivity|vm_compute; reflexivity].
    + eexists; split; [left; reflexivity|vm_compute; reflexivity].
    + eexists; split; [right; right; left; reflexivity|vm_compute; reflexivity].
    + eexists; split; [left; reflexivity|vm_compute; reflexivity].
  - vm_compute. reflexivity.
Qed.
(** Without [steps_fit] as well: a vertex 2^30 units away gives the polygon an empty box at 0. *)
Definition q_far : list f32 :=
  flat_map (fun '(x, y, z) => [f_of_Z x; f_of_Z y; f_of_Z z]) [(0, 0, 0); (1073741824, 0, 0); (0, 1, 1); (0, 0, 0); (0, 0, 1); (0, 0, 1)].
Theorem C64_far_refuted : let t := q_tile q_far in exists vs,
  detail_verts q_dmeshes q_far 0 vs /\ zlen vs = 3 /\ reaches (fvz 1 1 1) vs /\
  touches_box vs (fvz 1 0 0) (fvz 1 1 1) /\
  queryPolygonsInTile accept_all log_process (bv_mesh t) 0 (fvz 1 0 0) (fvz 1 1 1) [] = Ok [].
Proof.
  cbv zeta. exists [fvz 0 0 0; fvz 1073741824 0 0; fvz 0 1 1]. split; [|split; [reflexivity|split; [|split]]].
  - exists 0. split; [reflexivity|]. split; [reflexivity|]. intros [|[|[|j]]] v E; cbn [nth_error] in E; try (apply f_equal with (f := fun o => match o with Some x => x | None => v end) in E; subst v; split; [|split]; vm_compute; reflexivity).
    destruct j; discriminate E.
  - intros c [<-|[<-|[<-|[]]]]; eexists; (split; [left; reflexivity|vm_compute; reflexivity]).
  - intros c [<-|[<-|[<-|[]]]]; split.
    + eexists; split; [right; left; reflexivity|vm_compute; reflexivity].
    + eexists; split; [left; reflexivity|vm_compute; reflexivity].
    + eexists; split; [left; reflexivity|vm_compute; reflexivity].
    + eexists; split; [left; reflexivity|vm_compute; reflexivity].
    + eexists; split; [left; reflexivity|vm_compute; reflexivity].
    + eexists; split; [left; reflexivity|vm_compute; reflexivity].
  - vm_compute. reflexivity.
Qed.

Print Assumptions C64_conservative.
Print Assumptions C64_above_refuted.
Print Assumptions C64_far_refuted.
