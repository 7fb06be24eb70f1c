From Coq Require Import ZArith List Bool Lia Permutation Sorted.
From Verif.Base Require Import Res GoNum F32 Num Grid Bytes.
From Verif.Model Require Import Status Poly PolyRef Bounds Geom MeshTypes MeshLinks MeshTiles BvTree TileQuery.
From Verif.Spec Require Import BvSpec QuerySpec.
From Verif.Proofs Require Import BasicsProofs BvProofs TileQueryProofs.
Import ListNotations.
Open Scope Z_scope.

(** * Bounds of a list of vertices *)
Definition low (c : fvec -> f32) (b : f32) (vs : list fvec) : Prop :=
  (exists v, In v vs /\ c v = b) /\ forall v, In v vs -> fle b (c v) = true.
Definition high (c : fvec -> f32) (b : f32) (vs : list fvec) : Prop :=
  (exists v, In v vs /\ c v = b) /\ forall v, In v vs -> fle (c v) b = true.

Lemma low_step : forall c b vs w, low c b vs -> nonnan (c w) -> low c (fminf b (c w)) (vs ++ [w]).
Proof.
  intros c b vs w [(v & I & E) H] N. unfold fminf.
  assert (Nb : nonnan b) by (rewrite <- E; exact (proj2 (fle_nonnan _ _ (H v I)))).
  destruct (flt b (c w)) eqn:F.
  - split; [exists v; split; [apply in_or_app; left; exact I|exact E]|].
    intros u Iu. apply in_app_or in Iu as [Iu|[<-|[]]]; [exact (H u Iu)|apply flt_fle; exact F].
  - split; [exists w; split; [apply in_or_app; right; left; reflexivity|reflexivity]|].
    pose proof (not_flt_fle _ _ Nb N F).
    intros u Iu. apply in_app_or in Iu as [Iu|[<-|[]]]; [exact (fle_trans _ _ _ H0 (H u Iu))|apply fle_refl; exact N].
Qed.
Lemma high_step : forall c b vs w, high c b vs -> nonnan (c w) -> high c (fmaxf b (c w)) (vs ++ [w]).
Proof.
  intros c b vs w [(v & I & E) H] N. unfold fmaxf, fgt. fold (flt (c w) b).
  assert (Nb : nonnan b) by (rewrite <- E; exact (proj1 (fle_nonnan _ _ (H v I)))).
  destruct (flt (c w) b) eqn:F.
  - split; [exists v; split; [apply in_or_app; left; exact I|exact E]|].
    intros u Iu. apply in_app_or in Iu as [Iu|[<-|[]]]; [exact (H u Iu)|apply flt_fle; exact F].
  - split; [exists w; split; [apply in_or_app; right; left; reflexivity|reflexivity]|].
    pose proof (not_flt_fle _ _ N Nb F).
    intros u Iu. apply in_app_or in Iu as [Iu|[<-|[]]]; [exact (fle_trans _ _ _ (H u Iu) H0)|apply fle_refl; exact N].
Qed.

Definition box_of (vs : list fvec) (bmin bmax : fvec) : Prop :=
  (low (@vx f32) (vx bmin) vs /\ low (@vy f32) (vy bmin) vs /\ low (@vz f32) (vz bmin) vs) /\
  (high (@vx f32) (vx bmax) vs /\ high (@vy f32) (vy bmax) vs /\ high (@vz f32) (vz bmax) vs).

Lemma box_of_one : forall v, vec_nonnan v -> box_of [v] v v.
Proof.
  intros v (A & B & C).
  assert (L : forall (c : fvec -> f32), nonnan (c v) -> low c (c v) [v]).
  { intros c N. split; [exists v; split; [left; reflexivity|reflexivity]|]. intros u [<-|[]]. apply fle_refl. exact N. }
  assert (H : forall (c : fvec -> f32), nonnan (c v) -> high c (c v) [v]).
  { intros c N. split; [exists v; split; [left; reflexivity|reflexivity]|]. intros u [<-|[]]. apply fle_refl. exact N. }
  split; [split; [|split]; apply L; assumption|split; [|split]; apply H; assumption].
Qed.
Lemma box_of_step : forall vs bmin bmax w, box_of vs bmin bmax -> vec_nonnan w ->
  box_of (vs ++ [w]) (vmin2 bmin w) (vmax2 bmax w).
Proof.
  intros vs bmin bmax w ((A & B & C) & (D & E & F)) (X & Y & Z0).
  split; (split; [|split]).
  1,2,3: cbn [vmin2 vx vy vz]; apply low_step; assumption.
  all: cbn [vmax2 vx vy vz]; apply high_step; assumption.
Qed.

(** A box given by its corners is not separated from the box of the vertices. *)
Lemma axis_touch : forall (c : fvec -> f32) vs mn mx bn bx, nonnan mn -> nonnan mx -> low c bn vs -> high c bx vs ->
  (fgt mn bx || flt mx bn = false <->
   (exists v, In v vs /\ fle mn (c v) = true) /\ (exists v, In v vs /\ fle (c v) mx = true)).
Proof.
  intros c vs mn mx bn bx Nn Nx [(v & Iv & Ev) Hl] [(w & Iw & Ew) Hh].
  assert (Nbn : nonnan bn) by (rewrite <- Ev; exact (proj2 (fle_nonnan _ _ (Hl v Iv)))).
  assert (Nbx : nonnan bx) by (rewrite <- Ew; exact (proj1 (fle_nonnan _ _ (Hh w Iw)))).
  unfold fgt. fold (flt bx mn). rewrite orb_false_iff. split.
  - intros [F G]. split.
    + exists w. split; [exact Iw|]. rewrite Ew. apply not_flt_fle; assumption.
    + exists v. split; [exact Iv|]. rewrite Ev. apply not_flt_fle; assumption.
  - intros [(u & Iu & Fu) (u' & Iu' & Fu')]. split.
    + rewrite flt_not_fle by assumption. rewrite (fle_trans _ _ _ Fu (Hh u Iu)). reflexivity.
    + rewrite flt_not_fle by assumption. rewrite (fle_trans _ _ _ (Hl u' Iu') Fu'). reflexivity.
Qed.

Lemma overlap_touch : forall vs bmin bmax qmin qmax, vec_nonnan qmin -> vec_nonnan qmax -> box_of vs bmin bmax ->
  (OverlapBounds qmin qmax bmin bmax = true <-> touches_box vs qmin qmax).
Proof.
  intros vs bmin bmax qmin qmax (Q0 & Q1 & Q2) (R0 & R1 & R2) ((A & B & C) & (D & E & F)).
  pose proof (axis_touch _ vs _ _ _ _ Q0 R0 A D) as X.
  pose proof (axis_touch _ vs _ _ _ _ Q1 R1 B E) as Y.
  pose proof (axis_touch _ vs _ _ _ _ Q2 R2 C F) as W.
  destruct qmin as [[qn0 qn1] qn2], qmax as [[qx0 qx1] qx2], bmin as [[bn0 bn1] bn2], bmax as [[bx0 bx1] bx2].
  cbn [vx vy vz] in *. unfold OverlapBounds.
  split.
  - intros T.
    destruct (fgt qn0 bx0 || flt qx0 bn0) eqn:T0; [discriminate|].
    destruct (fgt qn1 bx1 || flt qx1 bn1) eqn:T1; [discriminate|].
    destruct (fgt qn2 bx2 || flt qx2 bn2) eqn:T2; [discriminate|].
    intros c [<-|[<-|[<-|[]]]]; [apply X|apply Y|apply W]; reflexivity.
  - intros T. rewrite (proj2 X), (proj2 Y), (proj2 W); [reflexivity| | |].
    + apply (T (@vz f32)). cbn; auto.
    + apply (T (@vy f32)). cbn; auto.
    + apply (T (@vx f32)). cbn; auto.
Qed.

(** * Bounds of a polygon *)
Lemma vert16_read : forall vs i x y z, zlen vs <= 65536 ->
  get vs (3 * i) = Ok x -> get vs (3 * i + 1) = Ok y -> get vs (3 * i + 2) = Ok z ->
  vert16 vs i = Ok (f_of_bits x, f_of_bits y, f_of_bits z).
Proof.
  intros vs i x y z L X Y W.
  pose proof (get_range _ _ _ X). pose proof (get_range _ _ _ W).
  unfold vert16. rewrite (Z.mul_comm i 3).
  assert (3 * i + 3 < 65536) by (assert (3 * i + 2 <> 65535) by lia; lia).
  rewrite (u16_id (3 * i)) by (unfold is_u16; lia). rewrite u16_id by (unfold is_u16; lia).
  destruct (Z.ltb_spec (3 * i + 3) (3 * i)); [lia|].
  unfold vec3_at. rewrite X, Y, W. reflexivity.
Qed.

Definition readable (t : MeshTile) (p : Poly) : Prop :=
  1 <= pVertCount p /\ exists vs, poly_verts t p vs /\ Forall vec_nonnan vs.

Lemma poly_bounds_box : forall t p vs, zlen (tdVerts (tD t)) <= 65536 -> 1 <= pVertCount p ->
  poly_verts t p vs -> Forall vec_nonnan vs ->
  exists bmin bmax, poly_bounds t p = Ok (bmin, bmax) /\ box_of vs bmin bmax.
Proof.
  intros t p vs Hl Hc [Lv Hv] Hn.
  assert (G : forall j v, nth_error vs j = Some v -> exists i, get (pVerts p) (Z.of_nat j) = Ok i /\ vert16 (tdVerts (tD t)) i = Ok v).
  { intros j v E. destruct (Hv j v E) as (i & x & y & z & Ei & X & Y & W & ->). exists i. split.
    - apply get_ok. rewrite Nat2Z.id. split; [lia|exact Ei].
    - apply vert16_read; assumption. }
  destruct vs as [|v0 tl]; [unfold zlen in Lv; cbn in Lv; lia|].
  unfold poly_bounds. destruct (G 0%nat v0 eq_refl) as (i0 & Gi & Gv).
  cbn [Z.of_nat] in Gi. rewrite Gi. cbn [bind]. rewrite Gv. cbn [bind].
  replace (Z.to_nat (pVertCount p - 1)) with (length tl) by (rewrite <- Lv, zlen_cons; unfold zlen; lia).
  assert (K : forall k, (k <= length tl)%nat -> exists bmin bmax,
    foldM (fun '(bmin, bmax) j => let* vj := get (pVerts p) (j + 1) in let* v := vert16 (tdVerts (tD t)) vj in
       Ok (vmin2 bmin v, vmax2 bmax v)) (zseq k) (v0, v0) = Ok (bmin, bmax) /\ box_of (v0 :: firstn k tl) bmin bmax).
  { induction k as [|k IH]; intros Hk.
    - exists v0, v0. split; [reflexivity|]. apply box_of_one. inversion Hn; assumption.
    - destruct IH as (bmin & bmax & E & B); [lia|].
      rewrite zseq_S, foldM_app, E. cbn [bind foldM].
      destruct (nth_error_in_range tl k) as [w Ew]; [lia|].
      destruct (G (S k) w Ew) as (i & Gi' & Gv'). rewrite Nat2Z.inj_succ in Gi'. unfold Z.succ in Gi'.
      rewrite Gi'. cbn [bind]. rewrite Gv'. cbn [bind].
      exists (vmin2 bmin w), (vmax2 bmax w). split; [reflexivity|].
      rewrite (firstn_snoc _ _ _ Ew).
      change (v0 :: firstn k tl ++ [w]) with ((v0 :: firstn k tl) ++ [w]). apply box_of_step; [exact B|].
      rewrite Forall_forall in Hn. apply Hn. right. apply nth_error_In with k. exact Ew. }
  destruct (K (length tl)) as (bmin & bmax & E & B); [lia|]. rewrite firstn_all in B. eauto.
Qed.

Lemma nth_error_ext_len : forall {A} (l k : list A), length l = length k ->
  (forall j v, nth_error l j = Some v -> forall w, nth_error k j = Some w -> v = w) -> l = k.
Proof.
  induction l as [|x l IH]; intros [|y k] L H; cbn in L; try lia; [reflexivity|].
  f_equal; [exact (H 0%nat x eq_refl y eq_refl)|].
  apply IH; [lia|]. intros j v E w E'. exact (H (S j) v E w E').
Qed.

Lemma poly_verts_fun : forall t p vs vs', poly_verts t p vs -> poly_verts t p vs' -> vs = vs'.
Proof.
  intros t p vs vs' [L H] [L' H'].
  assert (Le : length vs = length vs') by (unfold zlen in *; lia).
  apply nth_error_ext_len; [exact Le|].
  intros j v E v' E'.
  destruct (H j v E) as (i & x & y & z & Ei & X & Y & W & ->).
  destruct (H' j v' E') as (i' & x' & y' & z' & Ei' & X' & Y' & W' & ->).
  congruence.
Qed.

(** * The scan *)
Section Filter.
Variable pass : Z -> MeshTile -> Poly -> bool.

Definition selected (t : MeshTile) (base : Z) (qmin qmax : fvec) (i : Z) : bool :=
  match get (tdPolys (tD t)) i with
  | Ok p => pass (Z.lor base i) t p &&
            match poly_bounds t p with Ok (bmin, bmax) => OverlapBounds qmin qmax bmin bmax | _ => false end
  | _ => false
  end.

Lemma scan_emit : forall t base qmin qmax, zlen (tdVerts (tD t)) <= 65536 ->
  forall l, (forall i, In i l -> exists p, get (tdPolys (tD t)) i = Ok p /\ Type_ p <> polyTypeOffMeshConnection /\ readable t p) ->
  forall S (process : Proc S) st,
  foldM (scan_step pass process t base qmin qmax) l st =
  foldM (emit process t) (map (Z.lor base) (filter (selected t base qmin qmax) l)) st.
Proof.
  intros t base qmin qmax Hl. induction l as [|i l IH]; intros H S process st; [reflexivity|].
  destruct (H i (or_introl eq_refl)) as (p & Gp & Tp & Hc & vs & Pv & Hn).
  destruct (poly_bounds_box t p vs Hl Hc Pv Hn) as (bmin & bmax & Eb & _).
  cbn [foldM filter]. unfold scan_step at 1, selected at 1. rewrite Gp. cbn [bind].
  destruct (Z.eqb_spec (Type_ p) polyTypeOffMeshConnection); [congruence|].
  destruct (pass (Z.lor base i) t p); cbn [negb andb].
  - rewrite Eb. cbn [bind]. destruct (OverlapBounds qmin qmax bmin bmax); cbn [map foldM bind].
    + destruct (emit process t st (Z.lor base i)); cbn [bind]; try reflexivity. apply IH. intros. apply H. right. assumption.
    + apply IH. intros. apply H. right. assumption.
  - cbn [bind]. apply IH. intros. apply H. right. assumption.
Qed.

Lemma selected_iff : forall t base qmin qmax i p, zlen (tdVerts (tD t)) <= 65536 -> vec_nonnan qmin -> vec_nonnan qmax ->
  get (tdPolys (tD t)) i = Ok p -> readable t p ->
  (selected t base qmin qmax i = true <->
   pass (Z.lor base i) t p = true /\ exists vs, poly_verts t p vs /\ touches_box vs qmin qmax).
Proof.
  intros t base qmin qmax i p Hl Q0 Q1 Gp (Hc & vs & Pv & Hn).
  destruct (poly_bounds_box t p vs Hl Hc Pv Hn) as (bmin & bmax & Eb & B).
  unfold selected. rewrite Gp, Eb, andb_true_iff, (overlap_touch vs bmin bmax qmin qmax Q0 Q1 B).
  split; intros [A C]; (split; [exact A|]).
  - exists vs. auto.
  - destruct C as (vs' & Pv' & T). rewrite (poly_verts_fun _ _ _ _ Pv Pv'). exact T.
Qed.

Lemma sorted_zseq : forall n, StronglySorted Z.lt (zseq n).
Proof.
  induction n as [|n IH]; [constructor|]. rewrite zseq_S.
  assert (K : forall l x, StronglySorted Z.lt l -> (forall y, In y l -> y < x) -> StronglySorted Z.lt (l ++ [x])).
  { induction l as [|a l IHl]; intros x Hs H; cbn [app]; [constructor; constructor|].
    inversion Hs; subst. constructor.
    - apply IHl; [assumption|]. intros. apply H. right. assumption.
    - apply Forall_app. split; [assumption|]. constructor; [apply H; left; reflexivity|constructor]. }
  apply K; [exact IH|]. intros y Hy. apply in_zseq in Hy. lia.
Qed.
Lemma sorted_filter_lt : forall f l, StronglySorted Z.lt l -> StronglySorted Z.lt (filter f l).
Proof.
  induction 1 as [|a l H IH F]; [constructor|]. cbn [filter]. destruct (f a); [|exact IH].
  constructor; [exact IH|]. rewrite Forall_forall in *. intros x Hx. apply filter_In in Hx as [Hx _]. auto.
Qed.

Lemma query_scan : forall m it t h qmin qmax,
  tile_of m it = Ok t -> tHeader t = Some h -> tdBv (tD t) = [] ->
  vec_nonnan qmin -> vec_nonnan qmax -> zlen (tdVerts (tD t)) <= 65536 ->
  (forall i, 0 <= i < hPolyCount h -> exists p, get (tdPolys (tD t)) i = Ok p /\ Type_ p <> polyTypeOffMeshConnection /\ readable t p) ->
  let base := encodePolyID (mBits m) (tSalt t) (Z.of_nat it) 0 in
  exists calls idxs,
    (forall S (process : Proc S) s, queryPolygonsInTile pass process m it qmin qmax s = run_calls process calls s) /\
    batched t calls /\
    concat (map call_refs calls) = map (Z.lor base) idxs /\
    StronglySorted Z.lt idxs /\
    (forall i, In i idxs <-> 0 <= i < hPolyCount h /\ exists p vs, get (tdPolys (tD t)) i = Ok p /\
       pass (Z.lor base i) t p = true /\ poly_verts t p vs /\ touches_box vs qmin qmax).
Proof.
  intros m it t h qmin qmax Ht Hh Ebv Q0 Q1 Hl Hp base.
  set (idxs := filter (selected t base qmin qmax) (zseq (Z.to_nat (hPolyCount h)))).
  destruct (finish_batches t (map (Z.lor base) idxs)) as (calls & H & Bc & Cc).
  exists calls, idxs. split; [|split; [exact Bc|split; [exact Cc|split]]].
  - intros S process s. rewrite <- H. unfold queryPolygonsInTile. rewrite Ht. cbn [bind].
    unfold hdr_of. rewrite Hh. cbn [bind of_option].
    unfold polyRefBase. rewrite Ht. cbn [bind]. fold base. rewrite Ebv.
    rewrite (scan_emit t base qmin qmax Hl); [reflexivity|].
    intros i Hi. apply in_zseq in Hi. apply Hp. lia.
  - apply sorted_filter_lt, sorted_zseq.
  - intros i. unfold idxs. rewrite filter_In, in_zseq. split.
    + intros [Hi Hs]. assert (Hi' : 0 <= i < hPolyCount h) by lia. split; [exact Hi'|].
      destruct (Hp i Hi') as (p & Gp & _ & Rp).
      apply (selected_iff t base qmin qmax i p Hl Q0 Q1 Gp Rp) in Hs as (Ps & vs & Pv & Tb).
      exists p, vs. auto.
    + intros (Hi & p & vs & Gp & Ps & Pv & Tb). split; [lia|].
      destruct (Hp i Hi) as (p' & Gp' & _ & Rp). rewrite Gp in Gp'. apply Ok_inj in Gp'. subst p'.
      apply (selected_iff t base qmin qmax i p Hl Q0 Q1 Gp Rp). split; [exact Ps|]. exists vs. auto.
Qed.
End Filter.

(** * The nearest polygon *)
Lemma nth_error_firstn_lt : forall {A} (l : list A) n k, (k < n)%nat -> nth_error (firstn n l) k = nth_error l k.
Proof.
  induction l as [|x l IH]; intros [|n] [|k] H; cbn; try lia; try reflexivity.
  apply IH. lia.
Qed.
Lemma near_process_fold : forall m center (dist : MeshTile -> Z -> f32 * fvec) t refs n s,
  0 <= n <= zlen refs ->
  (forall r, In r (firstn (Z.to_nat n) refs) -> near_dist m center t r = Ok (dist t r)) ->
  near_process m center s t refs n =
  Ok (fold_left (fun s r => near_step s r (fst (dist t r)) (snd (dist t r))) (firstn (Z.to_nat n) refs) s).
Proof.
  intros m center dist t refs n s Hn H. unfold near_process.
  assert (K : forall k, (k <= Z.to_nat n)%nat ->
     foldM (fun s i => let* ref := get refs i in let* (d, pt) := near_dist m center t ref in Ok (near_step s ref d pt)) (zseq k) s
     = Ok (fold_left (fun s r => near_step s r (fst (dist t r)) (snd (dist t r))) (firstn k refs) s)).
  { induction k as [|k IH]; intros Hk; [reflexivity|].
    rewrite zseq_S, foldM_app, IH by lia. cbn [bind foldM].
    destruct (nth_error_in_range refs k) as [r Er]; [unfold zlen in Hn; lia|].
    rewrite (firstn_snoc _ _ _ Er), fold_left_app. cbn [fold_left].
    assert (get refs (Z.of_nat k) = Ok r) as -> by (apply get_ok; rewrite Nat2Z.id; split; [lia|exact Er]).
    cbn [bind]. rewrite H.
    - destruct (dist t r). reflexivity.
    - apply nth_error_In with k. rewrite nth_error_firstn_lt by lia. exact Er. }
  apply K. lia.
Qed.

Definition nstep (dist : MeshTile -> Z -> f32 * fvec) (s : Nearest) (c : MeshTile * Z) : Nearest :=
  near_step s (snd c) (fst (dist (fst c) (snd c))) (snd (dist (fst c) (snd c))).

Definition logged (calls : list Call) : list (MeshTile * Z) :=
  flat_map (fun c : Call => map (fun r => (fst (fst c), r)) (call_refs c)) calls.

Lemma run_log : forall calls s, run_calls log_process calls s = Ok (s ++ logged calls).
Proof.
  induction calls as [|[[t refs] n] calls IH]; intros s; [now rewrite app_nil_r|].
  unfold run_calls. cbn [foldM]. cbn [log_process bind]. fold (run_calls log_process calls).
  unfold run_calls in IH. rewrite IH. cbn [logged flat_map fst call_refs]. now rewrite app_assoc.
Qed.

Lemma near_calls : forall m center dist calls s,
  Forall (fun '(t, refs, n) => 0 <= n <= zlen refs) calls ->
  (forall t r, In (t, r) (logged calls) -> near_dist m center t r = Ok (dist t r)) ->
  run_calls (near_process m center) calls s = Ok (fold_left (nstep dist) (logged calls) s).
Proof.
  intros m center dist. induction calls as [|[[t refs] n] calls IH]; intros s F H; [reflexivity|].
  inversion F as [|? ? Hn F']; subst.
  unfold run_calls. cbn [foldM]. rewrite (near_process_fold m center dist).
  - cbn [bind]. unfold run_calls in IH. rewrite IH; [|exact F'|].
    + cbn [logged flat_map fst call_refs]. rewrite fold_left_app. do 2 f_equal.
      generalize (firstn (Z.to_nat n) refs) as l. clear. intros l. revert s.
      induction l as [|r l IHl]; intros s; [reflexivity|]. cbn [fold_left map]. apply IHl.
    + intros t' r I. apply H. cbn [logged flat_map]. apply in_or_app. right. exact I.
  - exact Hn.
  - intros r I. apply H. cbn [logged flat_map fst call_refs]. apply in_or_app. left. apply in_map_iff. eauto.
Qed.

Lemma nstep_min : forall dist cands done s,
  (s = newNearest /\ (forall t r, In (t, r) done -> flt (fst (dist t r)) maxFloat32 = false)) \/
  (exists t, In (t, nrRef s) done /\ nrDist s = fst (dist t (nrRef s)) /\ nrPoint s = snd (dist t (nrRef s)) /\
     flt (nrDist s) maxFloat32 = true /\ (forall t' r', In (t', r') done -> flt (fst (dist t' r')) (nrDist s) = false)) ->
  let s := fold_left (nstep dist) cands s in
  (s = newNearest /\ (forall t r, In (t, r) (done ++ cands) -> flt (fst (dist t r)) maxFloat32 = false)) \/
  (exists t, In (t, nrRef s) (done ++ cands) /\ nrDist s = fst (dist t (nrRef s)) /\ nrPoint s = snd (dist t (nrRef s)) /\
     flt (nrDist s) maxFloat32 = true /\ (forall t' r', In (t', r') (done ++ cands) -> flt (fst (dist t' r')) (nrDist s) = false)).
Proof.
  intros dist. induction cands as [|[t r] cands IH]; intros done s H.
  - cbv zeta. cbn [fold_left]. rewrite app_nil_r. exact H.
  - cbn [fold_left]. change (done ++ (t, r) :: cands) with (done ++ [(t, r)] ++ cands). rewrite app_assoc. apply IH.
    unfold nstep, near_step. cbn [fst snd].
    destruct H as [[-> H]|(t0 & I & D & P & L & H)].
    + cbn [nrDist newNearest]. destruct (flt (fst (dist t r)) maxFloat32) eqn:F.
      * right. exists t. cbn [nrRef nrDist nrPoint].
        split; [apply in_or_app; right; left; reflexivity|]. split; [reflexivity|]. split; [reflexivity|]. split; [exact F|].
        intros t' r' I'. apply in_app_or in I' as [I'|[E|[]]].
        -- destruct (flt (fst (dist t' r')) (fst (dist t r))) eqn:G; [|reflexivity].
           rewrite <- (H t' r' I'). symmetry. exact (flt_trans _ _ _ G F).
        -- injection E as <- <-. apply flt_irrefl.
      * left. split; [reflexivity|]. intros t' r' I'. apply in_app_or in I' as [I'|[E|[]]]; [exact (H _ _ I')|].
        injection E as <- <-. exact F.
    + right. destruct (flt (fst (dist t r)) (nrDist s)) eqn:F.
      * exists t. cbn [nrRef nrDist nrPoint].
        split; [apply in_or_app; right; left; reflexivity|]. split; [reflexivity|]. split; [reflexivity|].
        split; [exact (flt_trans _ _ _ F L)|].
        intros t' r' I'. apply in_app_or in I' as [I'|[E|[]]].
        -- destruct (flt (fst (dist t' r')) (fst (dist t r))) eqn:G; [|reflexivity].
           rewrite <- (H t' r' I'). symmetry. exact (flt_trans _ _ _ G F).
        -- injection E as <- <-. apply flt_irrefl.
      * exists t0. split; [apply in_or_app; left; exact I|]. split; [exact D|]. split; [exact P|]. split; [exact L|].
        intros t' r' I'. apply in_app_or in I' as [I'|[E|[]]]; [exact (H _ _ I')|].
        injection E as <- <-. exact F.
Qed.
