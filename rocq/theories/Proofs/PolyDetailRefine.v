(** Samples inside a polygon, and the detail mesh. *)
From Coq Require Import ZArith List Bool Lia.
From Verif.Base Require Import Res GoNum F32 Num Grid.
From Verif.Model Require Import Geom SegDist Raster HeightSearch Hull Delaunay PolyDetail.
From Verif.Spec Require Import AreaSpec HullSpec PolyDetailSpec.
From Verif.Spec Require DelaunaySpec.
From Verif.Proofs Require Import LinkProofs DelaunayRows PolyDetailEdge.
From Verif.Properties Require Hull.
Import ListNotations.
Open Scope Z_scope.

Lemma fold_left_filter : forall {S A} (f : S -> A -> S) (p : A -> bool) l s,
  fold_left f (filter p l) s = fold_left (fun s a => if p a then f s a else s) l s.
Proof.
  intros S A f p l. induction l as [|a l IH]; intros s; cbn [filter fold_left]; [reflexivity|].
  destruct (p a); cbn [fold_left]; apply IH.
Qed.
Lemma fold_left_ext_in : forall {S A} (f g : S -> A -> S) l s, (forall s a, In a l -> f s a = g s a) -> fold_left f l s = fold_left g l s.
Proof.
  intros S A f g l. induction l as [|a l IH]; intros s E; cbn [fold_left]; [reflexivity|].
  rewrite (E s a (or_introl eq_refl)). apply IH. intros s' a' Hi. apply E. now right.
Qed.

(** ** Extent *)
Lemma extent_ok : forall verts n, 0 < n <= 126 -> 3 * n <= zlen verts -> polyMinExtent verts n = Ok (min_extent verts n).
Proof.
  intros verts n Hn Hl. unfold polyMinExtent, min_extent.
  rewrite (foldM_pure _ (fun m i => lower m (fold_left higher (map (fun j => distancePtSeg2d numF (pos verts j) (pos verts i) (pos verts ((i + 1) mod n)))
      (filter (fun j => negb ((j =? i) || (j =? (i + 1) mod n))) (zseq (Z.to_nat n)))) f0))).
  - cbn [bind]. rewrite fold_left_map. reflexivity.
  - intros m i Hi. apply in_zseq in Hi. unfold edgeExtent. cbv zeta.
    pose proof (Z.mod_pos_bound (i + 1) n ltac:(lia)).
    rewrite (vert_pos verts i), (vert_pos verts ((i + 1) mod n)) by lia. cbn [bind].
    rewrite (foldM_pure _ (fun m j => if negb ((j =? i) || (j =? (i + 1) mod n)) then
       higher m (distancePtSeg2d numF (pos verts j) (pos verts i) (pos verts ((i + 1) mod n))) else m)).
    + cbn [bind]. rewrite fold_left_map, fold_left_filter. reflexivity.
    + intros s j Hj. apply in_zseq in Hj. destruct ((j =? i) || (j =? (i + 1) mod n)); cbn [negb]; [reflexivity|].
      rewrite vert_pos by lia. reflexivity.
Qed.
Lemma extent_ext : forall verts inp n, 0 < n -> (forall v, 0 <= v < n -> pos verts v = pos inp v) -> min_extent verts n = min_extent inp n.
Proof.
  intros verts inp n Hn E. unfold min_extent. f_equal. f_equal. apply map_ext_in. intros i Hi. apply in_zseq in Hi. f_equal.
  apply map_ext_in. intros j Hj. apply filter_In in Hj as [Hj _]. apply in_zseq in Hj.
  pose proof (Z.mod_pos_bound (i + 1) n ltac:(lia)). rewrite !E by lia. reflexivity.
Qed.

(** ** Samples *)
Lemma polyDist_ok : forall inp n p, 0 < n <= 126 -> 3 * n <= zlen inp -> distToPoly inp n p = Ok (poly_dist inp n p).
Proof.
  intros inp n p Hn Hl. unfold distToPoly, poly_dist. cbv zeta. rewrite <- sides_eq by lia.
  rewrite (foldM_pure _ (fun st ji => (xorb (fst st) (crossing p (pos inp (fst ji)) (pos inp (snd ji))),
    lower (snd st) (distancePtSeg2d numF p (pos inp (fst ji)) (pos inp (snd ji)))))).
  - cbn [bind].
    assert (G : forall l c d, fold_left (fun (st : bool * f32) ji => (xorb (fst st) (crossing p (pos inp (fst ji)) (pos inp (snd ji))),
      lower (snd st) (distancePtSeg2d numF p (pos inp (fst ji)) (pos inp (snd ji))))) l (c, d) =
      (xorb c (Nat.odd (length (filter (fun s => crossing p (pos inp (fst s)) (pos inp (snd s))) l))),
       fold_left lower (map (fun s => distancePtSeg2d numF p (pos inp (fst s)) (pos inp (snd s))) l) d)).
    { induction l as [|s l IH]; intros c d; cbn [fold_left filter map].
      - cbn. now rewrite xorb_false_r.
      - rewrite IH. cbn [fst snd]. f_equal. destruct (crossing p (pos inp (fst s)) (pos inp (snd s))); cbn [length]; [|now rewrite xorb_false_r].
        rewrite Nat.odd_succ, <- Nat.negb_odd. destruct c, (Nat.odd _); reflexivity. }
    rewrite G. cbn [bind]. rewrite xorb_false_l. reflexivity.
  - intros [c d] [j i] Hi. apply in_sides in Hi as [Hj Hi]. cbn [fst snd].
    rewrite (vert_pos inp j), (vert_pos inp i) by lia. cbn [bind]. f_equal. f_equal.
    fold (crossing p (pos inp j) (pos inp i)). destruct (crossing p (pos inp j) (pos inp i)), c; reflexivity.
Qed.
Lemma bounds_ok : forall inp n, 0 < n <= 126 -> 3 * n <= zlen inp -> polyBounds inp n = Ok (low_corner inp n, high_corner inp n).
Proof.
  intros inp n Hn Hl. unfold polyBounds. rewrite vert_pos by lia. cbn [bind].
  rewrite (foldM_pure _ (fun mM i => (vmin (fst mM) (pos inp (i + 1)), vmax (snd mM) (pos inp (i + 1))))).
  - f_equal. unfold low_corner, high_corner. rewrite !fold_left_map.
    assert (G : forall l a b, fold_left (fun mM i => (vmin (fst mM) (pos inp (i + 1)), vmax (snd mM) (pos inp (i + 1)))) l (a, b) =
      (fold_left (fun s i => vmin s (pos inp (i + 1))) l a, fold_left (fun s i => vmax s (pos inp (i + 1))) l b)).
    { induction l as [|i l IH]; intros a b; cbn [fold_left]; [reflexivity|]. apply IH. }
    apply G.
  - intros [a b] i Hi. apply in_zseq in Hi. rewrite vert_pos by lia. reflexivity.
Qed.
Lemma grid_ok : forall H inp n sd, heights_ok H -> 0 < n <= 126 -> 3 * n <= zlen inp ->
  exists S, gridSamples H inp n sd = Ok S /\ sampled H inp n sd S.
Proof.
  intros H inp n sd HH Hn Hl. unfold gridSamples, sampled. rewrite bounds_ok by lia. cbn [bind]. cbv zeta.
  match goal with |- context [foldM ?f ?l ?s] =>
    destruct (foldM_inv f (fun pre S => map (fun '(x, _, z) => (z, x)) S =
      filter (fun '(z, x) => negb (fgt (poly_dist inp n (grid_point inp n sd z x)) (fdiv (fopp sd) (f_of_Z 2)))) pre /\
      Forall (fun '(x, h, z) => height_of H (grid_point inp n sd z x) h) S) l s) as (S & E & K1 & K2) end.
  - split; [reflexivity|constructor].
  - intros pre [z x] post S _ [K1 K2].
    change (fmul (f_of_Z x) sd, fmul (fadd (vy (high_corner inp n)) (vy (low_corner inp n))) (f_ratio 1 2), fmul (f_of_Z z) sd) with (grid_point inp n sd z x).
    rewrite polyDist_ok by lia. cbn [bind]. rewrite filter_app. cbn [filter].
    destruct (fgt (poly_dist inp n (grid_point inp n sd z x)) (fdiv (fopp sd) (f_of_Z 2))) eqn:G; cbn [negb].
    + exists S. rewrite app_nil_r. now repeat split.
    + destruct (heightAt_ok H (grid_point inp n sd z x) HH) as (h & -> & Hh). cbn [bind]. eexists. split; [reflexivity|].
      rewrite map_app, K1. split; [reflexivity|]. apply Forall_app. split; [exact K2|]. constructor; [exact Hh|constructor].
  - exists S. split; [exact E|]. split; [exact K1|exact K2].
Qed.

(** ** The worst sample *)
Definition tri_ok (n : Z) (ts : list (Z * Z * Z)) : Prop := forall a b c, In (a, b, c) ts -> 0 <= a < n /\ 0 <= b < n /\ 0 <= c < n.
Lemma meshDist_ok : forall verts n ts p, n <= 127 -> 381 <= zlen verts -> tri_ok n ts -> distToTriMesh p verts ts = Ok (mesh_dist verts ts p).
Proof.
  intros verts n ts p Hn Hl T. unfold distToTriMesh, mesh_dist. cbv zeta.
  rewrite (foldM_pure _ (fun m t => lower m (let '(a, b, c) := t in
    match distPtTri numF p (pos verts a) (pos verts b) (pos verts c) with Some d => d | None => maxFloat32 end))).
  - cbn [bind]. rewrite fold_left_map. reflexivity.
  - intros m [[a b] c] Hi. apply T in Hi as (Ha & Hb & Hc). rewrite !vert_pos by lia. reflexivity.
Qed.
Lemma moved_eq : forall H sd i s, samplePoint H sd i s = moved H sd i s.
Proof.
  intros H sd i [[x h] z]. unfold samplePoint, moved, jitterX, jitterY, jitter, jit.
  change 65535 with (Z.ones 16) at 1 3. rewrite !Z.land_ones by lia. reflexivity.
Qed.

Section S.
Variables (H : Heights) (sd err : f32) (S : list (Z * Z * Z)).
Definition flagged (L : list (Z * Z * Z * bool)) (A : list Z) : Prop :=
  map fst L = S /\ forall i s b, 0 <= i -> nth_error L (Z.to_nat i) = Some (s, b) -> (b = true <-> In i A).

Lemma best_ok : forall verts n ts L A, n <= 127 -> 381 <= zlen verts -> tri_ok n ts -> flagged L A ->
  exists bi bd bp, bestSample H sd verts ts L = Ok (bi, bd, bp) /\
    (bi = -1 /\ (forall i d, ~ In i A -> has_error H sd S verts ts i d -> fgt d f0 = false) \/
     (exists s, nth_error S (Z.to_nat bi) = Some s /\ 0 <= bi /\ ~ In bi A /\ bp = moved H sd bi s) /\
     bd = mesh_dist verts ts bp /\ fgt bd f0 = true /\
     forall i d, ~ In i A -> has_error H sd S verts ts i d -> fgt d bd = false).
Proof.
  intros verts n ts L A Hn Hl T (EL & FL). unfold bestSample.
  match goal with |- context [foldM ?f ?l0 ?s0] =>
    destruct (foldM_inv f (fun pre st => 
      fst (fst st) = -1 /\ snd (fst st) = f0 /\ (forall i d, i < zlen pre -> ~ In i A -> has_error H sd S verts ts i d -> fgt d f0 = false) \/
      (exists s, nth_error S (Z.to_nat (fst (fst st))) = Some s /\ 0 <= fst (fst st) /\ ~ In (fst (fst st)) A /\ snd st = moved H sd (fst (fst st)) s) /\
      snd (fst st) = mesh_dist verts ts (snd st) /\ fgt (snd (fst st)) f0 = true /\
      forall i d, i < zlen pre -> ~ In i A -> has_error H sd S verts ts i d -> fgt d (snd (fst st)) = false) l0 s0) as ([[bi bd] bp] & E & K) end.
  - left. cbn [fst snd]. do 2 (split; [reflexivity|]). intros i d Q _ (s & _ & P & _). unfold zlen in Q. cbn in Q. lia.
  - intros pre i post [[bi bd] bp] Es K. apply zseq_split in Es as [-> Hp]. cbn [fst snd] in K.
    destruct (get_in_range L (zlen pre)) as [[s b] Eg]; [unfold zlen; lia|]. rewrite Eg. cbn [bind].
    apply get_ok in Eg as [H0 Eg].
    assert (Es : nth_error S (Z.to_nat (zlen pre)) = Some s) by (rewrite <- EL, nth_error_map, Eg; reflexivity).
    specialize (FL _ _ _ H0 Eg).
    (* the invariant goes over when this sample has no larger error *)
    assert (Stay : (forall d, ~ In (zlen pre) A -> has_error H sd S verts ts (zlen pre) d -> fgt d bd = false) ->
      exists s', @Ok (Z * f32 * vec f32) (bi, bd, bp) = Ok s' /\
      (fst (fst s') = -1 /\ snd (fst s') = f0 /\ (forall i d, i < zlen (pre ++ [zlen pre]) -> ~ In i A -> has_error H sd S verts ts i d -> fgt d f0 = false) \/
      (exists s, nth_error S (Z.to_nat (fst (fst s'))) = Some s /\ 0 <= fst (fst s') /\ ~ In (fst (fst s')) A /\ snd s' = moved H sd (fst (fst s')) s) /\
      snd (fst s') = mesh_dist verts ts (snd s') /\ fgt (snd (fst s')) f0 = true /\
      forall i d, i < zlen (pre ++ [zlen pre]) -> ~ In i A -> has_error H sd S verts ts i d -> fgt d (snd (fst s')) = false)).
    { intros St. eexists. split; [reflexivity|]. cbn [fst snd]. rewrite zlen_snoc. destruct K as [(A1 & A2 & K)|(A1 & A2 & A3 & K)]; [left|right].
      - do 2 (split; [assumption|]). intros i d Hi. destruct (Z.eq_dec i (zlen pre)) as [->|]; [rewrite <- A2; apply St|apply K; lia].
      - do 3 (split; [assumption|]). intros i d Hi. destruct (Z.eq_dec i (zlen pre)) as [->|]; [apply St|apply K; lia]. }
    destruct b.
    + apply Stay. intros d N _. exfalso. apply N. now apply FL.
    + rewrite moved_eq, (meshDist_ok verts n ts) by assumption. cbn [bind].
      set (p := moved H sd (zlen pre) s) in *.
      assert (U : forall d, has_error H sd S verts ts (zlen pre) d -> d = mesh_dist verts ts p /\ flt d f0 = false).
      { intros d (s' & E' & _ & Ed & F). rewrite Es in E'. assert (s' = s) by congruence. subst s'. split; assumption. }
      destruct (flt (mesh_dist verts ts p) f0) eqn:G.
      * apply Stay. intros d _ He. apply U in He as [-> F]. congruence.
      * destruct (fgt (mesh_dist verts ts p) bd) eqn:G2.
        2:{ apply Stay. intros d _ He. apply U in He as [-> F]. exact G2. }
        eexists. split; [reflexivity|]. right. cbn [fst snd]. split.
        { exists s. do 2 (split; [assumption|]). split; [|reflexivity]. intros Hi. apply FL in Hi. discriminate. }
        split; [reflexivity|]. split.
        { destruct K as [(_ & -> & _)|(_ & _ & G0 & _)]; [exact G2|]. eapply fgt_trans; eassumption. }
        intros i d Hi N He. rewrite zlen_snoc in Hi. destruct (Z.eq_dec i (zlen pre)) as [->|Hne].
        { apply U in He as [-> _]. apply fgt_irrefl. }
        assert (Q : fgt d bd = false) by (destruct K as [(_ & -> & K)|(_ & _ & _ & K)]; eapply K; eauto; lia).
        apply (fgt_max _ bd); [now apply fgt_nonnan in G2|exact Q|].
        destruct (fgt bd (mesh_dist verts ts p)) eqn:Q2; [|reflexivity]. exfalso.
        pose proof (fgt_trans _ _ _ G2 Q2) as Q3. rewrite fgt_irrefl in Q3. discriminate.
  - exists bi, bd, bp. split; [exact E|]. cbn [fst snd] in K.
    assert (J : forall i d, has_error H sd S verts ts i d -> i < zlen (zseq (length L))).
    { intros i d (s & Es & H0 & _). assert (Z.to_nat i < length S)%nat by (apply nth_error_Some; congruence).
      unfold zlen. rewrite zseq_length. rewrite <- EL, map_length in H1. lia. }
    destruct K as [(A1 & A2 & K)|(A1 & A2 & A3 & K)]; [left|right].
    + split; [exact A1|]. intros i d N He. eapply K; eauto.
    + do 3 (split; [assumption|]). intros i d N He. eapply K; eauto.
Qed.

(** ** Adding samples *)
Variables (hull : list Z) (verts0 : list f32) (m : Z) (ts0 : list (Z * Z * Z)).
Hypothesis (Hm : 3 <= zlen hull <= 126) (Nh : NoDup hull) (Rh : forall v, In v hull -> 0 <= v < m) (V0 : 381 <= zlen verts0).
Notation gr := (grown H sd err S hull verts0 m ts0).

Lemma hullArr_first : firstn (Z.to_nat (zlen hull)) (hullArr hull) = hull /\ zlen hull <= zlen (hullArr hull).
Proof.
  unfold hullArr, zlen. rewrite Nat2Z.id, app_length. split; [|lia]. rewrite firstn_app, Nat.sub_diag, firstn_all. cbn [firstn]. apply app_nil_r.
Qed.
Lemma rows_ok : forall n verts rows E, m <= n <= 127 -> 3 * n <= zlen verts -> delaunayHull n verts (zlen hull) (hullArr hull) = Ok (rows, E) ->
  tri_ok n (map (fun '(a, b, c, _) => (a, b, c)) rows).
Proof.
  intros n verts rows E Hn Hl Ed. destruct hullArr_first as [Hf Hz].
  assert (0 < n). { destruct hull as [|v h]; [unfold zlen in Hm; cbn in Hm; lia|]. specialize (Rh v (or_introl eq_refl)). lia. }
  destruct (delaunay_ok n verts (zlen hull) (hullArr hull) ltac:(lia) Hl ltac:(lia)) as (E0 & ts & T & K).
  { rewrite Hf. exact Nh. } { rewrite Hf. intros v Hv. apply Rh in Hv. lia. }
  destruct K as [(_ & rows0 & Er & F2)|(_ & Er)]; [|rewrite Er in Ed; discriminate].
  rewrite Er in Ed. apply Ok_inj in Ed. assert (rows0 = rows) by congruence. subst rows0.
  intros a b c Hi. apply in_map_iff in Hi as (row & Eq & Hi).
  assert (K : exists t, In t ts /\ exists x y z, row = (x, y, z, -1) /\ cyc (y, x, z) t).
  { clear -F2 Hi. induction F2 as [|t r ts rows P F IH]; [easy|]. destruct Hi as [->|Hi]; [exists t; split; [now left|exact P]|].
    destruct (IH Hi) as (t' & It & P'). exists t'. split; [now right|exact P']. }
  destruct K as (t & It & x & y & z & -> & C).
  assert (a = x /\ b = y /\ c = z) as (-> & -> & ->) by (split; [|split]; congruence).
  destruct C as [-> | [-> | ->]]; apply (DelaunaySpec.t_faces _ _ _ _ _ _ _ T) in It; tauto.
Qed.
Lemma delaunay_total : forall n verts, m <= n <= 127 -> 3 * n <= zlen verts ->
  (exists rows E, delaunayHull n verts (zlen hull) (hullArr hull) = Ok (rows, E)) \/ delaunayHull n verts (zlen hull) (hullArr hull) = Panic.
Proof.
  intros n verts Hn Hl. destruct hullArr_first as [Hf Hz].
  assert (0 < n). { destruct hull as [|v h]; [unfold zlen in Hm; cbn in Hm; lia|]. specialize (Rh v (or_introl eq_refl)). lia. }
  destruct (delaunay_ok n verts (zlen hull) (hullArr hull) ltac:(lia) Hl ltac:(lia)) as (E0 & ts & T & K).
  { rewrite Hf. exact Nh. } { rewrite Hf. intros v Hv. apply Rh in Hv. lia. }
  destruct K as [(_ & rows0 & Er & F2)|(_ & Er)]; [left; eauto|right; exact Er].
Qed.

Lemma refine_ok : forall k verts n ts L A, gr verts n ts A -> m <= n <= 127 -> flagged L A -> NoDup A ->
  (forall i, In i A -> 0 <= i < zlen S) -> (length S <= length A + k)%nat -> tri_ok n ts -> zlen verts = zlen verts0 ->
  (exists verts' n' ts' A' L', refine k H sd err hull verts n ts L = Ok (verts', n', ts', L') /\
     gr verts' n' ts' A' /\ finished H sd err S verts' n' ts' A' /\ tri_ok n' ts' /\ n <= n' <= 127 /\ zlen verts' = zlen verts0) \/
  (refine k H sd err hull verts n ts L = Panic /\
   exists verts' n' ts' A' i p verts'', gr verts' n' ts' A' /\ n' < 127 /\ worst H sd err S verts' ts' A' i p /\
     extended verts' verts'' n' p /\
     delaunayHull (n' + 1) verts'' (zlen hull) (hull ++ repeat 0 (127 - length hull)) = Panic).
Proof.
  induction k as [|k IH]; intros verts n ts L A G Hn F N R Hk T Hz; cbn [refine].
  - left. exists verts, n, ts, A, L. split; [reflexivity|]. split; [exact G|]. split; [|split; [exact T|split; [lia|exact Hz]]].
    right. intros i d Ni (s & Es & H0 & _). exfalso. apply Ni.
    assert (Hi : (Z.to_nat i < length S)%nat) by (apply nth_error_Some; congruence).
    apply (NoDup_length_incl (l' := zseq (length S)) N).
    + rewrite zseq_length. lia.
    + intros v Hv. apply in_zseq. apply R in Hv. exact Hv.
    + apply in_zseq. lia.
  - destruct (Z.geb_spec n MAX_VERTS) as [Q|Q].
    { left. exists verts, n, ts, A, L. split; [reflexivity|]. split; [exact G|]. split; [left; unfold MAX_VERTS in Q; lia|]. split; [exact T|]. split; [lia|exact Hz]. }
    unfold MAX_VERTS in Q. destruct (best_ok verts n ts L A ltac:(lia) ltac:(lia) T F) as (bi & bd & bp & -> & K). cbn [bind].
    destruct (fle bd err || (bi =? -1)) eqn:C.
    { left. exists verts, n, ts, A, L. split; [reflexivity|]. split; [exact G|]. split; [right|split; [exact T|split; [lia|exact Hz]]].
      intros i d Ni He. apply andb_false_iff. destruct K as [(_ & K)|((s & _ & Hb & _) & _ & G0 & K)]; [left; eapply K; eauto|].
      right. apply orb_true_iff in C as [C|C]; [|apply Z.eqb_eq in C; lia].
      apply (fgt_max _ bd); [now apply fgt_nonnan in G0|eapply K; eauto|].
      unfold fgt. fold (flt err bd). pose proof (fle_nonnan _ _ C) as [N1 N2]. rewrite (flt_not_fle _ _ N2 N1), C. reflexivity. }
    apply orb_false_iff in C as [C1 C2]. apply Z.eqb_neq in C2.
    destruct K as [(K & _)|((s & Es & Hb & Nb & Ep) & Ed & G0 & K)]; [contradiction|].
    assert (W : worst H sd err S verts ts A bi bp).
    { exists s, bd. do 7 (split; [assumption|]). exact K. }
    destruct F as (EL & FL).
    assert (Eg : exists b, nth_error L (Z.to_nat bi) = Some (s, b)).
    { rewrite <- EL, nth_error_map in Es. destruct (nth_error L (Z.to_nat bi)) as [[s' b]|]; [|discriminate]. cbn in Es. exists b. congruence. }
    destruct Eg as (b & Eg). pose proof (proj2 (get_ok L bi (s, b)) (conj Hb Eg)) as Eg'. rewrite Eg'. cbn [bind].
    pose proof (get_range _ _ _ Eg') as Hr. rewrite set_in_range by exact Hr. cbn [bind].
    assert (m >= 0). { destruct hull as [|v h]; [unfold zlen in Hm; cbn in Hm; lia|]. specialize (Rh v (or_introl eq_refl)). lia. }
    destruct (put_ok verts n bp ltac:(lia) ltac:(lia)) as (verts' & -> & X). cbn [bind]. pose proof X as [Lx _].
    destruct (delaunay_total (n + 1) verts' ltac:(lia) ltac:(lia)) as [(rows & E & Er)|Er]; rewrite Er; cbn [bind].
    2:{ right. split; [reflexivity|]. exists verts, n, ts, A, bi, bp, verts'. do 4 (split; [assumption|]). exact Er. }
    pose proof (rows_ok (n + 1) verts' rows E ltac:(lia) ltac:(lia) Er) as T'.
    destruct (IH verts' (n + 1) (map (fun '(a, b, c, _) => (a, b, c)) rows) (upd L (Z.to_nat bi) (s, true)) (A ++ [bi])) as [D|D]; auto; try lia.
    + eapply grown_add; eauto.
    + split.
      * rewrite <- EL. clear -Eg. revert Eg. generalize (Z.to_nat bi). induction L as [|x L IH]; intros [|q] Eg; cbn in *; try discriminate.
        -- assert (x = (s, b)) by congruence. subst x. reflexivity.
        -- f_equal. now apply IH.
      * intros i s' b' Hi Ei. rewrite in_app_iff. destruct (Z.eq_dec i bi) as [->|Hne].
        -- rewrite nth_error_upd_eq in Ei by (unfold zlen in Hr; lia).
           assert (b' = true) by congruence. subst b'. split; [intros _; right; now left|reflexivity].
        -- rewrite nth_error_upd_neq in Ei by lia. rewrite (FL _ _ _ Hi Ei). split; [tauto|]. intros [Hi'|[Hi'|[]]]; [assumption|congruence].
    + clear -N Nb. apply NoDup_Add with (a := bi) (l := A); [|split; assumption]. rewrite <- (app_nil_r A) at 1. apply Add_app.
    + intros i Hi. apply in_app_or in Hi as [Hi|[<-|[]]]; [now apply R|]. rewrite <- EL. unfold zlen in *. rewrite map_length. lia.
    + rewrite app_length. cbn. lia.
    + left. destruct D as (v2 & n2 & t2 & A2 & L2 & D1 & D2 & D3 & D4 & D5 & D6). exists v2, n2, t2, A2, L2. split; [exact D1|]. do 3 (split; [assumption|]). split; [lia|assumption].
Qed.
End S.
