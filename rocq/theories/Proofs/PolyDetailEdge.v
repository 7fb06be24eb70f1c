(** The outline of a polygon in the detail mesh. *)
From Coq Require Import ZArith List Bool Lia.
From Verif.Base Require Import Res GoNum F32 Num Grid.
From Verif.Model Require Import Geom SegDist Raster HeightSearch Hull Delaunay PolyDetail.
From Verif.Spec Require Import PolyDetailSpec.
From Verif.Proofs Require Import LinkProofs.
From Verif.Properties Require HeightSearch.
Import ListNotations.
Open Scope Z_scope.

(** ** Buffers *)
Lemma foldM_pure : forall {S A} (f : S -> A -> res S) (g : S -> A -> S) l s,
  (forall s a, In a l -> f s a = Ok (g s a)) -> foldM f l s = Ok (fold_left g l s).
Proof.
  intros S A f g l. induction l as [|a l IH]; intros s Hf; cbn [foldM fold_left]; [reflexivity|].
  rewrite (Hf s a (or_introl eq_refl)). cbn [bind]. apply IH. intros s' a' Hi. apply Hf. now right.
Qed.
Lemma fold_left_map : forall {S A B} (f : S -> B -> S) (g : A -> B) l s,
  fold_left f (map g l) s = fold_left (fun s a => f s (g a)) l s.
Proof. intros S A B f g l. induction l as [|a l IH]; intros s; cbn [map fold_left]; [reflexivity|apply IH]. Qed.

Lemma get_nth : forall {A} (l : list A) i d, 0 <= i < zlen l -> get l i = Ok (nth (Z.to_nat i) l d).
Proof.
  intros A l i d Hi. destruct (get_in_range l i Hi) as [a Ea]. rewrite Ea. apply get_ok in Ea as [_ Ea]. f_equal. symmetry. now apply nth_error_nth.
Qed.
Lemma vert_pos : forall verts i, 0 <= i < 600000000 -> 3 * i + 2 < zlen verts -> vert verts i = Ok (pos verts i).
Proof.
  intros verts i Hi Hl. unfold vert, pos.
  rewrite i32_id by (unfold is_i32; lia). replace (i * 3) with (3 * i) by lia. cbv zeta.
  rewrite (get_nth verts (3 * i) f0) by lia. cbn [bind]. rewrite (get_nth verts (3 * i + 1) f0) by lia. cbn [bind].
  rewrite (get_nth verts (3 * i + 2) f0) by lia. reflexivity.
Qed.
Lemma put_ok : forall verts i v, 0 <= i -> 3 * i + 2 < zlen verts ->
  exists verts', putVert verts i v = Ok verts' /\ extended verts verts' i v.
Proof.
  intros verts i [[x y] z] Hi Hl. unfold putVert.
  rewrite set_in_range by lia. cbn [bind]. rewrite set_in_range by (rewrite zlen_upd; lia). cbn [bind].
  rewrite set_in_range by (rewrite !zlen_upd; lia). eexists. split; [reflexivity|].
  split; [now rewrite !zlen_upd|]. intros v Hv. unfold pos.
  assert (L : (Z.to_nat (i * 3 + 2) < length verts)%nat) by (unfold zlen in Hl; lia).
  assert (N : forall (l : list f32) n m w, n <> m -> nth m (upd l n w) f0 = nth m l f0).
  { intros l n m w Hne. rewrite nth_upd. destruct (Nat.eqb_spec m n); [lia|reflexivity]. }
  assert (Y : forall (l : list f32) n m w, n = m -> (n < length l)%nat -> nth m (upd l n w) f0 = w).
  { intros l n m w <- Hlt. rewrite nth_upd, Nat.eqb_refl. destruct (Nat.ltb_spec n (length l)); [reflexivity|lia]. }
  destruct (Z.eqb_spec v i) as [->|Hne].
  - rewrite (N _ (Z.to_nat (i * 3 + 2)) (Z.to_nat (3 * i))), (N _ (Z.to_nat (i * 3 + 1)) (Z.to_nat (3 * i))),
      (Y _ (Z.to_nat (i * 3)) (Z.to_nat (3 * i))) by lia.
    rewrite (N _ (Z.to_nat (i * 3 + 2)) (Z.to_nat (3 * i + 1))), (Y _ (Z.to_nat (i * 3 + 1)) (Z.to_nat (3 * i + 1))) by (rewrite ?upd_length; lia).
    rewrite (Y _ (Z.to_nat (i * 3 + 2)) (Z.to_nat (3 * i + 2))) by (rewrite ?upd_length; lia). reflexivity.
  - rewrite !N by lia. reflexivity.
Qed.

(** ** Simplification of a side *)
Lemma heightAt_ok : forall H p, heights_ok H -> exists h, heightAt H p = Ok h /\ height_of H p h.
Proof.
  intros H p (A & B & C & D & E). unfold heightAt, height_of.
  destruct (HeightSearch.C56_height (vx p) (vy p) (vz p) (fdiv f1 (hCs H)) (hCh H) (hRadius H) (hPatch H) A B C D E) as (h & Eh & _).
  exists h. split; exact Eh.
Qed.

Lemma samples_ok : forall H a b nn, heights_ok H -> 0 <= nn ->
  exists pts, edgeSamples H a b nn = Ok pts /\ zlen pts = nn + 1 /\
    forall k p, nth_error pts (Z.to_nat k) = Some p -> 0 <= k -> on_side H a b nn k p.
Proof.
  intros H a b nn HH Hn. unfold edgeSamples.
  match goal with |- context [foldM ?f ?l ?s] =>
    destruct (foldM_inv f (fun pre pts => length pts = length pre /\
      forall k p, nth_error pts (Z.to_nat k) = Some p -> 0 <= k -> on_side H a b nn k p) l s) as (pts & E & L & K) end.
  - split; [reflexivity|]. intros k p E. destruct (Z.to_nat k); discriminate.
  - intros pre k post pts Es (L & K). apply zseq_split in Es as [-> _]. unfold edgeSample. cbv zeta.
    edestruct (heightAt_ok H) as (h & Eh & Hh); [exact HH|]. rewrite Eh. cbn [bind].
    eexists. split; [reflexivity|]. split; [rewrite !app_length; cbn; lia|].
    intros k p Ek Hk. destruct (Nat.lt_ge_cases (Z.to_nat k) (length pts)) as [Hl|Hl].
    + rewrite nth_error_app1 in Ek by assumption. now apply K.
    + rewrite nth_error_app2 in Ek by assumption. destruct (Z.to_nat k - length pts)%nat as [|q] eqn:Q; [|destruct q; discriminate].
      apply (f_equal (fun o => match o with Some x => x | None => p end)) in Ek. cbn in Ek. subst p.
      replace k with (zlen pre) by (unfold zlen; lia). exists h. split; [exact Hh|reflexivity].
  - exists pts. split; [exact E|]. split; [|exact K]. unfold zlen. rewrite L, zseq_length. lia.
Qed.

Lemma fgt_max : forall d m e, nonnan m -> fgt d m = false -> fgt m e = false -> fgt d e = false.
Proof.
  intros d m e Nm H1 H2. unfold fgt in *. fold (flt m d) in H1. fold (flt e m) in H2. fold (flt e d).
  destruct (nan_dec d) as [->|Nd]; [apply flt_nan_r|]. destruct (nan_dec e) as [->|Ne]; [apply flt_nan_l|].
  destruct (flt e d) eqn:E; [|reflexivity]. exfalso.
  apply (not_flt_fle _ _ Nm Nd) in H1. apply (not_flt_fle _ _ Ne Nm) in H2.
  assert (X : fle d e = true) by (eapply fle_trans; eassumption).
  rewrite (flt_not_fle e d Ne Nd), X in E. discriminate.
Qed.
Lemma fgt_trans : forall a b c, fgt a b = true -> fgt b c = true -> fgt a c = true.
Proof. intros a b c H1 H2. unfold fgt in *. exact (flt_trans _ _ _ H2 H1). Qed.
Lemma fgt_nonnan : forall a b, fgt a b = true -> nonnan a /\ nonnan b.
Proof. intros a b G. unfold fgt in G. apply flt_nonnan in G. tauto. Qed.
Lemma fgt_irrefl : forall a, fgt a a = false.
Proof. intros a. apply flt_irrefl. Qed.

Section S.
Variables (pts : list (vec f32)) (err2 : f32).
Notation dev := (deviation pts).
Lemma dev_eq : forall a b m, dev a b m =
  distancePtSeg3Pt numF (nth (Z.to_nat m) pts (f0, f0, f0)) (nth (Z.to_nat a) pts (f0, f0, f0)) (nth (Z.to_nat b) pts (f0, f0, f0)).
Proof. intros a b m. unfold deviation. reflexivity. Qed.
Lemma furthest_ok : forall a b, 0 <= a -> b < zlen pts ->
  exists maxd maxi, furthest pts a b (nth (Z.to_nat a) pts (f0, f0, f0)) (nth (Z.to_nat b) pts (f0, f0, f0)) = Ok (maxd, maxi) /\
    (maxi = -1 /\ (forall m, a < m < b -> fgt (dev a b m) f0 = false) \/
     a < maxi < b /\ maxd = dev a b maxi /\ fgt maxd f0 = true /\ forall m, a < m < b -> fgt (dev a b m) maxd = false).
Proof.
  intros a b Ha Hb. unfold furthest.
  match goal with |- context [foldM ?f ?l ?s] =>
    destruct (foldM_inv f (fun pre st =>
      snd st = -1 /\ fst st = f0 /\ (forall m, In m pre -> fgt (dev a b m) f0 = false) \/
      a < snd st < b /\ fst st = dev a b (snd st) /\ fgt (fst st) f0 = true /\ forall m, In m pre -> fgt (dev a b m) (fst st) = false) l s) as ([d i] & E & K) end.
  - left. repeat split; try reflexivity. easy.
  - intros pre m post [d i] Es K.
    assert (Hm : a < m < b).
    { assert (I : In m (map (Z.add (a + 1)) (zseq (Z.to_nat (b - a - 1))))) by (rewrite Es; apply in_elt).
      apply in_map_iff in I as (t & <- & It). apply in_zseq in It. lia. }
    rewrite (get_nth pts m (f0, f0, f0)) by lia. cbn [bind fst snd].
    rewrite <- (dev_eq a b m). cbn [fst snd] in K.
    destruct (fgt (dev a b m) d) eqn:G.
    + eexists. split; [reflexivity|]. right. cbn [fst snd]. split; [exact Hm|]. split; [reflexivity|].
      split.
      * destruct K as [(_ & -> & _)|(_ & _ & G0 & _)]; [exact G|]. eapply fgt_trans; eassumption.
      * intros m' Hi. apply in_app_or in Hi as [Hi|[<-|[]]]; [|apply fgt_irrefl].
        assert (Q : fgt (dev a b m') d = false) by (destruct K as [(_ & -> & K)|(_ & _ & _ & K)]; now apply K).
        apply (fgt_max _ d); [now apply fgt_nonnan in G|exact Q|].
        destruct (fgt d (dev a b m)) eqn:Q2; [|reflexivity]. exfalso.
        pose proof (fgt_trans _ _ _ G Q2) as Q3. rewrite fgt_irrefl in Q3. discriminate.
    + eexists. split; [reflexivity|]. cbn [fst snd]. destruct K as [(A & B & K)|(A & B & C & K)]; [left|right].
      * do 2 (split; [assumption|]). intros m' Hi. apply in_app_or in Hi as [Hi|[<-|[]]]; [now apply K|]. rewrite <- B. exact G.
      * do 3 (split; [assumption|]). intros m' Hi. apply in_app_or in Hi as [Hi|[<-|[]]]; [now apply K|exact G].
  - exists d, i. split; [exact E|].
    assert (J : forall m, a < m < b -> In m (map (Z.add (a + 1)) (zseq (Z.to_nat (b - a - 1))))).
    { intros m Hm. apply in_map_iff. exists (m - a - 1). split; [lia|]. apply in_zseq. lia. }
    cbn [fst snd] in K. destruct K as [(A & B & K)|(A & B & C & K)]; [left|right].
    + split; [exact A|]. intros m Hm. exact (K m (J m Hm)).
    + do 3 (split; [assumption|]). intros m Hm. exact (K m (J m Hm)).
Qed.

Lemma splits_len : forall a b l, splits pts err2 a b l -> zlen l <= Z.max 0 (b - a - 1) /\ Forall (fun m => a < m < b) l.
Proof.
  induction 1 as [a b K|a b m l r Hm G1 G2 M S1 [L1 F1] S2 [L2 F2]].
  - split; [unfold zlen; cbn; lia|constructor].
  - split; [rewrite zlen_app, zlen_cons; lia|]. apply Forall_app. split; [|constructor; [lia|]].
    + eapply Forall_impl; [|exact F1]. cbn. lia.
    + eapply Forall_impl; [|exact F2]. cbn. lia.
Qed.
Lemma splits_step : forall err, err2 = fsqr err -> forall d a b, Z.to_nat (b - a) = d -> 0 <= a <= b -> b < zlen pts ->
  forall pre post, zlen pre + 2 + zlen post + Z.max 0 (b - a - 1) <= 32 ->
  exists l, splits pts err2 a b l /\
    forall fuel, simplify (2 * length l + 1 + fuel) pts err (pre ++ a :: b :: post) (zlen pre) =
      simplify fuel pts err (pre ++ a :: l ++ b :: post) (zlen pre + 1 + zlen l).
Proof.
  intros err He. induction d as [d IH] using lt_wf_ind. intros a b Hd Hab Hb pre post Hl.
  assert (Ga : forall x y : Z, get (pre ++ x :: y :: post) (zlen pre) = Ok x).
  { intros x y. apply get_ok. split; [apply zlen_nonneg|]. unfold zlen. rewrite Nat2Z.id, nth_error_app2, Nat.sub_diag by lia. reflexivity. }
  assert (Gb : forall x y : Z, get (pre ++ x :: y :: post) (zlen pre + 1) = Ok y).
  { intros x y. apply get_ok. split; [pose proof (zlen_nonneg pre); lia|]. unfold zlen. rewrite nth_error_app2 by lia.
    replace (Z.to_nat (Z.of_nat (length pre) + 1) - length pre)%nat with 1%nat by lia. reflexivity. }
  destruct (furthest_ok a b ltac:(lia) Hb) as (maxd & maxi & Ef & K).
  assert (Stp : forall f, simplify (S f) pts err (pre ++ a :: b :: post) (zlen pre) =
    if negb (maxi =? -1) && fgt maxd (fsqr err) then simplify f pts err (pre ++ a :: maxi :: b :: post) (zlen pre)
    else simplify f pts err (pre ++ a :: b :: post) (zlen pre + 1)).
  { intros f. cbn [simplify]. pose proof (zlen_nonneg pre). pose proof (zlen_nonneg post). destruct (Z.ltb_spec (zlen pre) (zlen (pre ++ a :: b :: post) - 1)) as [_|Q];
      [|rewrite zlen_app, !zlen_cons in Q; lia].
    rewrite Ga, Gb. cbn [bind]. rewrite (get_nth pts a (f0, f0, f0)), (get_nth pts b (f0, f0, f0)) by lia. cbn [bind].
    rewrite Ef. cbn [bind]. destruct (negb (maxi =? -1) && fgt maxd (fsqr err)) eqn:C; [|reflexivity].
    destruct (Z.leb_spec MAX_VERTS_PER_EDGE (zlen (pre ++ a :: b :: post))) as [Q|_].
    - exfalso. rewrite zlen_app, !zlen_cons in Q. unfold MAX_VERTS_PER_EDGE in Q.
      destruct K as [(-> & _)|(Hm & _)]; [discriminate|lia].
    - replace (Z.to_nat (zlen pre + 1)) with (length pre + 1)%nat by (unfold zlen; lia).
      rewrite firstn_app_2, skipn_app. rewrite skipn_all2 by lia.
      replace (length pre + 1 - length pre)%nat with 1%nat by lia. cbn [firstn skipn app]. rewrite <- app_assoc. reflexivity. }
  destruct (negb (maxi =? -1) && fgt maxd (fsqr err)) eqn:C.
  - apply andb_true_iff in C as [C1 C2]. destruct K as [(-> & _)|(Hm & -> & G0 & M)]; [discriminate|].
    destruct (IH (Z.to_nat (maxi - a)) ltac:(lia) a maxi eq_refl ltac:(lia) ltac:(lia) pre (b :: post)) as (l & Sl & El).
    { rewrite zlen_cons. lia. }
    pose proof (splits_len _ _ _ Sl) as [Ll _].
    destruct (IH (Z.to_nat (b - maxi)) ltac:(lia) maxi b eq_refl ltac:(lia) ltac:(lia) (pre ++ a :: l) post) as (r & Sr & Er).
    { rewrite zlen_app, zlen_cons. lia. }
    exists (l ++ maxi :: r). split.
    + apply splits_node; auto. now rewrite He.
    + intros fuel. replace (2 * length (l ++ maxi :: r) + 1 + fuel)%nat with (S (2 * length l + 1 + (2 * length r + 1 + fuel)))%nat
        by (rewrite app_length; cbn; lia).
      rewrite Stp, El. specialize (Er fuel). rewrite zlen_app, zlen_cons in Er. rewrite <- !app_assoc in Er. cbn [app] in Er.
      replace (zlen pre + 1 + zlen l) with (zlen pre + (1 + zlen l)) by lia. rewrite Er. rewrite <- !app_assoc. cbn [app].
      f_equal. rewrite !zlen_app, zlen_cons. lia.
  - exists []. split.
    + apply splits_leaf. intros m Hm. apply andb_false_iff. destruct K as [(_ & K)|(Hi & -> & G0 & M)].
      * left. now apply K.
      * right. apply andb_false_iff in C as [C|C]; [apply negb_false_iff, Z.eqb_eq in C; lia|].
        apply (fgt_max _ (dev a b maxi)); [now apply fgt_nonnan in G0|now apply M|now rewrite He].
    + intros fuel. cbn [length Nat.mul Nat.add]. rewrite Stp. cbn [app]. f_equal. unfold zlen. cbn. lia.
Qed.
Lemma simplify_ok : forall err nn, err2 = fsqr err -> 0 <= nn <= 31 -> zlen pts = nn + 1 ->
  exists inner, splits pts err2 0 nn inner /\ simplify (2 * length pts + 2) pts err [0; nn] 0 = Ok (0 :: inner ++ [nn]).
Proof.
  intros err nn He Hn Hl. destruct (splits_step err He (Z.to_nat (nn - 0)) 0 nn eq_refl ltac:(lia) ltac:(lia) [] []) as (l & Sl & El).
  { change (zlen (@nil Z)) with 0. lia. }
  exists l. split; [exact Sl|]. pose proof (splits_len _ _ _ Sl) as [Ll _]. cbn [app] in El.
  change (zlen (@nil Z)) with 0 in El.
  assert (Hf : exists f, (2 * length pts + 2 = 2 * length l + 1 + S f)%nat) by (exists (2 * length pts - 2 * length l)%nat; unfold zlen in *; lia).
  destruct Hf as (f & ->). rewrite El. cbn [simplify].
  destruct (Z.ltb_spec (0 + 1 + zlen l) (zlen (0 :: l ++ [nn]) - 1)) as [Q|_]; [|reflexivity].
  rewrite zlen_cons, zlen_app in Q. change (zlen [nn]) with 1 in Q. lia.
Qed.
End S.

(** ** Points of a side *)
Lemma getAll_ok : forall pts ks, Forall (fun k => 0 <= k < zlen pts) ks ->
  exists l, getAll pts ks = Ok l /\ Forall2 (fun k p => nth_error pts (Z.to_nat k) = Some p) ks l.
Proof.
  intros pts ks F. induction F as [|k ks Hk F (l & El & F2)]; cbn [getAll]; [exists []; split; [reflexivity|constructor]|].
  destruct (get_in_range pts k Hk) as [p Ep]. rewrite Ep, El. cbn [bind]. exists (p :: l). split; [reflexivity|].
  constructor; [now apply get_ok in Ep|exact F2].
Qed.
Lemma parts_ok : forall a b sd n, 0 <= n <= 126 -> 0 <= steps sd a b < 2147483647 ->
  edgeParts a b sd n = Z.min (1 + steps sd a b) (Z.min 31 (126 - n)).
Proof.
  intros a b sd n Hn Hs. unfold edgeParts. cbv zeta. fold (side_length a b). fold (steps sd a b).
  rewrite (i32_id (1 + _)) by (unfold is_i32; lia). unfold MAX_VERTS_PER_EDGE, MAX_VERTS.
  destruct (Z.geb_spec (1 + steps sd a b) 32); rewrite i32_id by (unfold is_i32; lia);
    match goal with |- context [?x >=? 127] => destruct (Z.geb_spec x 127) end; lia.
Qed.
Lemma edge_ok : forall H sd err n vj vi, heights_ok H -> 0 <= n <= 126 ->
  0 <= steps sd vj vi < 2147483647 -> 0 <= steps sd vi vj < 2147483647 ->
  exists l, edgePoints H sd err n vj vi = Ok l /\ side_points H sd err n vj vi l /\ zlen l <= 126 - n.
Proof.
  intros H sd err n vj vi HH Hn S1 S2. unfold edgePoints.
  assert (K : exists a b sw, sortEnds vj vi = (a, b, sw) /\ (a, b) = (if sw : bool then (vi, vj) else (vj, vi))).
  { unfold sortEnds. repeat match goal with |- context [if ?c then _ else _] => destruct c end; do 3 eexists; split; reflexivity. }
  destruct K as (a & b & sw & -> & Eab).
  assert (S3 : 0 <= steps sd a b < 2147483647) by (destruct sw; inversion Eab; assumption).
  rewrite (parts_ok _ _ _ _ Hn S3). set (nn := Z.min (1 + steps sd a b) (Z.min 31 (126 - n))).
  assert (Hnn : 0 <= nn <= 31) by lia. destruct (Z.ltb_spec nn 0) as [Q|_]; [lia|].
  destruct (samples_ok H a b nn HH ltac:(lia)) as (pts & -> & Lp & Kp). cbn [bind].
  destruct (simplify_ok pts (fmul err err) err nn eq_refl Hnn Lp) as (inner & Sp & ->). cbn [bind tl].
  rewrite removelast_last. destruct (splits_len _ _ _ _ _ Sp) as [Ll Fl].
  assert (Fr : Forall (fun k => 0 <= k < zlen pts) (if sw then rev inner else inner)).
  { assert (F : Forall (fun k => 0 <= k < zlen pts) inner) by (eapply Forall_impl; [|exact Fl]; cbn; lia).
    destruct sw; [apply Forall_rev|]; exact F. }
  destruct (getAll_ok pts _ Fr) as (l & El & F2). exists l. split; [exact El|]. split.
  - exists sw, a, b, nn, pts, inner. do 3 (split; [assumption || reflexivity|]). split; [exact Kp|]. split; [exact Sp|exact F2].
  - assert (length l = length inner) by (apply Forall2_len in F2; destruct sw; rewrite ?rev_length in F2; lia).
    unfold zlen in *. lia.
Qed.

(** ** The outline *)
Lemma rimmed_ext : forall H inp sd err verts verts' ss n h m, rimmed H inp sd err verts ss n h m ->
  0 <= n -> (forall v, 0 <= v < m -> pos verts' v = pos verts v) -> n <= m /\ rimmed H inp sd err verts' ss n h m.
Proof.
  intros H inp sd err verts verts' ss n h m R. induction R as [n|j i ss n l h m SP P R IH]; intros Hn He; [split; [lia|constructor]|].
  pose proof (zlen_nonneg l). destruct (IH ltac:(lia) He) as [L R']. split; [lia|]. constructor; [exact SP| |exact R'].
  intros t p Et. rewrite He; [now apply P|].
  assert (t < length l)%nat by (apply nth_error_Some; congruence). unfold zlen in *. lia.
Qed.
Lemma rimmed_hull : forall H inp sd err verts ss n h m, rimmed H inp sd err verts ss n h m ->
  n <= m /\ zlen h = zlen ss + (m - n) /\
  forall v, In v h <-> In v (map fst ss) \/ n <= v < m.
Proof.
  intros H inp sd err verts ss n h m R. induction R as [n|j i ss n l h m SP P R (L & Z & K)].
  - split; [lia|]. split; [cbn; lia|]. intros v. cbn. split; [tauto|intros [[]|]; lia].
  - pose proof (zlen_nonneg l). split; [lia|]. split.
    + rewrite !zlen_cons, zlen_app, Z. unfold zlen. rewrite map_length, zseq_length. lia.
    + intros v. cbn [In map fst]. rewrite in_app_iff, K, in_map_iff.
      split.
      * intros [->|[(t & <- & It)|[Hv|Hv]]]; [now left; left| |left; now right|right; lia].
        apply in_zseq in It. right. unfold zlen in *. lia.
      * intros [[->|Hv]|Hv]; [now left|right; right; now left|].
        right. destruct (Z_lt_ge_dec v (n + zlen l)); [left|right; right; lia].
        exists (v - n). split; [lia|]. apply in_zseq. unfold zlen in *. lia.
Qed.
Lemma rimmed_nodup : forall H inp sd err verts ss n h m, rimmed H inp sd err verts ss n h m ->
  NoDup (map fst ss) -> (forall v, In v (map fst ss) -> v < n) -> NoDup h.
Proof.
  intros H inp sd err verts ss n h m R. induction R as [n|j i ss n l h m SP P R IH]; intros N Hl; [constructor|].
  cbn [map fst] in N. inversion N as [|? ? Nj N']; subst. pose proof (zlen_nonneg l).
  assert (Hj : j < n) by (apply Hl; now left).
  destruct (rimmed_hull _ _ _ _ _ _ _ _ _ R) as (_ & _ & K).
  assert (N2 : NoDup h) by (apply IH; [exact N'|]; intros v Hv; assert (v < n) by (apply Hl; now right); lia).
  constructor.
  - intros Hi. apply in_app_or in Hi as [Hi|Hi].
    + apply in_map_iff in Hi as (t & Et & It). apply in_zseq in It. lia.
    + apply K in Hi as [Hi|Hi]; [contradiction|lia].
  - assert (D : forall q, NoDup q -> (forall v, In v q -> v < n \/ n + zlen l <= v) -> NoDup (map (Z.add n) (zseq (length l)) ++ q)).
    { intros q Nq Hq. assert (G : forall k : nat, (k <= length l)%nat -> NoDup (map (Z.add n) (zseq k) ++ q)).
      { intros k. revert q Nq Hq. induction k as [|k IHk]; intros q Nq Hq Hk; [exact Nq|].
        rewrite zseq_S, map_app, <- app_assoc. cbn [map app]. apply NoDup_Add with (a := n + Z.of_nat k) (l := map (Z.add n) (zseq k) ++ q).
        - apply Add_app.
        - split; [apply IHk; [exact Nq|exact Hq|lia]|]. intros Hi. apply in_app_or in Hi as [Hi|Hi].
          + apply in_map_iff in Hi as (t & Et & It). apply in_zseq in It. lia.
          + apply Hq in Hi. unfold zlen in *. lia. }
      apply G. lia. }
    apply D; [exact N2|]. intros v Hv. apply K in Hv as [Hv|Hv]; [|lia]. left. apply Hl. now right.
Qed.

Lemma addHull_ok : forall l verts n hull, 0 <= n -> n + zlen l <= 126 -> 381 <= zlen verts -> zlen hull <= n ->
  exists verts', foldM addHull l (verts, n, hull) = Ok (verts', n + zlen l, hull ++ map (Z.add n) (zseq (length l))) /\
    zlen verts' = zlen verts /\ (forall v, 0 <= v < n -> pos verts' v = pos verts v) /\
    forall t p, nth_error l t = Some p -> pos verts' (n + Z.of_nat t) = p.
Proof.
  induction l as [|p l IH]; intros verts n hull Hn Hl Hv Hh.
  - exists verts. cbn [foldM length zseq map]. rewrite app_nil_r. change (zlen (@nil (vec f32))) with 0. rewrite Z.add_0_r.
    repeat split; try reflexivity. intros [|t] p E; discriminate.
  - rewrite zlen_cons in Hl. pose proof (zlen_nonneg l). cbn [foldM]. unfold addHull at 1.
    destruct (put_ok verts n p Hn ltac:(lia)) as (v1 & -> & Lx & Px). cbn [bind].
    destruct (Z.leb_spec MAX_VERTS (zlen hull)) as [Q|_]; [unfold MAX_VERTS in Q; lia|]. cbn [bind].
    destruct (IH v1 (n + 1) (hull ++ [n]) ltac:(lia) ltac:(lia) ltac:(lia)) as (v2 & -> & L2 & P2 & N2).
    { rewrite zlen_app. change (zlen [n]) with 1. lia. }
    exists v2. split.
    + rewrite zlen_cons. replace (n + 1 + zlen l) with (n + (1 + zlen l)) by lia. f_equal. f_equal.
      rewrite <- app_assoc. f_equal. replace (length (p :: l)) with (1 + length l)%nat by reflexivity.
      rewrite zseq_app, map_app, map_map. change (zseq 1) with [0]. cbn [app map]. f_equal; [lia|]. apply map_ext. intros t. lia.
    + split; [lia|]. split.
      * intros v Hlt. rewrite P2 by lia. rewrite Px by lia. destruct (Z.eqb_spec v n); [lia|reflexivity].
      * intros [|t] q Eq.
        -- cbn in Eq. rewrite Z.add_0_r, P2 by lia. rewrite Px, Z.eqb_refl by lia.
           apply (f_equal (fun o => match o with Some x => x | None => p end)) in Eq. exact Eq.
        -- cbn [nth_error] in Eq. specialize (N2 t q Eq). rewrite <- N2. f_equal. lia.
Qed.

Lemma tess_ok : forall H inp nin sd err ss verts n hull, heights_ok H -> nin <= 126 -> 3 * nin <= zlen inp ->
  (forall j i, In (j, i) ss -> 0 <= j < nin /\ 0 <= i < nin /\
     0 <= steps sd (pos inp j) (pos inp i) < 2147483647 /\ 0 <= steps sd (pos inp i) (pos inp j) < 2147483647) ->
  nin <= n <= 126 -> 381 <= zlen verts -> zlen hull + zlen ss <= n -> 0 <= nin ->
  exists verts' h m, foldM (tessEdge H inp sd err) ss (verts, n, hull) = Ok (verts', m, hull ++ h) /\
    rimmed H inp sd err verts' ss n h m /\ n <= m <= 126 /\ zlen verts' = zlen verts /\
    (forall v, 0 <= v < n -> pos verts' v = pos verts v).
Proof.
  intros H inp nin sd err ss. induction ss as [|[j i] ss IH]; intros verts n hull HH Hni Hinp Hs Hn Hv Hh H0.
  - exists verts, [], n. cbn [foldM]. rewrite app_nil_r. split; [reflexivity|]. split; [constructor|]. split; [lia|]. split; [reflexivity|]. reflexivity.
  - rewrite zlen_cons in Hh. pose proof (zlen_nonneg ss). pose proof (zlen_nonneg hull).
    destruct (Hs j i (or_introl eq_refl)) as (Hj & Hi & S1 & S2).
    cbn [foldM]. unfold tessEdge at 1. cbn [fst snd].
    rewrite !vert_pos by lia. cbn [bind].
    destruct (edge_ok H sd err n (pos inp j) (pos inp i) HH ltac:(lia) S1 S2) as (l & -> & SP & Ll). cbn [bind].
    pose proof (zlen_nonneg l).
    destruct (Z.leb_spec MAX_VERTS (zlen hull)) as [Q|_]; [unfold MAX_VERTS in Q; lia|].
    destruct (addHull_ok l verts n (hull ++ [j]) ltac:(lia) ltac:(lia) Hv) as (v1 & -> & L1 & P1 & N1).
    { rewrite zlen_app. change (zlen [j]) with 1. lia. }
    cbn [bind].
    destruct (IH v1 (n + zlen l) ((hull ++ [j]) ++ map (Z.add n) (zseq (length l))) HH Hni Hinp) as (v2 & h & m & -> & R & Hm & L2 & P2); try lia.
    { intros j' i' Hi'. apply Hs. now right. }
    { rewrite !zlen_app. change (zlen [j]) with 1. unfold zlen at 2. rewrite map_length, zseq_length. unfold zlen in *. lia. }
    exists v2, (j :: map (Z.add n) (zseq (length l)) ++ h), m. split; [f_equal; f_equal; rewrite <- !app_assoc; reflexivity|].
    split.
    + constructor; [exact SP| |exact R]. intros t p Et. rewrite P2; [now apply N1|].
      assert (t < length l)%nat by (apply nth_error_Some; congruence). unfold zlen. lia.
    + split; [lia|]. split; [lia|]. intros v Hlt. rewrite P2 by lia. now apply P1.
Qed.

Lemma copy_ok : forall inp nin verts, 0 <= nin <= 126 -> 3 * nin <= zlen inp -> 381 <= zlen verts ->
  exists verts', copyPoly inp nin verts = Ok verts' /\ zlen verts' = zlen verts /\
    (forall v, 0 <= v < nin -> pos verts' v = pos inp v) /\ (forall v, nin <= v -> pos verts' v = pos verts v).
Proof.
  intros inp nin verts Hn Hi Hv. unfold copyPoly.
  match goal with |- context [foldM ?f ?l ?s] =>
    destruct (foldM_inv f (fun pre q => zlen q = zlen verts /\ (forall v, 0 <= v < zlen pre -> pos q v = pos inp v) /\
      (forall v, zlen pre <= v -> pos q v = pos verts v)) l s) as (v' & E & L & K1 & K2) end.
  - split; [reflexivity|]. split; [intros v Q; unfold zlen in Q; cbn in Q; lia|reflexivity].
  - intros pre i post l Es (L & K1 & K2). apply zseq_split in Es as [-> Hp].
    pose proof (zlen_nonneg pre). assert (zlen pre < nin) by (unfold zlen; lia).
    rewrite vert_pos by lia. cbn [bind].
    destruct (put_ok l (zlen pre) (pos inp (zlen pre)) ltac:(lia) ltac:(lia)) as (l' & -> & Lx & Px).
    exists l'. split; [reflexivity|]. split; [lia|]. rewrite zlen_snoc. split; intros v Hv'; rewrite Px by lia;
      destruct (Z.eqb_spec v (zlen pre)) as [->|]; try reflexivity; [apply K1|exfalso|apply K2]; lia.
  - exists v'. assert (Q : zlen (zseq (Z.to_nat nin)) = nin) by (unfold zlen; rewrite zseq_length; lia). rewrite Q in *.
    split; [exact E|]. split; [exact L|]. split; assumption.
Qed.
Lemma sides_eq : forall n, 0 < n -> sides n = poly_sides n.
Proof.
  intros n Hn. unfold sides, poly_sides. set (k := Z.to_nat (n - 1)).
  assert (En : n = Z.of_nat k + 1) by lia. replace (Z.to_nat n) with (S k) by lia. clearbody k.
  replace (S k) with (1 + k)%nat by lia. rewrite zseq_app, map_app, map_map. change (zseq 1) with [0]. cbn [map app combine Z.eqb]. f_equal.
  assert (G : forall l : list Z, (forall v, In v l -> 0 <= v) ->
    map (fun x => (if Z.of_nat 1 + x =? 0 then n - 1 else Z.of_nat 1 + x - 1, Z.of_nat 1 + x)) l = combine l (map (fun i => Z.of_nat 1 + i) l)).
  { induction l as [|v l IH]; intros Hl; cbn [map combine]; [reflexivity|].
    pose proof (Hl v (or_introl eq_refl)). destruct (Z.eqb_spec (Z.of_nat 1 + v) 0); [lia|]. f_equal; [f_equal; lia|]. apply IH. intros w Hw. apply Hl. now right. }
  apply G. intros v Hv. apply in_zseq in Hv. lia.
Qed.
Lemma in_sides : forall n j i, In (j, i) (sides n) -> 0 <= j < n /\ 0 <= i < n.
Proof.
  intros n j i Hi. apply in_map_iff in Hi as (k & E & Hk). apply in_zseq in Hk.
  assert (i = k) by congruence. assert (j = if k =? 0 then n - 1 else k - 1) by congruence. destruct (Z.eqb_spec k 0); lia.
Qed.
Lemma sides_len : forall n, 0 <= n -> zlen (sides n) = n.
Proof. intros n Hn. unfold sides, zlen. rewrite map_length, zseq_length. lia. Qed.
Lemma sides_fst : forall n, NoDup (map fst (sides n)) /\ forall v, In v (map fst (sides n)) <-> 0 <= v < n.
Proof.
  intros n. unfold sides. rewrite map_map. cbn [fst].
  assert (K : forall v, In v (map (fun i => if i =? 0 then n - 1 else i - 1) (zseq (Z.to_nat n))) <-> 0 <= v < n).
  { intros v. rewrite in_map_iff. split.
    - intros (k & <- & Hk). apply in_zseq in Hk. destruct (Z.eqb_spec k 0); lia.
    - intros Hv. destruct (Z.eq_dec v (n - 1)) as [->|Hne].
      + exists 0. split; [reflexivity|]. apply in_zseq. lia.
      + exists (v + 1). destruct (Z.eqb_spec (v + 1) 0); [lia|]. split; [lia|]. apply in_zseq. lia. }
  split; [|exact K].
  apply NoDup_nth_error. intros p q Hp E. rewrite map_length, zseq_length in Hp.
  assert (G : forall p, (p < Z.to_nat n)%nat -> nth_error (zseq (Z.to_nat n)) p = Some (Z.of_nat p)).
  { clear. intros p Hp. assert (Q : exists a, nth_error (zseq (Z.to_nat n)) p = Some a) by (apply nth_error_in_range; now rewrite zseq_length).
    destruct Q as [a Ea]. destruct (nth_error_split _ _ Ea) as (l1 & l2 & El & Ll). apply zseq_split in El as [-> _]. rewrite Ea. f_equal. unfold zlen. lia. }
  destruct (Nat.lt_ge_cases q (Z.to_nat n)) as [Hq|Hq].
  - rewrite !nth_error_map, !G in E by assumption. cbn [option_map] in E.
    assert (E' : (if Z.of_nat p =? 0 then n - 1 else Z.of_nat p - 1) = (if Z.of_nat q =? 0 then n - 1 else Z.of_nat q - 1)) by congruence.
    destruct (Z.eqb_spec (Z.of_nat p) 0), (Z.eqb_spec (Z.of_nat q) 0); lia.
  - rewrite !nth_error_map, G in E by assumption. rewrite (proj2 (nth_error_None _ q)) in E by (rewrite zseq_length; lia). discriminate.
Qed.
