(** BuildPolyMesh: the loop over the contours. *)
From Coq Require Import ZArith List Bool Lia Permutation.
From Verif.Base Require Import Res GoNum Grid.
From Verif.Model Require Import Heightfield Contour Triangulate PolyMeshOps BuildMesh.
From Verif.Spec Require Import AreaSpec MeshOpsSpec BuildSpec.
From Verif.Proofs Require Import TriangulateProofs WeldProofs MergeProofs EdgeProofs MergeLoop.
Import ListNotations.
Open Scope Z_scope.

(** * Counting *)
Lemma null_ltb : forall c, (zlen (ctVerts c) <? 3) = null c.
Proof. intros c. unfold null, zlen. destruct (Z.ltb_spec (Z.of_nat (length (ctVerts c))) 3), (Nat.ltb_spec (length (ctVerts c)) 3); reflexivity || lia. Qed.
Definition cstep (s : Z * Z * Z) (c : Contour) : Z * Z * Z :=
  let '(mv, mt, mc) := s in
  if null c then (mv, mt, mc) else (mv + zlen (ctVerts c), mt + (zlen (ctVerts c) - 2), iMax mc (zlen (ctVerts c))).
Lemma countVerts_fold : forall cs, countVerts cs = fold_left cstep cs (0, 0, 0).
Proof.
  intros cs. unfold countVerts. generalize (0, 0, 0). induction cs as [|c cs IH]; intros s; [reflexivity|].
  cbn [fold_left]. rewrite IH. f_equal. destruct s as [[a b] d]. cbn zeta. rewrite null_ltb. reflexivity.
Qed.
Lemma countVerts_gen : forall cs a b d, exists m, fold_left cstep cs (a, b, d)
    = (a + total cs, b + tris cs, m) /\ d <= m /\ (forall c, In c cs -> null c = false -> zlen (ctVerts c) <= m).
Proof.
  induction cs as [|c cs IH]; intros a b d.
  - exists d. cbn. rewrite !Z.add_0_r. split; [reflexivity|]. split; [lia|]. tauto.
  - cbn [fold_left]. unfold cstep at 2. unfold total, tris. cbn [map sum fold_right]. fold (sum (map (fun c => if null c then 0 else Z.of_nat (length (ctVerts c))) cs)).
    fold (total cs). fold (sum (map (fun c => if null c then 0 else Z.of_nat (length (ctVerts c)) - 2) cs)). fold (tris cs).
    destruct (null c) eqn:N.
    + destruct (IH a b d) as (m & E & D & M). exists m. rewrite E. split; [f_equal; f_equal; lia|]. split; [exact D|].
      intros c' [<-|H] H'; [congruence|auto].
    + destruct (IH (a + zlen (ctVerts c)) (b + (zlen (ctVerts c) - 2)) (iMax d (zlen (ctVerts c)))) as (m & E & D & M).
      exists m. rewrite E. unfold iMax in D. rewrite Z.gtb_ltb in D. split; [f_equal; f_equal; unfold zlen; lia|].
      destruct (Z.ltb_spec (zlen (ctVerts c)) d); (split; [lia|]); intros c' [<-|H'] H''; try lia; auto.
Qed.
Lemma countVerts_ok : forall cs, exists m, countVerts cs = (total cs, tris cs, m) /\ 0 <= m /\
  (forall c, In c cs -> null c = false -> zlen (ctVerts c) <= m).
Proof. intros cs. rewrite countVerts_fold. destruct (countVerts_gen cs 0 0 0) as (m & E & H). exists m. split; [exact E|exact H]. Qed.
Lemma total_nonneg : forall cs, 0 <= total cs.
Proof. induction cs as [|c cs IH]; unfold total in *; cbn [map sum fold_right] in *; [lia|]. unfold sum in IH. destruct (null c); lia. Qed.
Lemma tris_bound : forall cs, 0 <= tris cs <= total cs.
Proof.
  induction cs as [|c cs IH]; unfold tris, total in *; cbn [map sum fold_right] in *; [lia|]. unfold sum in IH.
  destruct (null c) eqn:N; [lia|]. unfold null in N. apply Nat.ltb_ge in N. unfold zlen in *. lia.
Qed.

(** * Vertices of a contour *)
Definition flagsOk (cap : nat) (fl : list Z) : Prop := length fl = cap /\ Forall (fun x => x = 0 \/ x = 1) fl.
Lemma Forall_upd : forall {A} (P : A -> Prop) l i x, Forall P l -> P x -> Forall P (upd l i x).
Proof. induction l as [|y l IH]; intros [|i] x H Hx; cbn; auto; inversion H; subst; constructor; auto. Qed.
Definition setAll (is : list nat) (fl : list Z) : list Z := fold_left (fun fl k => upd fl k 1) is fl.
Lemma addContour_ok : forall vs cap V s fl,
  wInv cap V s -> (cap <= Z.to_nat 65536)%nat -> (length V + length vs <= cap)%nat -> flagsOk cap fl ->
  let '(is, V') := welded V (map point vs) in
  exists s' fl', addContour vs s fl = Ok (map Z.of_nat is, s', fl') /\ wInv cap V' s' /\ flagsOk cap fl' /\
    fl' = setAll (marked_in vs is) fl.
Proof.
  induction vs as [|v vs IH]; intros cap V s fl HI Hc Hl Hf.
  - cbn. exists s, fl. auto.
  - cbn [map welded addContour]. cbn [length] in Hl.
    change (u16 (vX v)) with (vX v mod 65536). change (u16 (vY v)) with (vY v mod 65536). change (u16 (vZ v)) with (vZ v mod 65536).
    set (p := point v).
    assert (vert_u16 p) as Hp by (unfold p, vert_u16, point; repeat split; apply Z.mod_pos_bound; lia).
    assert (let '(i, V1) := match newest V p with Some i => (i, V) | None => (length V, V ++ [p]) end in
      exists s', addVertex (vX v mod 65536) (vY v mod 65536) (vZ v mod 65536) s = Ok (Z.of_nat i, s') /\ wInv cap V1 s') as H
      by exact (addVertex_ok cap V s _ _ _ HI Hp Hc ltac:(lia)).
    destruct (match newest V p with Some i => (i, V) | None => (length V, V ++ [p]) end) as [i V1] eqn:E1.
    assert (length V1 + length vs <= cap)%nat as L1.
    { destruct (newest V p); inversion E1; subst; [lia|]. rewrite app_length. cbn [length]. lia. }
    assert (i < cap)%nat as Li.
    { destruct (newest V p) as [k|] eqn:Nw; inversion E1; subst; [|lia]. apply newest_some in Nw. destruct Nw as (q & Nw & _).
      assert (i < length V1)%nat by (apply nth_error_Some; congruence). lia. }
    destruct H as (s1 & E & HI1). rewrite E. cbn [bind].
    assert (exists fl1, (if Z.land (vR v) borderVertex =? 0 then Ok fl else set fl (Z.of_nat i) 1) = Ok fl1 /\ flagsOk cap fl1 /\
      fl1 = setAll (if negb (Z.land (vR v) 65536 =? 0) then [i] else []) fl) as (fl1 & Ef & Hf1 & Hf2).
    { change borderVertex with 65536. destruct (Z.eqb_spec (Z.land (vR v) 65536) 0) as [Z0|Z0]; [exists fl; auto|].
      destruct Hf as [Lf Ff]. rewrite set_in_range by (unfold zlen; lia). rewrite Nat2Z.id. eexists. split; [reflexivity|]. split; [|reflexivity].
      split; [rewrite upd_length; exact Lf|]. apply Forall_upd; auto. }
    rewrite Ef. cbn [bind]. specialize (IH cap V1 s1 fl1 HI1 Hc L1 Hf1).
    destruct (welded V1 (map point vs)) as [is V2].
    destruct IH as (s2 & fl2 & E2 & HI2 & Hf3 & Hf4). rewrite E2. cbn [bind map]. exists s2, fl2. split; [reflexivity|].
    split; [exact HI2|]. split; [exact Hf3|]. rewrite Hf4, Hf2. unfold marked_in, setAll. cbn [combine filter fst].
    destruct (negb (Z.land (vR v) 65536 =? 0)); reflexivity.
Qed.

(** * Initial polygons *)
Definition distinct3 (t : Z * Z * Z) : Prop := let '(a, b, c) := t in a <> b /\ a <> c /\ b <> c.
Lemma cuts_distinct : forall (l : list Z) ts left, cuts l ts left -> NoDup l -> 3 <= zlen left -> Forall distinct3 ts.
Proof.
  intros l ts left H. induction H as [l|l [[a b] c] l1 ts l2 Hc H IH]; intros N L; [constructor|].
  destruct (cut_nodup _ _ _ _ _ Hc N) as (N1 & Hb & Nab & Nbc & Ia & Ic). constructor; [|auto].
  split; [exact Nab|]. split; [|exact Nbc]. intros ->. destruct (cut_borders _ _ _ _ _ Hc) as (M & P & P1).
  assert (3 <= zlen l1) as L1 by (apply cuts_length in H; unfold zlen in *; lia).
  apply (borders_no_both l1 c c N1 L1); apply (Permutation_in _ (Permutation_sym P1)); now left.
Qed.
Lemma cuts_nodup : forall (l : list Z) ts left, cuts l ts left -> NoDup l -> NoDup left.
Proof. intros l ts left H. induction H as [l|l [[a b] c] l1 ts l2 Hc H IH]; intros N; [exact N|]. apply cut_nodup in Hc; [|exact N]. tauto. Qed.
Lemma triangulation_distinct : forall (l : list Z) ts, triangulation l ts -> NoDup l -> Forall distinct3 ts.
Proof.
  intros l ts (ts' & a & b & c & -> & H) N. apply Forall_app. split; [eapply cuts_distinct; [exact H|exact N|unfold zlen; cbn; lia]|].
  apply cuts_nodup in H; [|exact N]. constructor; [|constructor]. unfold distinct3.
  inversion H as [|? ? H1 H2]; subst. inversion H2 as [|? ? H3 H4]; subst. cbn in *. repeat split; intros ->; tauto.
Qed.

Lemma initialPolys_ok : forall {X} nvp ind (info : Z * Z * Z -> res X) (f : Z * Z * Z -> X) ts,
  3 <= nvp -> Forall is_u16 ind ->
  Forall (fun t => distinct3 t /\ (forall v, In v (corners t) -> 0 <= v < zlen ind) /\ info t = Ok (f t)) ts ->
  initialPolys nvp ind info ts = Ok (map (rowOf nvp) (map (fun t => (map (fun k => nth (Z.to_nat k) ind 0) (corners t), f t)) ts)).
Proof.
  intros X nvp ind info f ts Hn Hu H. unfold initialPolys.
  match goal with |- foldM ?g _ _ = _ => assert (forall ts acc, Forall (fun t => distinct3 t /\ (forall v, In v (corners t) -> 0 <= v < zlen ind) /\ info t = Ok (f t)) ts ->
    foldM g ts acc = Ok (acc ++ map (rowOf nvp) (map (fun t => (map (fun k => nth (Z.to_nat k) ind 0) (corners t), f t)) ts))) as G end.
  { clear H ts. induction ts as [|t ts IH]; intros acc H; [cbn; now rewrite app_nil_r|].
    inversion H as [|? ? (D & R & I) H']; subst. cbn [foldM]. destruct t as [[a b] c]. cbn [distinct3] in D. destruct D as (D1 & D2 & D3).
    destruct (Z.eqb_spec a b); [contradiction|]. destruct (Z.eqb_spec a c); [contradiction|]. destruct (Z.eqb_spec b c); [contradiction|]. cbn [negb andb].
    assert (forall v, In v (corners (a, b, c)) -> get ind v = Ok (nth (Z.to_nat v) ind 0) /\ u16 (nth (Z.to_nat v) ind 0) = nth (Z.to_nat v) ind 0) as K.
    { intros v Hv. apply R in Hv. assert (Z.to_nat v < length ind)%nat as L by (unfold zlen in Hv; lia). split.
      - apply get_ok. split; [lia|]. apply nth_error_nth'. exact L.
      - apply u16_id. rewrite Forall_forall in Hu. apply Hu, nth_In, L. }
    destruct (K a) as [Ga Ua]; [cbn; auto|]. destruct (K b) as [Gb Ub]; [cbn; auto|]. destruct (K c) as [Gc Uc]; [cbn; auto|].
    rewrite Ga, Gb, Gc, I. cbn [bind]. rewrite IH by exact H'. rewrite Ua, Ub, Uc. cbn [map corners]. rewrite <- app_assoc. cbn [app].
    do 3 f_equal. unfold rowOf. cbn [fst snd length app]. do 2 f_equal. do 3 f_equal. f_equal. lia. }
  rewrite G by exact H. reflexivity.
Qed.

(** * Storing *)
Lemma storePolys_ok : forall nvp maxTris reg ar (qs : list (list Z * unit)) Q, zlen Q + zlen qs <= maxTris ->
  storePolys maxTris reg ar (map (rowOf nvp) qs) (map (rowOf nvp) Q) =
  Ok (map (rowOf nvp) (Q ++ map (fun l => (l, (reg, ar))) (map fst qs))).
Proof.
  intros nvp maxTris reg ar qs. unfold storePolys. induction qs as [|[l u] qs IH]; intros Q H.
  - cbn. now rewrite app_nil_r.
  - cbn [map foldM]. rewrite Z.geb_leb. rewrite zlen_cons in H. pose proof (zlen_nonneg qs).
    match goal with |- context [maxTris <=? ?x] => replace x with (zlen Q) by (unfold zlen; now rewrite map_length) end.
    destruct (Z.leb_spec maxTris (zlen Q)); [lia|]. cbn [bind].
    specialize (IH (Q ++ [(l, (reg, ar))])). rewrite map_app in IH. cbn [map] in IH.
    etransitivity; [apply IH; rewrite zlen_snoc; lia|]. rewrite <- app_assoc. reflexivity.
Qed.

(** * Filling *)
Lemma turns_left_ext : forall (p q : Z -> Z * Z) l, 0 < zlen l -> (forall v, In v l -> p v = q v) -> turns_left p l -> turns_left q l.
Proof.
  intros p q l L E H i. specialize (H i). cbn zeta in *. rewrite <- !E by (apply cyc_in; exact L). exact H.
Qed.
Lemma NoDup_app_l : forall {A} (a b : list A), NoDup (a ++ b) -> NoDup a.
Proof.
  induction a as [|x a IH]; intros b N; [constructor|]. cbn in N. inversion N; subst. constructor; [|eauto].
  intros F. match goal with H : ~ In _ _ |- _ => apply H end. apply in_or_app. auto.
Qed.
Lemma tri_incl : forall (ids : list Z) ts left, ((left = [] /\ triangulation ids ts) \/ (3 < length left /\ cuts ids ts left)%nat) ->
  (forall t, In t ts -> incl (corners t) ids) /\ (length ts <= length ids - 2)%nat.
Proof.
  intros ids ts left HT.
  assert (forall ts L', cuts ids ts L' -> (forall t, In t ts -> incl (corners t) ids) /\ incl L' ids) as K.
  { intros ts' L' HC. pose proof (cuts_incl _ _ _ HC) as [K2 K1]. split; [|assumption].
    intros [[a b] c'] Ht v Hv. destruct (K1 a b c' Ht) as (A & B & C'). cbn in Hv. destruct Hv as [<-|[<-|[<-|[]]]]; assumption. }
  split.
  - destruct HT as [[_ (ts' & a & b & c' & -> & HC)]|[_ HC]].
    + destruct (K _ _ HC) as [K1 K2]. intros t Ht v Hv. apply in_app_iff in Ht. destruct Ht as [Ht|[<-|[]]]; [eapply K1; eauto|]. apply K2. exact Hv.
    + apply (K _ _ HC).
  - destruct HT as [[_ (ts' & a & b & c' & -> & HC)]|[L3 HC]]; apply cuts_length in HC; rewrite ?app_length; cbn [length] in *; lia.
Qed.
Lemma joinable_pair : forall {X} nvp verts (pos : Z -> Z * Z) (qs : list (list Z * X)) j k qa qb, finished nvp verts qs -> 3 < nvp -> Forall (good nvp verts) qs ->
  (forall q v, In q qs -> In v (fst q) -> small2 (at_xz verts v) /\ at_xz verts v = pos v) ->
  (j < k)%nat -> nth_error qs j = Some qa -> nth_error qs k = Some qb -> ~ joinable nvp pos (fst qa) (fst qb).
Proof.
  intros X nvp verts pos qs j k qa qb FI H3 G HP Hjk Ea Eb (Lf & ea & eb & Ra & Rb & O1 & O2 & Un & Ne & T1 & T2).
  pose proof (nth_error_In _ _ Ea) as Ia. pose proof (nth_error_In _ _ Eb) as Ib. rewrite Forall_forall in G. destruct (G _ Ia) as [La Va], (G _ Ib) as [Lb Vb].
  assert (forall i, In (cyc (fst qa) i) (fst qa)) as Ca by (intros; apply cyc_in; lia). assert (forall i, In (cyc (fst qb) i) (fst qb)) as Cb by (intros; apply cyc_in; lia).
  assert (forall i, pos (cyc (fst qa) i) = at_xz verts (cyc (fst qa) i)) as Pa by (intros i; symmetry; apply (HP qa); auto).
  assert (forall i, pos (cyc (fst qb) i) = at_xz verts (cyc (fst qb) i)) as Pb by (intros i; symmetry; apply (HP qb); auto).
  assert (forall i, small2 (at_xz verts (cyc (fst qa) i))) as Sa by (intros i; apply (HP qa); auto).
  assert (forall i, small2 (at_xz verts (cyc (fst qb) i))) as Sb by (intros i; apply (HP qb); auto).
  rewrite !Pa, !Pb in *.
  destruct (mergeValue_best (fst (rowOf nvp qa)) (fst (rowOf nvp qb)) (fst qa) (fst qb) verts nvp ea eb) as (v & Ev & Hv); try assumption; try lia.
  - apply good_padded with (verts := verts), G, Ia.
  - apply good_padded with (verts := verts), G, Ib.
  - intros v Hv. apply in_app_iff in Hv. destruct Hv as [Hv|Hv]; [apply (HP qa); auto|apply (HP qb); auto].
  - split; assumption.
  - apply uleft_exact; [apply Sa|apply Sa|apply Sb|exact T1].
  - apply uleft_exact; [apply Sb|apply Sb|apply Sa|exact T2].
  - pose proof (FI H3 j k qa qb v ea eb Hjk Ea Eb Ev). lia.
Qed.
Lemma joinable_sym : forall nvp pos la lb, (0 < length la)%nat -> joinable nvp pos la lb -> joinable nvp pos lb la.
Proof.
  intros nvp pos la lb L (Lf & ea & eb & Ra & Rb & O1 & O2 & Un & Ne & T1 & T2). split; [lia|]. exists eb, ea.
  split; [exact Rb|]. split; [exact Ra|]. split; [congruence|]. split; [congruence|]. split.
  - intros i j Hi Hj H. destruct (Un j i Hj Hi) as [-> ->]; [|auto]. destruct H as [[A B]|[A B]]; [left|right]; split; congruence.
  - split; [rewrite <- O1, <- O2; congruence|]. split; [exact T2|exact T1].
Qed.
Lemma joinable_none : forall {X} nvp verts V (ids : list Z) (qs : list (list Z * X)), finished nvp verts qs -> 3 < nvp -> Forall (good nvp verts) qs ->
  Forall (fun l => 3 <= zlen l <= nvp /\ incl l ids) (map fst qs) -> (forall v, In v ids -> small2 (at_xz verts v)) ->
  (forall v, In v ids -> at_xz verts v = pos_in V v) ->
  forall i j la lb, i <> j -> nth_error (map fst qs) i = Some la -> nth_error (map fst qs) j = Some lb -> ~ joinable nvp (pos_in V) la lb.
Proof.
  intros X nvp verts V ids qs FI H3 G HI Sm HP i j la lb Hij Ea Eb HJ.
  assert (forall q v, In q qs -> In v (fst q) -> small2 (at_xz verts v) /\ at_xz verts v = pos_in V v) as K.
  { intros q v Hq Hv. rewrite Forall_forall in HI. destruct (HI (fst q)) as [_ I]; [now apply in_map|]. auto. }
  rewrite nth_error_map in Ea, Eb. destruct (nth_error qs i) as [qa|] eqn:Qa; [|discriminate]. destruct (nth_error qs j) as [qb|] eqn:Qb; [|discriminate].
  cbn in Ea, Eb. injection Ea as <-. injection Eb as <-.
  destruct (Nat.lt_total i j) as [L|[L|L]]; [|lia|].
  - exact (joinable_pair nvp verts (pos_in V) qs i j qa qb FI H3 G K L Qa Qb HJ).
  - apply joinable_sym in HJ; [|rewrite Forall_forall in G; destruct (G qa (nth_error_In _ _ Qa)) as [La _]; unfold zlen in La; lia].
    exact (joinable_pair nvp verts (pos_in V) qs j i qb qa FI H3 G K L Qb Qa HJ).
Qed.
Lemma fill_ok : forall {X} nvp verts V join (ids : list Z) (tx : list ((Z * Z * Z) * X)) left qs', 3 <= nvp ->
  ((left = [] /\ triangulation ids (map fst tx)) \/ (3 < length left /\ cuts ids (map fst tx) left)%nat) ->
  Forall (fun v => ok_vert verts v /\ 0 <= v < zlen V /\ at_xz verts v = pos_in V v) ids ->
  msteps nvp verts join (map (fun t => (corners (fst t), snd t)) tx) qs' -> finished nvp verts qs' ->
  filled nvp V ids (map fst qs') /\ (length qs' <= length ids - 2)%nat.
Proof.
  intros X nvp verts V join ids tx left qs' Hn HT HV SM FI. set (ts := map fst tx) in *. set (qs := map (fun t => (corners (fst t), snd t)) tx) in *.
  destruct (tri_incl _ _ _ HT) as [Ict Lts].
  assert (length qs = length ts) as Lqs by (unfold qs, ts; now rewrite !map_length).
  assert (forall q, In q qs -> exists t, In t ts /\ fst q = corners t) as Qt.
  { intros q Hq. unfold qs in Hq. apply in_map_iff in Hq. destruct Hq as (t & <- & Ht). exists (fst t). split; [apply in_map, Ht|reflexivity]. }
  assert (forall t, In t ts -> exists q, In q qs /\ fst q = corners t) as Tq.
  { intros t Ht. unfold ts in Ht. apply in_map_iff in Ht. destruct Ht as (x & <- & Hx). exists (corners (fst x), snd x).
    split; [unfold qs; apply in_map_iff; exists x; auto|reflexivity]. }
  rewrite Forall_forall in HV.
  assert (Forall (good nvp verts) qs) as Gq.
  { apply Forall_forall. intros q Hq. destruct (Qt q Hq) as (t & Ht & E). split; rewrite E.
    - destruct t as [[a b] c']. unfold zlen. cbn. lia.
    - apply Forall_forall. intros v Hv. apply HV. eapply Ict; eauto. }
  destruct (msteps_good nvp verts _ _ _ SM Gq) as (Gq' & Lq' & Nq').
  split; [|lia]. set (G := map fst qs').
  assert (Forall (fun l => 3 <= zlen l <= nvp /\ incl l ids) G) as HG.
  { apply Forall_forall. intros l Hl. unfold G in Hl. apply in_map_iff in Hl. destruct Hl as (q & <- & Hq).
    rewrite Forall_forall in Gq'. split; [apply (Gq' q Hq)|]. intros v Hv.
    destruct (msteps_in nvp verts _ _ _ SM Gq q v Hq Hv) as (q0 & H0 & H0v). destruct (Qt q0 H0) as (t & Ht & E). rewrite E in H0v. eapply Ict; eauto. }
  exists ts, left. split; [exact HT|]. split; [unfold G; rewrite map_length; lia|].
  split; [intros Nt; unfold G; destruct qs'; [exfalso; apply Nq'; [|reflexivity]; intros F; apply Nt; destruct ts; [reflexivity|rewrite F in Lqs; discriminate]|discriminate]|].
  split; [exact HG|].
  assert (small V -> forall v, In v ids -> small2 (at_xz verts v)) as SV.
  { intros Sm v Hv. destruct (HV v Hv) as (_ & Rv & E'). rewrite E'.
    unfold pos_in, small2. unfold small in Sm. rewrite Forall_forall in Sm. specialize (Sm (nth (Z.to_nat v) V (0, 0, 0))).
    destruct (nth (Z.to_nat v) V (0, 0, 0)) as [[x y] z] eqn:N. cbn [fst snd].
    destruct Sm as (A & _ & B); [|auto]. rewrite <- N. apply nth_In. unfold zlen in Rv. lia. }
  split; [intros H3 Sm; apply (joinable_none nvp verts V ids qs' FI H3 Gq'); [exact HG|apply SV, Sm|intros v Hv; apply HV, Hv]|].
  intros ND.
  assert (NoDup (allBorders qs)) as NB.
  { assert (allBorders qs = flat_map tborders ts) as ->.
    { unfold allBorders, qs, ts. clear. induction tx as [|[[[a b] c] x] tx IH]; [reflexivity|]. cbn [map flat_map fst]. rewrite IH. reflexivity. }
    destruct HT as [[_ HT]|[L3 HC]]; [eapply triangulation_edges; eassumption|].
    destruct (cuts_edges _ _ _ HC ND) as (D & _); [unfold zlen; lia|]. apply NoDup_app_l in D. exact D. }
  destruct (msteps_keeps nvp verts _ _ _ SM Gq NB) as (K1 & K2 & K3 & K4 & K5).
  split; [|split; [|split]].
  - unfold G. replace (flat_map borders (map fst qs')) with (allBorders qs'); [exact K1|].
    clear. unfold allBorders. induction qs' as [|q qs IH]; [reflexivity|]. cbn [map flat_map]. now rewrite IH.
  - intros v. specialize (K3 v). unfold G. split; intros H0.
    + apply in_concat in H0. destruct H0 as (l & Hl & Hv). apply in_map_iff in Hl. destruct Hl as (q & <- & Hq).
      destruct (proj1 K3) as (q0 & Hq0 & Hv0); [eauto|]. destruct (Qt q0 Hq0) as (t & Ht & E). rewrite E in Hv0.
      apply in_flat_map. exists t. auto.
    + apply in_flat_map in H0. destruct H0 as (t & Ht & Hv). destruct (Tq t Ht) as (q0 & H0 & E0).
      destruct (proj2 K3) as (q & Hq & Hv'); [exists q0; rewrite E0; auto|].
      apply in_concat. exists (fst q). split; [apply in_map, Hq|exact Hv'].
  - intros pos. unfold G. rewrite map_map. rewrite K4.
    assert (sum (map (fun q : list Z * X => area (map pos (fst q))) qs) = sum (map tri_area (map (map3 pos) ts))) as ->.
    { unfold qs, ts. clear. rewrite !map_map. f_equal. apply map_ext. intros [[[a b] c] x]. reflexivity. }
    destruct HT as [[-> HT]|[_ HC]].
    + cbn [map area]. rewrite (area_triangulation (map pos ids) (map (map3 pos) ts)) by (apply triangulation_map; exact HT). lia.
    + rewrite (area_cuts (map pos ids) (map (map3 pos) ts) (map pos left)) by (apply cuts_map; exact HC). reflexivity.
  - intros Sm HL.
    assert (forall l, 0 < zlen l -> incl l ids -> (turns_left (at_xz verts) l <-> turns_left (pos_in V) l)) as TL.
    { intros l L I. split; apply turns_left_ext; auto; intros v Hv; destruct (HV v (I v Hv)) as (_ & _ & E); rewrite E; reflexivity. }
    assert (Forall (fun q : list Z * X => turns_left (at_xz verts) (fst q)) qs') as R.
    { apply K5.
      - intros q v Hq Hv. destruct (Qt q Hq) as (t & Ht & E). rewrite E in Hv. destruct (HV v) as (_ & Rv & E'); [eapply Ict; eauto|]. rewrite E'.
        unfold pos_in, small2. unfold small in Sm. rewrite Forall_forall in Sm. specialize (Sm (nth (Z.to_nat v) V (0, 0, 0))).
        destruct (nth (Z.to_nat v) V (0, 0, 0)) as [[x y] z] eqn:N. cbn [fst snd].
        destruct Sm as (A & _ & B); [|auto]. rewrite <- N. apply nth_In. unfold zlen in Rv. lia.
      - apply Forall_forall. intros q Hq. destruct (Qt q Hq) as (t & Ht & E). rewrite E.
        apply TL; [destruct t as [[? ?] ?]; unfold zlen; cbn; lia|apply Ict, Ht|]. rewrite Forall_forall in HL. auto. }
    apply Forall_forall. intros l Hl. pose proof Hl as Hl'. unfold G in Hl. apply in_map_iff in Hl. destruct Hl as (q & <- & Hq).
    rewrite Forall_forall in R, HG. destruct (HG _ Hl') as [L I]. apply TL; [lia|exact I|auto].
Qed.
(** Nothing was cut off. *)
Lemma fill_none : forall nvp V (ids : list Z) left,
  ((left = [] /\ triangulation ids []) \/ (3 < length left /\ cuts ids [] left)%nat) -> filled nvp V ids [].
Proof.
  intros nvp V ids left HT. exists [], left. split; [exact HT|]. split; [cbn; lia|]. split; [congruence|]. split; [constructor|].
  split; [intros _ _ i j la lb _ E; destruct i; discriminate|]. intros ND. split; [constructor|]. split; [reflexivity|]. split; [|constructor].
  intros pos. cbn [map sum fold_right]. destruct HT as [[_ (ts' & a & b & c' & F & _)]|[_ HC]]; [destruct ts'; discriminate|].
  inversion HC; subst. lia.
Qed.

(** * One contour *)
Record binv (nvp : Z) (cap : nat) (mc : Z) (V : list vert) (Q : list (list Z * (Z * Z))) (st : bstate) : Prop := {
  bi_weld : wInv cap V (bsWeld st);
  bi_flags : flagsOk cap (bsFlags st);
  bi_ind : zlen (bsInd st) = mc;
  bi_u16 : Forall is_u16 (bsInd st);
  bi_polys : bsPolys st = map (rowOf nvp) Q;
  bi_good : Forall (fun q => 3 <= zlen (fst q) <= nvp /\ Forall (fun v => 0 <= v < zlen V) (fst q)) Q }.

Lemma flat4_length : forall vs, length (flat4 vs) = (4 * length vs)%nat.
Proof. induction vs as [|v vs IH]; [reflexivity|]. unfold flat4 in *. cbn [flat_map app length]. lia. Qed.
Lemma welded_length : forall ps V, length (fst (welded V ps)) = length ps.
Proof.
  induction ps as [|p ps IH]; intros V; [reflexivity|]. cbn [welded]. destruct (newest V p) as [i|].
  - specialize (IH V). destruct (welded V ps). cbn in *. lia.
  - specialize (IH (V ++ [p])). destruct (welded (V ++ [p]) ps). cbn in *. lia.
Qed.
Lemma welded_range : forall ps V, Forall (fun i => (i < length (snd (welded V ps)))%nat) (fst (welded V ps)).
Proof.
  intros ps V. pose proof (welded_sound ps V) as H. destruct (welded V ps) as [is V']. cbn [fst snd].
  induction H as [|p i ps is (v & Hv & _) _ IH]; constructor; auto. apply nth_error_Some. congruence.
Qed.
Lemma zseq_nth : forall n (f : Z -> Z) ids, length ids = n -> (forall k, (k < n)%nat -> f (Z.of_nat k) = nth k ids 0) -> map f (zseq n) = ids.
Proof.
  intros n f ids L H. apply list_eq_nth. intros k. rewrite nth_error_map. destruct (Nat.lt_ge_cases k n) as [K|K].
  - rewrite nth_error_zseq by exact K. cbn [option_map]. rewrite H by exact K. symmetry. apply nth_error_nth'. lia.
  - rewrite !(proj2 (nth_error_None _ _)); [reflexivity|lia|rewrite zseq_length; lia].
Qed.
Lemma at_xz_pos : forall cap V s v, wInv cap V s -> 0 <= v < zlen V -> at_xz (wVerts s) v = pos_in V v.
Proof.
  intros cap V s v HI Hv. destruct (wi_verts _ _ _ HI) as (rest & E & _). unfold at_xz, pos_in. rewrite E.
  destruct (nth (Z.to_nat v) V (0, 0, 0)) as [[x y] z] eqn:N.
  assert (nth_error V (Z.to_nat v) = Some (x, y, z)) as N'.
  { rewrite <- N. apply nth_error_nth'. unfold zlen in Hv. lia. }
  destruct (flatten_nth V rest _ _ _ _ N') as (A & _ & C). rewrite Z2Nat.id in A, C by lia.
  apply get_ok in A, C. destruct A as [_ A], C as [_ C]. rewrite (nth_error_nth _ _ 0 A), (nth_error_nth _ _ 0 C). reflexivity.
Qed.
Lemma triangulate_fill : forall n verts4 ind cap (ids : list Z), 3 <= n <= zlen ind -> firstn (Z.to_nat n) ind = zseq (Z.to_nat n) ->
  n <= 268435456 -> 4 * n <= zlen verts4 -> 3 * (n - 2) <= cap -> zlen ids = n ->
  exists r tr left, triangulate n verts4 ind cap = Ok (r, tr) /\ Z.abs r = zlen tr /\ Forall distinct3 tr /\
    (forall t v, In t tr -> In v (corners t) -> 0 <= v < n) /\
    let ts := map (map3 (fun k => nth (Z.to_nat k) ids 0)) tr in
    ((left = [] /\ triangulation ids ts) \/ (3 < length left /\ cuts ids ts left)%nat).
Proof.
  intros n verts4 ind cap ids Hn Find Hb H4 Hc Li. set (f := fun k => nth (Z.to_nat k) ids 0).
  destruct (triangulate_ok n verts4 ind cap) as (r & tr & ET & HT); [lia| |lia|].
  { rewrite Find. apply Forall_forall. intros k Hk. apply in_zseq in Hk. lia. }
  rewrite Find in HT.
  assert (map f (zseq (Z.to_nat n)) = ids) as Emap.
  { apply zseq_nth; [unfold zlen in Li; lia|]. intros k Hk. unfold f. rewrite Nat2Z.id. reflexivity. }
  assert (exists left, (left = [] /\ triangulation (zseq (Z.to_nat n)) tr) \/ (3 < length left /\ cuts (zseq (Z.to_nat n)) tr left)%nat) as (left & HT0).
  { destruct HT as [[_ HT]|[_ (L' & HC & L3)]]; [exists []; auto|exists L'; right; split; [unfold zlen in L3; lia|exact HC]]. }
  exists r, tr, (map f left). split; [exact ET|]. split; [|split; [|split]].
  - pose proof (zlen_nonneg tr). destruct HT as [[-> _]|[-> _]]; lia.
  - destruct HT as [[_ HT]|[_ (L' & HC & L3)]].
    + eapply triangulation_distinct; [exact HT|apply NoDup_zseq].
    + eapply cuts_distinct; [exact HC|apply NoDup_zseq|lia].
  - intros t v Ht Hv. destruct (tri_incl _ _ _ HT0) as [I _]. apply (I t Ht) in Hv. apply in_zseq in Hv. lia.
  - intros ts. destruct HT0 as [[-> HT0]|[L3 HC]].
    + left. split; [reflexivity|]. rewrite <- Emap. apply (triangulation_map f). exact HT0.
    + right. split; [rewrite map_length; lia|]. rewrite <- Emap. apply (cuts_map f). exact HC.
Qed.

Lemma buildContour_ok : forall nvp maxTris mc cap V Q st c, 3 <= nvp -> Z.of_nat cap <= 21845 ->
  binv nvp cap mc V Q st -> null c = false -> zlen (ctVerts c) <= mc -> (length V + length (ctVerts c) <= cap)%nat ->
  zlen Q + (zlen (ctVerts c) - 2) <= maxTris ->
  let '(ids, V1) := welded V (points c) in
  exists st' G, buildContour nvp maxTris mc st c = Ok st' /\
    binv nvp cap mc V1 (Q ++ map (fun l => (l, (ctReg c, ctArea c))) G) st' /\
    filled nvp V1 (map Z.of_nat ids) G /\
    (length G <= length (ctVerts c) - 2)%nat /\ bsFlags st' = setAll (marked_in (ctVerts c) ids) (bsFlags st).
Proof.
  intros nvp maxTris mc cap V Q st c Hn Hcap HB Hnull Hmc HV HQ.
  pose proof (welded_length (points c) V) as Lw. pose proof (welded_range (points c) V) as Rw.
  pose proof (addContour_ok (ctVerts c) cap V (bsWeld st) (bsFlags st) (bi_weld _ _ _ _ _ _ HB) ltac:(lia) HV (bi_flags _ _ _ _ _ _ HB)) as HA.
  fold (points c) in HA. destruct (welded_prefix (points c) V) as [W EW]. destruct (welded V (points c)) as [ids V1].
  cbn [fst snd] in Lw, Rw, EW. unfold points in Lw. rewrite map_length in Lw.
  destruct HA as (w & fl & EA & HI & Hf & Hfl).
  assert (3 <= zlen (ctVerts c)) as N3 by (unfold null in Hnull; apply Nat.ltb_ge in Hnull; unfold zlen; lia).
  set (n := zlen (ctVerts c)) in *. set (ids' := map Z.of_nat ids).
  assert (zlen ids' = n) as Li by (unfold ids', n, zlen; rewrite map_length; lia).
  unfold buildContour. fold n. destruct (Z.ltb_spec n 3); [lia|].
  set (ind := zseq (Z.to_nat n) ++ skipn (Z.to_nat n) (bsInd st)).
  assert (zlen ind = mc) as Lind.
  { unfold ind. rewrite zlen_app. unfold zlen. rewrite zseq_length, skipn_length. pose proof (bi_ind _ _ _ _ _ _ HB) as B. unfold zlen in B. lia. }
  assert (firstn (Z.to_nat n) ind = zseq (Z.to_nat n)) as Find.
  { unfold ind. rewrite firstn_app, zseq_length, Nat.sub_diag. cbn [firstn]. rewrite app_nil_r. apply firstn_all2. rewrite zseq_length. lia. }
  destruct (triangulate_fill n (flat4 (ctVerts c)) ind (mc * 3) ids') as (r & tr & left & ET & ER & Dtr & Ctr & HT); try lia.
  { exact Find. }
  { unfold n, zlen in *. lia. }
  { unfold zlen. rewrite flat4_length. unfold n, zlen. lia. }
  rewrite ET. cbn [bind]. rewrite EA. cbn [bind]. fold ids'.
  replace (if r <=? 0 then - r else r) with (zlen tr) by (destruct (Z.leb_spec r 0); lia).
  assert (firstn (Z.to_nat (zlen tr)) tr = tr) as -> by (apply firstn_all2; unfold zlen; lia).
  set (ind2 := ids' ++ skipn (Z.to_nat n) (bsInd st)).
  assert (zlen ind2 = mc) as Lind2.
  { unfold ind2. rewrite zlen_app, Li. unfold zlen. rewrite skipn_length. pose proof (bi_ind _ _ _ _ _ _ HB) as B. unfold zlen in B. lia. }
  assert (Forall (fun v => 0 <= v < zlen V1) ids') as Rid.
  { apply Forall_forall. intros v Hv. unfold ids' in Hv. apply in_map_iff in Hv. destruct Hv as (k & <- & Hk). rewrite Forall_forall in Rw.
    specialize (Rw k Hk). unfold zlen. lia. }
  assert (zlen V1 <= Z.of_nat cap) as LV1 by (pose proof (wi_cap _ _ _ HI); unfold zlen; lia).
  assert (Forall is_u16 ind2) as U2.
  { unfold ind2. apply Forall_app. split.
    - eapply Forall_impl; [|exact Rid]. cbn. intros v Hv. unfold is_u16. lia.
    - pose proof (bi_u16 _ _ _ _ _ _ HB) as B. rewrite <- (firstn_skipn (Z.to_nat n) (bsInd st)) in B. apply Forall_app in B. tauto. }
  assert (Forall (fun v => ok_vert (wVerts w) v /\ 0 <= v < zlen V1 /\ at_xz (wVerts w) v = pos_in V1 v) ids') as Vid.
  { eapply Forall_impl; [|exact Rid]. cbn. intros v Hv. destruct (wi_verts _ _ _ HI) as (rest & _ & Lv).
    split; [unfold ok_vert, zlen in *; lia|]. split; [exact Hv|]. eapply at_xz_pos; eauto. }
  rewrite (initialPolys_ok nvp ind2 _ (fun _ => tt) tr Hn U2).
  2:{ apply Forall_forall. intros t Ht. rewrite Forall_forall in Dtr. split; [auto|]. split; [|reflexivity].
      intros v Hv. specialize (Ctr t v Ht Hv). lia. }
  cbn [bind]. set (f := fun k => nth (Z.to_nat k) ids' 0) in *. set (ts := map (map3 f) tr) in *.
  set (tx := map (fun t => (t, tt)) ts).
  assert (map fst tx = ts) as Etx by (unfold tx; rewrite map_map; apply map_id).
  assert (map (fun t => (map (fun k => nth (Z.to_nat k) ind2 0) (corners t), tt)) tr = map (fun t => (corners (fst t), snd t)) tx) as Eqs.
  { unfold tx, ts. rewrite !map_map. apply map_ext_in. intros t Ht. cbn [fst snd].
    assert (forall v, In v (corners t) -> nth (Z.to_nat v) ind2 0 = f v) as K.
    { intros v Hv. specialize (Ctr t v Ht Hv). unfold f, ind2. apply app_nth1. unfold zlen in Li. lia. }
    destruct t as [[a b] c']. cbn [corners map map3]. rewrite !K by (cbn; auto). reflexivity. }
  rewrite Eqs. set (qs := map (fun t => (corners (fst t), snd t)) tx).
  destruct (tri_incl _ _ _ HT) as [Ict Lts].
  assert (length qs = length ts) as Lqs by (unfold qs; rewrite map_length, <- Etx, map_length; reflexivity).
  assert (Forall (good nvp (wVerts w)) qs) as Gq.
  { apply Forall_forall. intros q Hq. unfold qs in Hq. apply in_map_iff in Hq. destruct Hq as (t & <- & Ht). apply (in_map fst) in Ht. rewrite Etx in Ht.
    split; cbn [fst].
    - destruct t as [[[a b] c'] u]. unfold zlen. cbn. lia.
    - apply Forall_forall. intros v Hv. apply (Ict _ Ht) in Hv. rewrite Forall_forall in Vid. apply Vid, Hv. }
  assert (zlen (map (rowOf (X := unit) nvp) qs) = zlen qs) as -> by (unfold zlen; now rewrite map_length).
  assert (forall G, Forall (fun l => 3 <= zlen l <= nvp /\ incl l ids') G ->
    binv nvp cap mc V1 (Q ++ map (fun l => (l, (ctReg c, ctArea c))) G)
      (mkB w fl ind2 (map (rowOf nvp) (Q ++ map (fun l => (l, (ctReg c, ctArea c))) G)))) as MB.
  { intros G HG. constructor; cbn [bsWeld bsFlags bsInd bsPolys]; auto.
    apply Forall_app. split.
    - eapply Forall_impl; [|apply (bi_good _ _ _ _ _ _ HB)]. cbn. intros q [L F]. split; [exact L|].
      eapply Forall_impl; [|exact F]. cbn. intros v Hv. rewrite EW, zlen_app. pose proof (zlen_nonneg W). lia.
    - apply Forall_forall. intros q Hq. apply in_map_iff in Hq. destruct Hq as (l & <- & Hl). cbn [fst]. rewrite Forall_forall in HG.
      destruct (HG l Hl) as [L I]. split; [exact L|]. apply Forall_forall. intros v Hv. apply I in Hv. rewrite Forall_forall in Rid. auto. }
  destruct (Z.eqb_spec (zlen qs) 0) as [Z0|Z0].
  - exists (mkB w fl ind2 (bsPolys st)), []. split; [reflexivity|].
    specialize (MB [] (Forall_nil _)). cbn [map] in MB |- *. rewrite app_nil_r in *. rewrite <- (bi_polys _ _ _ _ _ _ HB) in MB.
    split; [exact MB|]. split; [|split; [cbn; lia|exact Hfl]].
    assert (ts = []) as Ets by (apply length_zero_iff_nil; unfold zlen in Z0; lia). rewrite Ets in HT. eapply fill_none; exact HT.
  - destruct (mergePolys_ok nvp (wVerts w) (fun _ _ => tt) qs ltac:(lia) Gq) as (qs' & EM & SM). rewrite EM. pose proof (mergePolys_end _ _ _ _ _ EM) as FI. cbn [bind].
    rewrite <- Etx in HT. destruct (fill_ok nvp (wVerts w) V1 _ ids' tx left qs' Hn HT Vid SM FI) as [HF LF].
    assert (length qs' <= length (ctVerts c) - 2)%nat as LF' by (unfold n, zlen in *; lia).
    rewrite (bi_polys _ _ _ _ _ _ HB). rewrite storePolys_ok by (unfold n, zlen in *; lia). cbn [bind].
    exists (mkB w fl ind2 (map (rowOf nvp) (Q ++ map (fun l => (l, (ctReg c, ctArea c))) (map fst qs')))), (map fst qs'). split; [reflexivity|].
    split; [|split; [exact HF|split; [rewrite map_length; exact LF'|exact Hfl]]].
    apply MB. destruct HF as (? & ? & _ & _ & _ & HF & _). exact HF.
Qed.
