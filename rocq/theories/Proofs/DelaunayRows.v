(** The triangles read off the table of edges, and delaunayHull. *)
From Coq Require Import ZArith List Bool Lia Permutation.
From Verif.Base Require Import Res GoNum F32 Num Grid.
From Verif.Model Require Import Geom Delaunay.
From Verif.Spec Require Import HullSpec DelaunaySpec.
From Verif.Proofs Require Import DelaunayPick DelaunayTable DelaunayLoop.
Import ListNotations.
Open Scope Z_scope.

(** The sides in the order in which they are read. *)
Definition psides (E : list edge) : list (Z * Z * Z) := flat_map (fun '(s, t, l, r) => [(t, s, r); (s, t, l)]) E.
Lemma psides_perm : forall E, Permutation (psides E) (sides E).
Proof. induction E as [|[[[s t] l] r] E IH]; cbn; [constructor|]. apply perm_trans with ((s, t, l) :: (t, s, r) :: psides E); [constructor|]. now do 2 constructor. Qed.
Definition putS (rows : list edge) (x : Z * Z * Z) : res (list edge) := let '(a, b, f) := x in putSide rows f b a.
Lemma putEdges : forall E rows, foldM putEdge E rows = foldM putS (psides E) rows.
Proof.
  induction E as [|[[[s t] l] r] E IH]; intros rows; [reflexivity|]. cbn [foldM psides flat_map app putEdge putS].
  destruct (putSide rows r s t) as [rows1| | |]; cbn [bind]; try reflexivity.
  destruct (putSide rows1 l t s) as [rows2| | |]; cbn [bind]; try reflexivity. apply IH.
Qed.

Definition own (P : list (Z * Z * Z)) (f : Z) : list (Z * Z) := map fst (filter (fun x => snd x =? f) P).
Lemma own_app : forall P Q f, own (P ++ Q) f = own P f ++ own Q f.
Proof. intros. unfold own. now rewrite filter_app, map_app. Qed.

Definition rowOK (t : Z * Z * Z) (l : list (Z * Z)) (row : edge) : Prop :=
  match l with
  | [] => row = (-1, -1, -1, -1)
  | [(a, b)] => row = (b, a, -1, -1) /\ In (a, b) (triSides t)
  | _ => exists x y z, row = (x, y, z, -1) /\ cyc (y, x, z) t
  end.
Definition putRow (row : edge) (x y : Z) : edge :=
  let '(t0, t1, t2, t3) := row in
  if t0 =? -1 then (x, y, t2, t3) else if t0 =? y then (t0, t1, x, t3) else if t1 =? x then (t0, t1, y, t3) else row.

Lemma putRow_ok : forall p q w l row a b, p <> q -> q <> w -> w <> p -> 0 <= p -> 0 <= q -> 0 <= w ->
  rowOK (p, q, w) l row -> In (a, b) (triSides (p, q, w)) -> ~ In (a, b) l ->
  rowOK (p, q, w) (l ++ [(a, b)]) (putRow row b a).
Proof.
  intros p q w l row a b Hpq Hqw Hwp Rp Rq Rw Ok_ Hi Nf.
  destruct l as [|[a1 b1] [|c l]].
  - cbn in Ok_ |- *. subst. cbn. auto.
  - cbn [rowOK app] in *. destruct Ok_ as [-> Hi1]. cbn [putRow].
    assert (Ne : (a, b) <> (a1, b1)) by (intros H; apply Nf; left; now symmetry).
    assert (B1 : b1 <> -1) by (cbn in Hi1; intuition; match goal with H : (_, _) = (_, _) |- _ => injection H; intros; lia end).
    destruct (Z.eqb_spec b1 (-1)) as [|_]; [contradiction|].
    destruct (Z.eqb_spec b1 a) as [->|N1]; [|destruct (Z.eqb_spec a1 b) as [->|N2]].
    + exists a, a1, b. split; [reflexivity|]. cbn in Hi, Hi1.
      destruct Hi1 as [H|[H|[H|[]]]]; injection H as <- <-; destruct Hi as [H|[H|[H|[]]]]; injection H; intros; subst; try congruence; cbn; auto.
    + exists b1, b, a. split; [reflexivity|]. cbn in Hi, Hi1.
      destruct Hi1 as [H|[H|[H|[]]]]; injection H as <- <-; destruct Hi as [H|[H|[H|[]]]]; injection H; intros; subst; try congruence; cbn; auto.
    + exfalso. cbn in Hi, Hi1.
      destruct Hi1 as [H|[H|[H|[]]]]; injection H as <- <-; destruct Hi as [H|[H|[H|[]]]]; injection H; intros; subst; congruence.
  - cbn [rowOK app] in *. destruct Ok_ as (x & y & z & -> & C).
    assert (G : putRow (x, y, z, -1) b a = (x, y, z, -1)).
    { cbn [putRow]. cbn in Hi, C.
      destruct C as [C|[C|C]]; injection C as -> -> ->; (destruct (Z.eqb_spec x (-1)) as [|_]; [lia|]);
        destruct Hi as [H|[H|[H|[]]]]; injection H as <- <-;
        repeat (match goal with |- context [?u =? ?v] => destruct (Z.eqb_spec u v); try lia end); reflexivity. }
    rewrite G. destruct (l ++ [(a, b)]) eqn:El; exists x, y, z; auto.
Qed.

Section Rows.
Variables (E : list edge) (ts : list (Z * Z * Z)).
Hypothesis D : NoDup (dirs E).
Hypothesis SS : forall a b f, In (a, b, f) (sides E) ->
  (0 <= f /\ exists t, nth_error ts (Z.to_nat f) = Some t /\ In (a, b) (triSides t)) \/ f = -2.
Hypothesis TT : forall a b c, In (a, b, c) ts -> a <> b /\ b <> c /\ c <> a /\ 0 <= a /\ 0 <= b /\ 0 <= c.

Lemma psides_nodup : NoDup (map fst (psides E)).
Proof. eapply Permutation_NoDup; [|exact D]. unfold dirs. apply Permutation_map. apply Permutation_sym. apply psides_perm. Qed.
Lemma psides_in : forall x, In x (psides E) -> In x (sides E).
Proof. intros x. apply Permutation_in. apply psides_perm. Qed.

Lemma put_ok : forall k, (k <= length (psides E))%nat -> exists rows,
  foldM putS (firstn k (psides E)) (repeat (-1, -1, -1, -1) (length ts)) = Ok rows /\ length rows = length ts /\
  forall f t, nth_error ts f = Some t -> exists row, nth_error rows f = Some row /\ rowOK t (own (firstn k (psides E)) (Z.of_nat f)) row.
Proof.
  induction k as [|k IH]; intros Hk.
  { exists (repeat (-1, -1, -1, -1) (length ts)). split; [reflexivity|]. split; [apply repeat_length|]. intros f t Hf.
    exists (-1, -1, -1, -1). split; [|reflexivity]. apply nth_error_repeat. apply nth_error_Some. congruence. }
  destruct IH as (rows & E1 & L1 & R1); [lia|].
  destruct (nth_error (psides E) k) as [[[a b] f]|] eqn:Ek; [|apply nth_error_None in Ek; lia].
  rewrite (firstn_snoc _ _ _ Ek), foldM_app, E1. cbn [bind foldM putS].
  assert (Hi : In (a, b, f) (sides E)) by (apply psides_in; now apply nth_error_In in Ek).
  assert (Other : forall g, g <> f -> own (firstn k (psides E) ++ [(a, b, f)]) g = own (firstn k (psides E)) g).
  { intros g Hg. rewrite own_app. unfold own at 2. cbn [filter snd]. destruct (Z.eqb_spec f g); [congruence|]. cbn [map]. apply app_nil_r. }
  destruct (SS a b f Hi) as [(Hf & t & Et & Hs)| ->].
  - unfold putSide. destruct (Z.leb_spec 0 f) as [_|]; [|lia].
    destruct (R1 _ _ Et) as (row & Er & Ro). rewrite Z2Nat.id in Ro by exact Hf.
    assert (Gr : get rows f = Ok row) by (apply get_ok; auto). rewrite Gr. cbn [bind].
    assert (Lf : 0 <= f < zlen rows) by (now apply get_range in Gr).
    exists (upd rows (Z.to_nat f) (putRow row b a)). split; [|split].
    + replace (let '(t0, t1, t2, t3) := row in if t0 =? -1 then set rows f (b, a, t2, t3) else if t0 =? a then set rows f (t0, t1, b, t3)
                else if t1 =? b then set rows f (t0, t1, a, t3) else Ok rows) with (Ok (upd rows (Z.to_nat f) (putRow row b a))); [reflexivity|].
      destruct row as [[[t0 t1] t2] t3]. cbn [putRow].
      destruct (t0 =? -1); [now rewrite set_in_range|]. destruct (t0 =? a); [now rewrite set_in_range|]. destruct (t1 =? b); [now rewrite set_in_range|].
      now rewrite upd_self.
    + now rewrite upd_length.
    + intros g t' Hg. destruct (Nat.eq_dec g (Z.to_nat f)) as [->|Ng].
      * exists (putRow row b a). split; [apply nth_error_upd_eq; unfold zlen in Lf; lia|].
        rewrite Z2Nat.id by exact Hf. rewrite own_app. unfold own at 2. cbn [filter snd]. rewrite Z.eqb_refl. cbn [map fst].
        assert (t' = t) by congruence. subst t'. destruct t as [[p q] w]. destruct (TT p q w) as (T1 & T2 & T3 & T4 & T5 & T6); [now apply nth_error_In in Et|].
        apply putRow_ok; try assumption.
        intros H. unfold own in H. apply in_map_iff in H as ([[a' b'] f'] & H1 & H2). cbn in H1. injection H1 as -> ->. apply filter_In in H2 as [H2 _].
        apply in_prefix in H2 as (j & Hj & Ej). pose proof psides_nodup as N. rewrite NoDup_nth_error in N.
        assert (j = k); [|lia]. apply N; [rewrite map_length; lia|]. rewrite !nth_error_map, Ej, Ek. reflexivity.
      * destruct (R1 g t' Hg) as (row' & Er' & Ro'). exists row'. split; [rewrite nth_error_upd_neq by congruence; exact Er'|].
        rewrite Other by (intros <-; apply Ng; lia). exact Ro'.
  - exists rows. split; [reflexivity|]. split; [exact L1|]. intros g t' Hg. rewrite Other by lia. auto.
Qed.

Lemma own_len : forall f, length (own (psides E) f) = length (owned E f).
Proof.
  intros f. unfold own, owned. rewrite !map_length.
  assert (G : forall l l', Permutation l l' -> length (filter (fun x : Z * Z * Z => snd x =? f) l) = length (filter (fun x => snd x =? f) l')).
  { induction 1 as [|x l l' H IH|x y l|l l1 l2 H1 IH1 H2 IH2]; cbn; [reflexivity| | |congruence].
    - destruct (snd x =? f); cbn; congruence.
    - destruct (snd x =? f), (snd y =? f); reflexivity. }
  apply G. apply psides_perm.
Qed.

Notation dangling := (fun '(t0, t1, t2, _) => (t0 =? -1) || (t1 =? -1) || (t2 =? -1)).
Lemma rows_ok : (forall f, 0 <= f < zlen ts -> owned E f <> []) -> exists rows,
  foldM putEdge E (repeat (-1, -1, -1, -1) (length ts)) = Ok rows /\
  ((forall f, 0 <= f < zlen ts -> 2 <= zlen (owned E f)) /\ existsb dangling rows = false /\
   Forall2 (fun t row => exists x y z, row = (x, y, z, -1) /\ cyc (y, x, z) t) ts rows \/
   (exists f, 0 <= f < zlen ts /\ zlen (owned E f) = 1) /\ existsb dangling rows = true).
Proof.
  intros OO. destruct (put_ok (length (psides E)) (le_n _)) as (rows & E1 & L1 & R1). rewrite firstn_all in E1, R1.
  exists rows. split; [now rewrite putEdges|].
  assert (Full : forall f, 0 <= f < zlen ts -> exists t row, nth_error ts (Z.to_nat f) = Some t /\ nth_error rows (Z.to_nat f) = Some row /\
    (zlen (owned E f) = 1 /\ dangling row = true \/
     2 <= zlen (owned E f) /\ dangling row = false /\ exists x y z, row = (x, y, z, -1) /\ cyc (y, x, z) t)).
  { intros f Hf. destruct (nth_error ts (Z.to_nat f)) as [t|] eqn:Et; [|apply nth_error_None in Et; unfold zlen in Hf; lia].
    destruct (R1 _ _ Et) as (row & Er & Ro). exists t, row. split; [reflexivity|]. split; [exact Er|].
    rewrite Z2Nat.id in Ro by lia. pose proof (own_len f) as Lo.
    assert (Ne : owned E f <> []) by (now apply OO).
    destruct (own (psides E) f) as [|[a b] [|c l]].
    - destruct (owned E f); [contradiction|discriminate].
    - left. cbn [rowOK] in Ro. destruct Ro as [-> _]. split; [unfold zlen; rewrite <- Lo; reflexivity|]. cbn. rewrite !orb_true_r. reflexivity.
    - right. cbn [rowOK] in Ro. destruct Ro as (x & y & z & -> & C). split; [unfold zlen; rewrite <- Lo; cbn [length]; lia|].
      split; [|exists x, y, z; auto]. destruct t as [[p q] w]. destruct (TT p q w) as (T1 & T2 & T3 & T4 & T5 & T6); [now apply nth_error_In in Et|].
      destruct C as [C|[C|C]]; injection C as -> -> ->;
        repeat (match goal with |- context [?u =? ?v] => destruct (Z.eqb_spec u v); try lia end); reflexivity. }
  destruct (existsb dangling rows) eqn:X.
  - right. split; [|reflexivity]. apply existsb_exists in X as (row & Hi & Hd). apply In_nth_error in Hi as [f Hf].
    assert (Lf : (f < length rows)%nat) by (apply nth_error_Some; congruence).
    destruct (Full (Z.of_nat f)) as (t & row' & _ & Er & [(H1 & _)|(_ & H2 & _)]); [unfold zlen; lia|exists (Z.of_nat f); split; [unfold zlen; lia|exact H1]|].
    rewrite Nat2Z.id in Er. assert (row' = row) by congruence. subst. rewrite Hd in H2. discriminate.
  - left. assert (Nd : forall f row, nth_error rows f = Some row -> dangling row = false).
    { intros f row Hf. destruct (dangling row) eqn:Y; [|reflexivity]. rewrite <- X. symmetry. apply existsb_exists. exists row. split; [now apply nth_error_In in Hf|exact Y]. }
    split; [|split; [reflexivity|]].
    + intros f Hf. destruct (Full f Hf) as (t & row & _ & Er & [(_ & H1)|(H2 & _)]); [|exact H2]. rewrite (Nd _ _ Er) in H1. discriminate.
    + assert (G : forall f t row, nth_error ts f = Some t -> nth_error rows f = Some row -> exists x y z, row = (x, y, z, -1) /\ cyc (y, x, z) t).
      { intros f t row Ht Er. assert (Lf : (f < length ts)%nat) by (apply nth_error_Some; congruence).
        destruct (Full (Z.of_nat f)) as (t' & row' & Et' & Er' & H); [unfold zlen; lia|]. rewrite Nat2Z.id in Et', Er'.
        assert (t' = t) by congruence. assert (row' = row) by congruence. subst.
        destruct H as [(_ & H1)|(_ & _ & H2)]; [|exact H2]. rewrite (Nd _ _ Er) in H1. discriminate. }
      clear -L1 G. revert rows L1 G. induction ts as [|t l IH]; intros [|row rows] L1 G; try discriminate; constructor.
      * apply (G O); reflexivity.
      * apply IH; [now injection L1|]. intros f t' row' H1 H2. apply (G (S f)); assumption.
Qed.
End Rows.

Lemma delaunay_ok : forall npts pts nhull hull,
  0 < npts <= 20000000 -> 3 * npts <= zlen pts -> 3 <= nhull <= zlen hull ->
  let h := firstn (Z.to_nat nhull) hull in
  NoDup h -> (forall v, In v h -> 0 <= v < npts) ->
  exists E ts, table (circ pts) pts npts (10 * npts) h E ts /\
    ((forall f, 0 <= f < zlen ts -> 2 <= zlen (owned E f)) /\
     (exists rows, delaunayHull npts pts nhull hull = Ok (rows, E) /\
       Forall2 (fun t row => exists x y z, row = (x, y, z, -1) /\ cyc (y, x, z) t) ts rows) \/
     (exists f, 0 <= f < zlen ts /\ zlen (owned E f) = 1) /\ delaunayHull npts pts nhull hull = Panic).
Proof.
  intros npts pts nhull hull Hn Hl Hh h N R.
  assert (Lh : zlen h = nhull) by (unfold h, zlen in *; rewrite firstn_length; lia).
  assert (Eh : hull = h ++ skipn (Z.to_nat nhull) hull) by (symmetry; apply firstn_skipn).
  assert (Hle : nhull <= npts).
  { rewrite <- Lh. assert (I : incl h (zseq (Z.to_nat npts))) by (intros v Hv; apply in_zseq; rewrite Z2Nat.id by lia; auto).
    pose proof (NoDup_incl_length N I) as K. rewrite zseq_length in K. unfold zlen. lia. }
  unfold delaunayHull. replace (i32 (npts * 10)) with (10 * npts) by (rewrite i32_id; unfold is_i32; lia).
  cbv zeta. rewrite i32_id by (unfold is_i32; lia). destruct (Z.ltb_spec (10 * npts * 4) 0) as [H|_]; [lia|].
  assert (Hm : 3 <= zlen h <= 10 * npts) by lia.
  pose proof (hullEdges_ok (10 * npts) h N Hm (skipn (Z.to_nat nhull) hull) (length h) (le_n _)) as HE.
  rewrite <- Eh, Lh in HE. replace (length h) with (Z.to_nat nhull) in HE by (unfold zlen in Lh; lia).
  rewrite HE. cbn [bind]. clear HE.
  rewrite firstn_all2 by (rewrite (ring_len (10 * npts) h Hm); unfold zlen in Lh; lia).
  pose proof (inv_hull0 pts npts (10 * npts) h N Hm R) as I0.
  destruct (facetLoop_ok pts npts (10 * npts) h ltac:(lia) Hl ltac:(lia) (S (Z.to_nat (10 * npts))) _ [] 0 I0) as (E & ts & EL & I & Cl & Lt);
    [lia|constructor|cbn; lia|lia|lia|].
  change (zlen (@nil (Z * Z * Z))) with 0 in EL. change (Z.of_nat 0) with 0 in EL. rewrite EL. cbn [bind].
  rewrite i32_id by (unfold is_i32; pose proof (zlen_nonneg ts); lia).
  destruct (Z.ltb_spec (zlen ts * 4) 0) as [H|_]; [pose proof (zlen_nonneg ts); lia|].
  assert (T : table (circ pts) pts npts (10 * npts) h E ts) by (now apply inv_table).
  exists E, ts. split; [exact T|]. destruct T as [T1 T2 T3 T4 T5 T6 T7 T8].
  destruct (rows_ok E ts T1) as (rows & Er & H).
  - intros a b f Hi. destruct (T5 a b f Hi) as [H|(H & _)]; auto.
  - intros a b c Hi. destruct (T6 a b c Hi) as (F1 & F2 & F3 & F4 & F5 & F6 & _). repeat (split; [first [assumption|lia]|]). lia.
  - exact T7.
  - replace (Z.to_nat (zlen ts)) with (length ts) by (unfold zlen; lia). rewrite Er. cbn [bind].
    destruct H as [(H1 & H2 & H3)|(H1 & H2)].
    + left. split; [exact H1|]. rewrite H2. exists rows. auto.
    + right. split; [exact H1|]. now rewrite H2.
Qed.
