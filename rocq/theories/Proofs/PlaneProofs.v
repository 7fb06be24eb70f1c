(** The integer predicates of [contour.go] are the relations of the plane (C50). *)
From Coq Require Import ZArith QArith List Bool Lia Lqa Qfield.
From Verif.Base Require Import Res GoNum.
From Verif.Model Require Import ContourGeom.
From Verif.Spec Require Import PlaneSpec.
Open Scope Z_scope.

Definition orient (a b c : zpt) : Z :=
  (fst b - fst a) * (snd c - snd a) - (fst c - fst a) * (snd b - snd a).

Lemma prod_bound : forall x y B, 0 <= B -> -B <= x <= B -> -B <= y <= B -> -(B*B) <= x * y <= B*B.
Proof. intros. nia. Qed.

Lemma area2_exact : forall a b c, small a -> small b -> small c -> area2 a b c = orient a b c.
Proof.
  intros [ax az] [bx bz] [cx cz] Ha Hb Hc. unfold small, area2, orient in *. cbn [fst snd] in *.
  rewrite (i32_id (bx - ax)), (i32_id (cz - az)), (i32_id (cx - ax)), (i32_id (bz - az)) by (unfold is_i32; lia).
  pose proof (prod_bound (bx - ax) (cz - az) 32766) as P1.
  pose proof (prod_bound (cx - ax) (bz - az) 32766) as P2.
  rewrite (i32_id ((bx - ax) * (cz - az))), (i32_id ((cx - ax) * (bz - az))) by (unfold is_i32; lia).
  apply i32_id. unfold is_i32; lia.
Qed.

(** Orientation with rational coordinates. *)
Definition oq (a b c : qpt) : Q :=
  ((fst b - fst a) * (snd c - snd a) - (fst c - fst a) * (snd b - snd a))%Q.

Lemma inject_sub : forall x y, (inject_Z (x - y) == inject_Z x - inject_Z y)%Q.
Proof. intros. unfold Z.sub. rewrite inject_Z_plus, inject_Z_opp. reflexivity. Qed.

Lemma orient_oq : forall a b c, (inject_Z (orient a b c) == oq (toQ a) (toQ b) (toQ c))%Q.
Proof.
  intros [ax az] [bx bz] [cx cz]. unfold orient, oq, toQ. cbn [fst snd].
  rewrite inject_sub, !inject_Z_mult, !inject_sub. reflexivity.
Qed.

Lemma inj_lt : forall x y, x < y <-> (inject_Z x < inject_Z y)%Q.
Proof. intros. rewrite Zlt_Qlt. reflexivity. Qed.
Lemma inj_le : forall x y, x <= y <-> (inject_Z x <= inject_Z y)%Q.
Proof. intros. rewrite Zle_Qle. reflexivity. Qed.
Lemma inj_eq : forall x y, x = y <-> (inject_Z x == inject_Z y)%Q.
Proof. intros x y. symmetry. apply inject_Z_injective. Qed.

Lemma orient_sign : forall a b c,
  (orient a b c < 0 <-> (oq (toQ a) (toQ b) (toQ c) < 0)%Q) /\
  (orient a b c = 0 <-> (oq (toQ a) (toQ b) (toQ c) == 0)%Q) /\
  (orient a b c > 0 <-> (oq (toQ a) (toQ b) (toQ c) > 0)%Q).
Proof.
  intros a b c. rewrite <- orient_oq. split; [|split].
  - apply inj_lt.
  - apply inj_eq.
  - rewrite <- (inj_lt 0). lia.
Qed.

Definition zdistinct (a b : zpt) : Prop := a <> b.

Lemma distinct_Q : forall a b : zpt, a <> b ->
  ~ (fst (toQ a) == fst (toQ b))%Q \/ ((fst (toQ a) == fst (toQ b))%Q /\ ~ (snd (toQ a) == snd (toQ b))%Q).
Proof.
  intros [ax az] [bx bz] H. unfold toQ. cbn [fst snd].
  destruct (Z.eq_dec ax bx) as [->|Hx].
  - right. split; [reflexivity|]. rewrite <- inj_eq. congruence.
  - left. now rewrite <- inj_eq.
Qed.

Open Scope Q_scope.

(** Points of a line are collinear with its ends. *)
Lemma oq_along : forall a b c d t p, same p (along c d t) ->
  oq (toQ a) (toQ b) p == oq (toQ a) (toQ b) (toQ c) + t * (oq (toQ a) (toQ b) (toQ d) - oq (toQ a) (toQ b) (toQ c)).
Proof.
  intros [ax az] [bx bz] [cx cz] [dx dz] t [px pz] [Hx Hz]. unfold oq, toQ, along in *. cbn [fst snd] in *.
  rewrite Hx, Hz. ring.
Qed.

Lemma oq_self : forall a b t p, same p (along a b t) -> oq (toQ a) (toQ b) p == 0.
Proof.
  intros [ax az] [bx bz] t [px pz] [Hx Hz]. unfold oq, toQ, along in *. cbn [fst snd] in *.
  rewrite Hx, Hz. ring.
Qed.

(** A point of the line through two distinct points, as [along]. *)
Lemma collinear_along : forall (a b : zpt) p, a <> b -> oq (toQ a) (toQ b) p == 0 ->
  exists t, same p (along a b t).
Proof.
  intros a b [px pz] Hab H. pose proof (distinct_Q a b Hab) as Hd.
  destruct a as [ax az], b as [bx bz]. unfold oq, toQ, along, same in *. cbn [fst snd] in *.
  set (A1 := inject_Z ax) in *. set (A2 := inject_Z az) in *.
  set (B1 := inject_Z bx) in *. set (B2 := inject_Z bz) in *. clearbody A1 A2 B1 B2.
  destruct Hd as [Hd|[He Hd]].
  - exists ((px - A1) / (B1 - A1)). assert (~ B1 - A1 == 0) by (intro; apply Hd; lra).
    split; [field; assumption|].
    assert ((B1 - A1) * (pz - A2) == (px - A1) * (B2 - A2)) as E by lra.
    assert (pz - A2 == (px - A1) / (B1 - A1) * (B2 - A2)) as F.
    { apply (Qmult_inj_r _ _ (B1 - A1)); [assumption|].
      transitivity ((B1 - A1) * (pz - A2)); [ring|]. rewrite E. field. assumption. }
    rewrite <- F. ring.
  - exists ((pz - A2) / (B2 - A2)). assert (~ B2 - A2 == 0) by (intro; apply Hd; lra).
    split; [|field; assumption].
    assert ((px - A1) * (B2 - A2) == 0) as E.
    { assert (B1 - A1 == 0) as Z0 by lra. rewrite Z0 in H. lra. }
    assert (px - A1 == 0) as F.
    { apply (Qmult_inj_r _ _ (B2 - A2)); [assumption|]. rewrite E. ring. }
    rewrite <- He. transitivity (px - A1 + A1); [ring|]. rewrite F. ring.
Qed.

(** The parameter is in the unit interval iff the coordinates are between those of the ends. *)
Lemma unit_between : forall A B t, ~ A == B ->
  (0 <= t <= 1 <-> (A <= A + t * (B - A) <= B \/ B <= A + t * (B - A) <= A)).
Proof.
  intros A B t H. destruct (Q_dec A B) as [[Hl|Hg]|He]; [| |contradiction].
  - split.
    + intros [H0 H1]. left. split; [|]; nra.
    + intros [[H1 H2]|[H1 H2]]; split; nra.
  - split.
    + intros [H0 H1]. right. split; nra.
    + intros [[H1 H2]|[H1 H2]]; split; nra.
Qed.

Lemma between_spec : forall a b c, small a -> small b -> small c -> a <> b ->
  between a b c = true <-> on_segment a b (toQ c).
Proof.
  intros a b c Ha Hb Hc Hab. unfold between, collinear. rewrite (area2_exact a b c Ha Hb Hc).
  pose proof (orient_sign a b c) as (_ & Ho & _).
  destruct (Z.eqb_spec (orient a b c) 0) as [E0|E0]; cbn [negb].
  2:{ split; [discriminate|]. intros (t & Ht & Hs). exfalso. apply E0, Ho. eapply oq_self; eauto. }
  apply Ho in E0. destruct (collinear_along a b (toQ c) Hab E0) as [t Ht].
  assert (on_segment a b (toQ c) <-> 0 <= t <= 1) as Heq.
  { split; [|intros; exists t; auto]. intros (t' & Ht' & Hs).
    assert (t == t') as Ett; [|rewrite Ett; exact Ht'].
    destruct (distinct_Q a b Hab) as [Hd|[He Hd]]; destruct Ht as [H1 H2], Hs as [H3 H4];
      unfold along, toQ in *; cbn [fst snd] in *.
    - apply (Qmult_inj_r _ _ (inject_Z (fst b) - inject_Z (fst a))); [intro; apply Hd; lra|]. lra.
    - apply (Qmult_inj_r _ _ (inject_Z (snd b) - inject_Z (snd a))); [intro; apply Hd; lra|]. lra. }
  rewrite Heq. clear Heq Ho E0. destruct Ht as [Hx Hz]. unfold along, toQ in Hx, Hz. cbn [fst snd] in *.
  destruct a as [ax az], b as [bx bz], c as [cx cz]. cbn [fst snd] in *.
  destruct (Z.eqb_spec ax bx) as [Ex|Ex]; cbn [negb].
  - assert (~ inject_Z az == inject_Z bz) as Hn by (rewrite <- inj_eq; congruence).
    rewrite (unit_between _ _ t Hn), <- Hz, <- !inj_le, orb_true_iff, !andb_true_iff, !Z.geb_leb, !Z.leb_le. tauto.
  - assert (~ inject_Z ax == inject_Z bx) as Hn by now rewrite <- inj_eq.
    rewrite (unit_between _ _ t Hn), <- Hx, <- !inj_le, orb_true_iff, !andb_true_iff, !Z.geb_leb, !Z.leb_le. tauto.
Qed.

Lemma sq_pos : forall x y, ~ x == 0 -> 0 < x * x + y * y.
Proof.
  intros x y H. assert (0 <= y * y) by nra.
  destruct (Q_dec x 0) as [[X|X]|X]; [| |contradiction]; assert (0 < x * x) by nra; lra.
Qed.

Lemma left_spec : forall a b c, small a -> small b -> small c -> a <> b ->
  (left a b c = true <-> exists s u, 0 < u /\ offset a b s u (toQ c)) /\
  (leftOn a b c = true <-> exists s u, 0 <= u /\ offset a b s u (toQ c)) /\
  (collinear a b c = true <-> exists s, offset a b s 0 (toQ c)).
Proof.
  intros a b c Ha Hb Hc Hab. unfold left, leftOn, collinear. rewrite (area2_exact a b c Ha Hb Hc).
  pose proof (orient_sign a b c) as (Hl & He & Hg).
  assert (0 < (inject_Z (fst b) - inject_Z (fst a)) * (inject_Z (fst b) - inject_Z (fst a)) +
              (inject_Z (snd b) - inject_Z (snd a)) * (inject_Z (snd b) - inject_Z (snd a))) as Hd.
  { destruct (distinct_Q a b Hab) as [H|[_ H]]; unfold toQ in H; cbn [fst snd] in H.
    - pose proof (sq_pos (inject_Z (fst b) - inject_Z (fst a)) (inject_Z (snd b) - inject_Z (snd a))) as P.
      apply P. intro. apply H. lra.
    - pose proof (sq_pos (inject_Z (snd b) - inject_Z (snd a)) (inject_Z (fst b) - inject_Z (fst a))) as P.
      rewrite Qplus_comm. apply P. intro. apply H. lra. }
  set (D1 := inject_Z (fst b) - inject_Z (fst a)) in *. set (D2 := inject_Z (snd b) - inject_Z (snd a)) in *.
  set (n := D1 * D1 + D2 * D2) in *.
  assert (forall s u, offset a b s u (toQ c) -> oq (toQ a) (toQ b) (toQ c) == - (u * n)) as Hoff.
  { intros s u [H1 H2]. unfold oq, toQ in *. cbn [fst snd] in *. fold D1 D2 in H1, H2. fold D1 D2.
    rewrite H1, H2. unfold n. ring. }
  assert (exists s u, offset a b s u (toQ c)) as (s & u & Hsu).
  { set (E1 := inject_Z (fst c) - inject_Z (fst a)). set (E2 := inject_Z (snd c) - inject_Z (snd a)).
    exists ((D1 * E1 + D2 * E2) / n), ((E1 * D2 - E2 * D1) / n).
    assert (~ n == 0) by (intro; lra).
    unfold offset, same, toQ. cbn [fst snd]. fold D1 D2.
    assert ((D1 * E1 + D2 * E2) / n * D1 + (E1 * D2 - E2 * D1) / n * D2 == E1) as F1
      by (unfold n in *; field; assumption).
    assert ((D1 * E1 + D2 * E2) / n * D2 - (E1 * D2 - E2 * D1) / n * D1 == E2) as F2
      by (unfold n in *; field; assumption).
    unfold E1, E2 in *. split; lra. }
  pose proof (Hoff s u Hsu) as Ho.
  rewrite Ho in Hl, He, Hg.
  assert (forall u', 0 < u' <-> 0 < u' * n) as Hpos.
  { intros u'. split; intros; nra. }
  split; [|split].
  - rewrite Z.ltb_lt, Hl. split.
    + intros H. exists s, u. split; auto. apply Hpos. lra.
    + intros (s' & u' & Hu & Hsu'). pose proof (Hoff s' u' Hsu') as Ho'. apply Hpos in Hu. lra.
  - rewrite Z.leb_le. split.
    + intros H. exists s, u. split; auto.
      destruct (Qlt_le_dec u 0) as [Hu|]; [|assumption]. exfalso.
      assert (- (u * n) > 0) as Hc' by nra. apply Hg in Hc'. lia.
    + intros (s' & u' & Hu & Hsu'). pose proof (Hoff s' u' Hsu') as Ho'.
      destruct (Z_le_gt_dec (orient a b c) 0) as [|Hgt]; [assumption|]. apply Hg in Hgt. nra.
  - rewrite Z.eqb_eq, He. split.
    + intros H. exists s. destruct Hsu as [H1 H2]. assert (u == 0) as Hu.
      { destruct (Q_dec u 0) as [[Hu|Hu]|Hu]; auto; exfalso; nra. }
      split; [rewrite H1|rewrite H2]; cbn [fst snd]; rewrite Hu; reflexivity.
    + intros (s' & Hsu'). pose proof (Hoff s' 0 Hsu') as Ho'. lra.
Qed.

(** Opposite signs of the ends of a segment that meets a line. *)
Lemma opposite : forall x y t, 0 <= t <= 1 -> x + t * (y - x) == 0 -> ~ x == 0 -> ~ y == 0 ->
  (x < 0 /\ 0 < y) \/ (0 < x /\ y < 0).
Proof.
  intros x y t Ht H Hx Hy.
  destruct (Q_dec x 0) as [[X|X]|X]; [| |contradiction];
  destruct (Q_dec y 0) as [[Y|Y]|Y]; try contradiction.
  - exfalso. assert (x * (1 - t) <= 0) by nra. assert (t * y <= 0) by nra.
    assert (x * (1 - t) == 0) as E1 by lra. assert (t * y == 0) as E2 by lra. nra.
  - left. split; lra.
  - right. split; lra.
  - exfalso. assert (0 <= x * (1 - t)) by nra. assert (0 <= t * y) by nra.
    assert (x * (1 - t) == 0) as E1 by lra. assert (t * y == 0) as E2 by lra. nra.
Qed.

Lemma same_trans : forall p q r, same p q -> same q r -> same p r.
Proof. intros p q r [H1 H2] [H3 H4]. split; etransitivity; eauto. Qed.
Lemma same_sym : forall p q, same p q -> same q p.
Proof. intros p q [H1 H2]. split; symmetry; auto. Qed.

Lemma left_orient : forall a b c, small a -> small b -> small c ->
  left a b c = (orient a b c <? 0)%Z /\ collinear a b c = (orient a b c =? 0)%Z.
Proof. intros. unfold left, collinear. rewrite area2_exact by assumption. auto. Qed.

(** Four orientations of two segments that cross: the common point is at the parameters
    given by the orientations. *)
Lemma crossing_point : forall a b c d : zpt,
  let oc := oq (toQ a) (toQ b) (toQ c) in
  let od := oq (toQ a) (toQ b) (toQ d) in
  let oa := oq (toQ c) (toQ d) (toQ a) in
  let ob := oq (toQ c) (toQ d) (toQ b) in
  ~ oa - ob == 0 ->
  same (along a b (oa / (oa - ob))) (along c d (- oc / (oa - ob))) /\ od - oc == oa - ob.
Proof.
  intros [ax az] [bx bz] [cx cz] [dx dz] oc od oa ob Hn.
  unfold oc, od, oa, ob, oq, toQ, along, same in *. cbn [fst snd] in *.
  set (A1 := inject_Z ax) in *. set (A2 := inject_Z az) in *.
  set (B1 := inject_Z bx) in *. set (B2 := inject_Z bz) in *.
  set (C1 := inject_Z cx) in *. set (C2 := inject_Z cz) in *.
  set (D1 := inject_Z dx) in *. set (D2 := inject_Z dz) in *. clearbody A1 A2 B1 B2 C1 C2 D1 D2.
  split; [|ring].
  split; field; intro Hz; apply Hn;
    match type of Hz with ?e == 0 =>
      first [transitivity e; [ring|exact Hz] | transitivity (- e); [ring|rewrite Hz; ring]] end.
Qed.

Lemma intersectProp_spec : forall a b c d, small a -> small b -> small c -> small d ->
  intersectProp a b c d = true <->
  (exists p, inside_segment a b p /\ inside_segment c d p) /\ ~ parallel a b c d.
Proof.
  intros a b c d Ha Hb Hc Hd. unfold intersectProp.
  destruct (left_orient a b c) as [L1 C1]; auto. destruct (left_orient a b d) as [L2 C2]; auto.
  destruct (left_orient c d a) as [L3 C3]; auto. destruct (left_orient c d b) as [L4 C4]; auto.
  rewrite L1, L2, L3, L4, C1, C2, C3, C4. clear L1 L2 L3 L4 C1 C2 C3 C4.
  pose proof (orient_sign a b c) as (Hc1 & Hc2 & Hc3). pose proof (orient_sign a b d) as (Hd1 & Hd2 & Hd3).
  pose proof (orient_sign c d a) as (Ha1 & Ha2 & Ha3). pose proof (orient_sign c d b) as (Hb1 & Hb2 & Hb3).
  pose proof (crossing_point a b c d) as Hcp. cbv zeta in Hcp.
  pose proof (fun t p => oq_along a b c d t p) as Al1. pose proof (fun t p => oq_along c d a b t p) as Al2.
  set (oc := oq (toQ a) (toQ b) (toQ c)) in *. set (od := oq (toQ a) (toQ b) (toQ d)) in *.
  set (oa := oq (toQ c) (toQ d) (toQ a)) in *. set (ob := oq (toQ c) (toQ d) (toQ b)) in *.
  assert (parallel a b c d <-> oa - ob == 0) as Hpar.
  { transitivity (orient c d a - orient c d b = 0)%Z.
    - unfold parallel, orient. destruct a, b, c, d. cbn [fst snd]. split; intros; lia.
    - rewrite inj_eq, inject_sub, !orient_oq. unfold oa, ob. reflexivity. }
  split.
  - intros H.
    destruct (Z.eqb_spec (orient a b c) 0) as [|N1]; [discriminate|].
    destruct (Z.eqb_spec (orient a b d) 0) as [|N2]; [discriminate|].
    destruct (Z.eqb_spec (orient c d a) 0) as [|N3]; [discriminate|].
    destruct (Z.eqb_spec (orient c d b) 0) as [|N4]; [discriminate|]. cbn [orb] in H.
    apply andb_true_iff in H. destruct H as [X1 X2].
    assert ((oc < 0 /\ 0 < od) \/ (0 < oc /\ od < 0)) as S1.
    { destruct (Z.ltb_spec (orient a b c) 0), (Z.ltb_spec (orient a b d) 0); try discriminate.
      - left. split; [apply Hc1|apply Hd3]; lia.
      - right. split; [apply Hc3|apply Hd1]; lia. }
    assert ((oa < 0 /\ 0 < ob) \/ (0 < oa /\ ob < 0)) as S2.
    { destruct (Z.ltb_spec (orient c d a) 0), (Z.ltb_spec (orient c d b) 0); try discriminate.
      - left. split; [apply Ha1|apply Hb3]; lia.
      - right. split; [apply Ha3|apply Hb1]; lia. }
    assert (~ oa - ob == 0) as Hn by (destruct S2; intro; lra).
    split; [|now rewrite Hpar].
    destruct (Hcp Hn) as [Hs He].
    exists (along a b (oa / (oa - ob))). split.
    + exists (oa / (oa - ob)). split; [|split; reflexivity].
      destruct S2 as [[? ?]|[? ?]].
      * setoid_replace (oa / (oa - ob)) with (- oa / (ob - oa)) by (field; split; intro; lra).
        split; [apply Qlt_shift_div_l|apply Qlt_shift_div_r]; lra.
      * split; [apply Qlt_shift_div_l|apply Qlt_shift_div_r]; lra.
    + exists (- oc / (oa - ob)). split; [|exact Hs].
      rewrite <- He. destruct S1 as [[? ?]|[? ?]].
      * split; [apply Qlt_shift_div_l|apply Qlt_shift_div_r]; lra.
      * setoid_replace (- oc / (od - oc)) with (oc / (oc - od)) by (field; split; intro; lra).
        split; [apply Qlt_shift_div_l|apply Qlt_shift_div_r]; lra.
  - intros [(p & (t & Ht & Hpt) & (s & Hs & Hps)) Hn]. rewrite Hpar in Hn.
    pose proof (Al1 s p Hps) as E1. pose proof (oq_self a b t p Hpt) as E2.
    pose proof (Al2 t p Hpt) as E3. pose proof (oq_self c d s p Hps) as E4.
    rewrite E2 in E1. rewrite E4 in E3. clear E2 E4 Al1 Al2.
    assert (~ oc - od == 0) as Hn'.
    { intro. apply Hn. destruct (Qeq_dec (oa - ob) 0) as [|Hne]; auto. destruct (Hcp Hne) as [_ He]. lra. }
    assert (~ oc == 0) as No by (intro Z0; apply Hn'; assert (s * od == 0) as Z1 by (rewrite Z0 in E1; lra);
      assert (od == 0) by (destruct (Q_dec od 0) as [[|]|]; auto; exfalso; nra); lra).
    assert (~ od == 0) as Nd by (intro Z0; apply Hn'; assert ((1 - s) * oc == 0) as Z1 by (rewrite Z0 in E1; lra);
      assert (oc == 0) by (destruct (Q_dec oc 0) as [[|]|]; auto; exfalso; nra); lra).
    assert (~ oa == 0) as Na by (intro Z0; apply Hn; assert (t * ob == 0) as Z1 by (rewrite Z0 in E3; lra);
      assert (ob == 0) by (destruct (Q_dec ob 0) as [[|]|]; auto; exfalso; nra); lra).
    assert (~ ob == 0) as Nb by (intro Z0; apply Hn; assert ((1 - t) * oa == 0) as Z1 by (rewrite Z0 in E3; lra);
      assert (oa == 0) by (destruct (Q_dec oa 0) as [[|]|]; auto; exfalso; nra); lra).
    destruct (opposite oc od s) as [[? ?]|[? ?]]; try lra; auto;
    destruct (opposite oa ob t) as [[? ?]|[? ?]]; try lra; auto.
    all: repeat match goal with
         | |- context [(?x =? 0)%Z] => destruct (Z.eqb_spec x 0) as [Heq|_]; [exfalso; tauto|]
         end; cbn [orb].
    all: repeat match goal with
         | |- context [(?x <? 0)%Z] => destruct (Z.ltb_spec x 0)
         end; auto; exfalso.
    all: repeat match goal with
         | H : (?x < 0)%Z, L : (?x < 0)%Z <-> _ |- _ => apply L in H
         end.
    all: try lra.
    all: match goal with
         | H : (0 <= ?z)%Z, L : (?z < 0)%Z <-> ?q < 0, K : ?q < 0 |- _ => apply L in K; lia
         end.
Qed.

Lemma on_segment_same : forall a b p q, on_segment a b p -> same p q -> on_segment a b q.
Proof.
  intros a b p q (t & Ht & Hs) Hpq. exists t. split; auto. eapply same_trans; [apply same_sym|]; eauto.
Qed.

(** Two segments on one line with a common point: one end of one lies on the other. *)
Lemma interval_overlap : forall a b c d p : Q,
  (a <= p <= b \/ b <= p <= a) -> (c <= p <= d \/ d <= p <= c) ->
  (a <= c <= b \/ b <= c <= a) \/ (a <= d <= b \/ b <= d <= a) \/
  (c <= a <= d \/ d <= a <= c) \/ (c <= b <= d \/ d <= b <= c).
Proof.
  intros a b c d p H1 H2.
  destruct (Qlt_le_dec a c), (Qlt_le_dec a d), (Qlt_le_dec b c), (Qlt_le_dec b d),
    (Qlt_le_dec c d); destruct H1 as [[? ?]|[? ?]], H2 as [[? ?]|[? ?]]; try (exfalso; lra);
    first [left; left; split; lra | left; right; split; lra
          | right; left; left; split; lra | right; left; right; split; lra
          | right; right; left; left; split; lra | right; right; left; right; split; lra
          | right; right; right; left; split; lra | right; right; right; right; split; lra].
Qed.

(** On the line through a and b, the points between a and b are those of the segment. *)
Lemma line_param : forall (a b : zpt) p t, a <> b -> same p (along a b t) ->
  (on_segment a b p <-> 0 <= t <= 1).
Proof.
  intros a b p t Hab Ht. split; [|intros; exists t; auto]. intros (t' & Ht' & Hs).
  assert (t == t') as Ett; [|rewrite Ett; exact Ht'].
  destruct (distinct_Q a b Hab) as [Hd|[He Hd]]; destruct Ht as [H1 H2], Hs as [H3 H4];
    unfold along, toQ in *; cbn [fst snd] in *.
  - apply (Qmult_inj_r _ _ (inject_Z (fst b) - inject_Z (fst a))); [intro; apply Hd; lra|]. lra.
  - apply (Qmult_inj_r _ _ (inject_Z (snd b) - inject_Z (snd a))); [intro; apply Hd; lra|]. lra.
Qed.

(** Position on the line through a and b, linear in the parameter of the line through c and d. *)
Lemma same_line : forall (a b c d : zpt) tc td p s,
  same (toQ c) (along a b tc) -> same (toQ d) (along a b td) -> same p (along c d s) ->
  same p (along a b (tc + s * (td - tc))).
Proof.
  intros [ax az] [bx bz] [cx cz] [dx dz] tc td [px pz] s [C1 C2] [D1 D2] [P1 P2].
  unfold same, along, toQ in *. cbn [fst snd] in *. rewrite P1, P2, C1, C2, D1, D2. split; ring.
Qed.

Lemma intersect_spec : forall a b c d, small a -> small b -> small c -> small d -> a <> b -> c <> d ->
  intersect a b c d = true <-> exists p, on_segment a b p /\ on_segment c d p.
Proof.
  intros a b c d Ha Hb Hc Hd Hab Hcd. unfold intersect.
  rewrite !orb_true_iff, intersectProp_spec, !between_spec by assumption.
  assert (forall x y : zpt, on_segment x y (toQ x)) as Hl.
  { intros [x1 x2] [y1 y2]. exists 0. split; [lra|]. unfold same, along, toQ. cbn [fst snd]. split; ring. }
  assert (forall x y : zpt, on_segment x y (toQ y)) as Hr.
  { intros [x1 x2] [y1 y2]. exists 1. split; [lra|]. unfold same, along, toQ. cbn [fst snd]. split; ring. }
  split.
  - intros [[(p & (t & Ht & Hp) & (s & Hs & Hq)) _]|H].
    { exists p. split; [exists t|exists s]; split; auto; lra. }
    destruct H as [[[H|H]|H]|H]; [exists (toQ c)|exists (toQ d)|exists (toQ a)|exists (toQ b)]; auto.
  - intros (p & (t & Ht & Hpt) & (s & Hs & Hps)).
    pose proof (oq_along a b c d s p Hps) as E1. rewrite (oq_self a b t p Hpt) in E1.
    pose proof (oq_along c d a b t p Hpt) as E3. rewrite (oq_self c d s p Hps) in E3.
    assert (forall x y z : zpt, small x -> small y -> small z -> x <> y ->
      {oq (toQ x) (toQ y) (toQ z) == 0} + {~ oq (toQ x) (toQ y) (toQ z) == 0}) as Dec.
    { intros. apply Qeq_dec. }
    assert (forall x, same x x) as Hrefl by (intros; split; reflexivity).
    destruct (Dec a b c) as [Zc|Nc]; auto; destruct (Dec a b d) as [Zd|Nd]; auto.
    + (* all on one line *)
      destruct (collinear_along a b (toQ c) Hab Zc) as [tc Htc].
      destruct (collinear_along a b (toQ d) Hab Zd) as [td Htd].
      pose proof (same_line a b c d tc td p s Htc Htd Hps) as Hp'.
      pose proof (proj1 (line_param a b p _ Hab Hp') (ex_intro _ t (conj Ht Hpt))) as Hu.
      assert (~ tc == td) as Hne.
      { intro E. apply Hcd. destruct Htc as [C1 C2], Htd as [D1 D2].
        destruct c as [cx cz], d as [dx dz]. unfold toQ, along in *. cbn [fst snd] in *.
        rewrite <- E in D1, D2.
        rewrite <- D1 in C1. rewrite <- D2 in C2. apply inj_eq in C1, C2. congruence. }
      pose proof (proj1 (unit_between tc td s Hne) Hs) as Hcd'.
      destruct (interval_overlap 0 1 tc td (tc + s * (td - tc)) (or_introl Hu) Hcd') as [H|[H|[H|H]]].
      * right. left. left. left. exists tc. split; auto. lra.
      * right. left. left. right. exists td. split; auto. lra.
      * right. left. right.
        exists (- tc / (td - tc)).
        assert (~ td - tc == 0) as Hz by (intro; apply Hne; lra).
        assert (0 == tc + (- tc / (td - tc)) * (td - tc)) as E0 by (field; assumption).
        split.
        { apply (unit_between tc td _ Hne). rewrite <- E0. exact H. }
        apply (same_trans _ (along a b 0)).
        { destruct a, b. unfold same, along, toQ. cbn [fst snd]. split; ring. }
        apply same_sym. apply (same_trans _ (along a b (tc + - tc / (td - tc) * (td - tc)))).
        { apply (same_line a b c d); auto. }
        unfold same, along. cbn [fst snd]. rewrite <- E0. split; ring.
      * right. right.
        exists ((1 - tc) / (td - tc)).
        assert (~ td - tc == 0) as Hz by (intro; apply Hne; lra).
        assert (1 == tc + ((1 - tc) / (td - tc)) * (td - tc)) as E0 by (field; assumption).
        split.
        { apply (unit_between tc td _ Hne). rewrite <- E0. exact H. }
        apply (same_trans _ (along a b 1)).
        { destruct a, b. unfold same, along, toQ. cbn [fst snd]. split; ring. }
        apply same_sym. apply (same_trans _ (along a b (tc + (1 - tc) / (td - tc) * (td - tc)))).
        { apply (same_line a b c d); auto. }
        unfold same, along. cbn [fst snd]. rewrite <- E0. split; ring.
    + (* only c on the line of a, b: the common point is c *)
      right. left. left. left. rewrite Zc in E1.
      assert (s == 0) as Es.
      { apply (Qmult_inj_r _ _ (oq (toQ a) (toQ b) (toQ d))); auto. lra. }
      exists t. split; auto. apply same_sym. apply (same_trans _ p); [apply same_sym; auto|].
      apply (same_trans _ _ _ Hps). destruct c, d. unfold same, along, toQ. cbn [fst snd]. rewrite Es. split; ring.
    + right. left. left. right. rewrite Zd in E1.
      assert (s == 1) as Es.
      { apply (Qmult_inj_r _ _ (oq (toQ a) (toQ b) (toQ c))); auto. lra. }
      exists t. split; auto. apply same_sym. apply (same_trans _ p); [apply same_sym; auto|].
      apply (same_trans _ _ _ Hps). destruct c, d. unfold same, along, toQ. cbn [fst snd]. rewrite Es. split; ring.
    + destruct (Dec c d a) as [Za|Na]; auto; [|destruct (Dec c d b) as [Zb|Nb]; auto].
      * (* a on the line of c, d *)
        right. left. right. destruct (Dec c d b) as [Zb|Nb]; auto.
        { exfalso. pose proof (crossing_point c d a b) as Hx. cbv zeta in Hx.
          apply Nc. destruct (Qeq_dec (oq (toQ a) (toQ b) (toQ c) - oq (toQ a) (toQ b) (toQ d)) 0) as [Ez|Ez].
          - assert (oq (toQ a) (toQ b) (toQ d) - oq (toQ a) (toQ b) (toQ c) == 0) as Ez' by lra.
            rewrite Ez' in E1. lra.
          - destruct (Hx Ez) as [_ He]. lra. }
        rewrite Za in E3.
        assert (t == 0) as Et.
        { apply (Qmult_inj_r _ _ (oq (toQ c) (toQ d) (toQ b))); auto. lra. }
        exists s. split; auto. apply same_sym. apply (same_trans _ p); [apply same_sym; auto|].
        apply (same_trans _ _ _ Hpt). destruct a, b. unfold same, along, toQ. cbn [fst snd]. rewrite Et. split; ring.
      * right. right. rewrite Zb in E3.
        assert (t == 1) as Et.
        { apply (Qmult_inj_r _ _ (oq (toQ c) (toQ d) (toQ a))); auto. lra. }
        exists s. split; auto. apply same_sym. apply (same_trans _ p); [apply same_sym; auto|].
        apply (same_trans _ _ _ Hpt). destruct a, b. unfold same, along, toQ. cbn [fst snd]. rewrite Et. split; ring.
      * left. split.
        { exists p. split; [exists t|exists s]; (split; [|assumption]).
          - destruct (opposite _ _ t Ht (Qeq_sym _ _ E3) Na Nb); split; nra.
          - destruct (opposite _ _ s Hs (Qeq_sym _ _ E1) Nc Nd); split; nra. }
        intro Hp. assert (oq (toQ a) (toQ b) (toQ c) == oq (toQ a) (toQ b) (toQ d)) as E.
        { rewrite <- !orient_oq, <- inj_eq. revert Hp. unfold parallel, orient. destruct a, b, c, d. cbn [fst snd]. lia. }
        rewrite E in E1. lra.
Qed.
