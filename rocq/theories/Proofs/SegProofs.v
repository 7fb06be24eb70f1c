(** Closest point of a segment (C31), outcode of a point (C34), segment against polygon (C35). *)
From Coq Require Import ZArith QArith List Bool Lia Lqa Qfield Setoid.
From Verif.Base Require Import Res GoNum F32 Num.
From Verif.Model Require Import Geom SegDist.
From Verif.Spec Require Import SegSpec.
Import ListNotations.
Open Scope Q_scope.

Lemma Qltb_lt : forall a b, Qltb a b = true <-> a < b.
Proof.
  intros. unfold Qltb. destruct (Qle_bool b a) eqn:E; cbn [negb].
  - apply Qle_bool_iff in E. split; [discriminate|]. intros. exfalso. lra.
  - split; [|auto]. intros _. apply Qnot_le_lt. intro H. apply Qle_bool_iff in H. congruence.
Qed.
Lemma Qltb_ge : forall a b, Qltb a b = false <-> b <= a.
Proof.
  intros. unfold Qltb. destruct (Qle_bool b a) eqn:E; cbn [negb].
  - apply Qle_bool_iff in E. tauto.
  - split; [discriminate|]. intros H. apply Qle_bool_iff in H. congruence.
Qed.

Lemma sq_ge0 : forall x : Q, 0 <= x * x.
Proof.
  intros x. destruct (Qlt_le_dec x 0).
  - setoid_replace (x * x) with ((- x) * (- x)) by ring. apply Qmult_le_0_compat; lra.
  - apply Qmult_le_0_compat; lra.
Qed.

(** The parameter computed by all the variants. *)
Definition clampt (num den : Q) : Q :=
  let t := if Qltb 0 den then num / den else num in
  if Qltb t 0 then 0 else if Qltb 1 t then 1 else t.

Lemma clampt_range : forall n d, 0 <= clampt n d <= 1.
Proof.
  intros n d. unfold clampt. set (t := if Qltb 0 d then n / d else n).
  destruct (Qltb t 0) eqn:E0; [lra|]. apply Qltb_ge in E0.
  destruct (Qltb 1 t) eqn:E1; [lra|]. apply Qltb_ge in E1. lra.
Qed.

(** The quadratic d*s^2 - 2*n*s is least at the clamped parameter, when d >= 0 and d = 0
    only together with n = 0. *)
Lemma clampt_min : forall n d s, 0 <= d -> (d == 0 -> n == 0) -> 0 <= s <= 1 ->
  let t := clampt n d in d * t * t - 2 * n * t <= d * s * s - 2 * n * s.
Proof.
  intros n d s Hd Hz Hs t. unfold t, clampt.
  destruct (Qltb 0 d) eqn:Ed.
  - apply Qltb_lt in Ed. set (u := n / d).
    assert (n == u * d) as En by (unfold u; field; lra). clearbody u.
    rewrite En. destruct (Qltb u 0) eqn:E0.
    + apply Qltb_lt in E0. assert (0 <= d * s * s - 2 * (u * d) * s); [|lra].
      setoid_replace (d * s * s - 2 * (u * d) * s) with (d * (s * (s - 2 * u))) by ring.
      apply Qmult_le_0_compat; [lra|]. apply Qmult_le_0_compat; lra.
    + apply Qltb_ge in E0. destruct (Qltb 1 u) eqn:E1.
      * apply Qltb_lt in E1.
        assert (0 <= (d * s * s - 2 * (u * d) * s) - (d * 1 * 1 - 2 * (u * d) * 1)); [|lra].
        setoid_replace ((d * s * s - 2 * (u * d) * s) - (d * 1 * 1 - 2 * (u * d) * 1))
          with (d * ((1 - s) * (2 * u - 1 - s))) by ring.
        apply Qmult_le_0_compat; [lra|]. apply Qmult_le_0_compat; lra.
      * assert (0 <= (d * s * s - 2 * (u * d) * s) - (d * u * u - 2 * (u * d) * u)); [|lra].
        setoid_replace ((d * s * s - 2 * (u * d) * s) - (d * u * u - 2 * (u * d) * u))
          with (d * ((s - u) * (s - u))) by ring.
        apply Qmult_le_0_compat; [lra|]. apply sq_ge0.
  - apply Qltb_ge in Ed. assert (d == 0) as E by lra. specialize (Hz E).
    match goal with |- d * ?r * _ - _ <= _ => generalize r end. intros r. rewrite E, Hz. lra.
Qed.

Lemma closest_2d : forall (a p q : qvec),
  closest dist2 a p q (fst (distancePtSegSqr2D numQ a p q)) (snd (distancePtSegSqr2D numQ a p q)).
Proof.
  intros [[ax ay] az] [[px py] pz] [[qx qy] qz].
  unfold distancePtSegSqr2D, numQ. cbn [vx vz nadd nsub nmul ndiv nlt nle nZ fst snd].
  change (inject_Z 0) with 0. change (inject_Z 1) with 1.
  set (D1 := qx - px). set (D2 := qz - pz). set (E1 := ax - px). set (E2 := az - pz).
  set (num := D1 * E1 + D2 * E2). set (den := D1 * D1 + D2 * D2).
  change (if Qltb (if Qltb 0 den then num / den else num) 0 then 0
          else if Qltb 1 (if Qltb 0 den then num / den else num) then 1
          else if Qltb 0 den then num / den else num) with (clampt num den).
  set (t := clampt num den).
  split; [apply clampt_range|]. unfold dist2, point_at, X, Zc. cbn [fst snd]. fold D1 D2.
  split; [ring|]. intros s Hs.
  assert (0 <= D1 * D1) as P1 by apply sq_ge0. assert (0 <= D2 * D2) as P2 by apply sq_ge0.
  assert (0 <= den) as Hd by (unfold den; lra).
  assert (den == 0 -> num == 0) as Hz.
  { intros H. unfold den in H. assert (D1 * D1 == 0) as Z1 by lra. assert (D2 * D2 == 0) as Z2 by lra.
    assert (D1 == 0) as Z3 by (apply Qmult_integral in Z1; tauto).
    assert (D2 == 0) as Z4 by (apply Qmult_integral in Z2; tauto).
    unfold num. rewrite Z3, Z4. ring. }
  pose proof (clampt_min num den s Hd Hz Hs) as H. cbv zeta in H. fold t in H.
  assert (forall r, (ax - (px + r * D1)) * (ax - (px + r * D1)) + (az - (pz + r * D2)) * (az - (pz + r * D2)) ==
    E1 * E1 + E2 * E2 + (den * r * r - 2 * num * r)) as F by (intros; unfold den, num, E1, E2; ring).
  rewrite F. setoid_replace ((px + t * D1 - ax) * (px + t * D1 - ax) + (pz + t * D2 - az) * (pz + t * D2 - az))
    with (E1 * E1 + E2 * E2 + (den * t * t - 2 * num * t)) by (unfold den, num, E1, E2; ring).
  lra.
Qed.

Lemma closest_2d' : forall (a p q : qvec), exists t, closest dist2 a p q (distancePtSeg2d numQ a p q) t.
Proof.
  intros a p q. exists (snd (distancePtSegSqr2D numQ a p q)).
  exact (closest_2d a p q).
Qed.

Lemma closest_3d : forall (a p q : qvec), exists t, closest dist3 a p q (distancePtSeg3Pt numQ a p q) t.
Proof.
  intros [[ax ay] az] [[px py] pz] [[qx qy] qz].
  unfold distancePtSeg3Pt, numQ. cbn [vx vy vz nadd nsub nmul ndiv nlt nle nZ fst snd].
  change (inject_Z 0) with 0. change (inject_Z 1) with 1.
  set (D1 := qx - px). set (D2 := qz - pz). set (D3 := qy - py).
  set (E1 := ax - px). set (E2 := az - pz). set (E3 := ay - py).
  set (num := D1 * E1 + D3 * E3 + D2 * E2). set (den := D1 * D1 + D3 * D3 + D2 * D2).
  change (if Qltb (if Qltb 0 den then num / den else num) 0 then 0
          else if Qltb 1 (if Qltb 0 den then num / den else num) then 1
          else if Qltb 0 den then num / den else num) with (clampt num den).
  set (t := clampt num den). exists t.
  split; [apply clampt_range|]. unfold dist3, point_at, X, Y, Zc. cbn [fst snd]. fold D1 D2 D3.
  split; [ring|]. intros s Hs.
  assert (0 <= D1 * D1) as P1 by apply sq_ge0. assert (0 <= D2 * D2) as P2 by apply sq_ge0. assert (0 <= D3 * D3) as P3 by apply sq_ge0.
  assert (0 <= den) as Hd by (unfold den; lra).
  assert (den == 0 -> num == 0) as Hz.
  { intros H. unfold den in H. assert (D1 * D1 == 0) as Z1 by lra. assert (D2 * D2 == 0) as Z2 by lra.
    assert (D3 * D3 == 0) as Z5 by lra.
    assert (D1 == 0) as Z3 by (apply Qmult_integral in Z1; tauto).
    assert (D2 == 0) as Z4 by (apply Qmult_integral in Z2; tauto).
    assert (D3 == 0) as Z6 by (apply Qmult_integral in Z5; tauto).
    unfold num. rewrite Z3, Z4, Z6. ring. }
  pose proof (clampt_min num den s Hd Hz Hs) as H. cbv zeta in H. fold t in H.
  setoid_replace ((ax - (px + s * D1)) * (ax - (px + s * D1)) + (ay - (py + s * D3)) * (ay - (py + s * D3)) +
    (az - (pz + s * D2)) * (az - (pz + s * D2))) with
    (E1 * E1 + E2 * E2 + E3 * E3 + (den * s * s - 2 * num * s)) by (unfold den, num, E1, E2, E3; ring).
  setoid_replace ((px + t * D1 - ax) * (px + t * D1 - ax) + (py + t * D3 - ay) * (py + t * D3 - ay) +
    (pz + t * D2 - az) * (pz + t * D2 - az))
    with (E1 * E1 + E2 * E2 + E3 * E3 + (den * t * t - 2 * num * t)) by (unfold den, num, E1, E2, E3; ring).
  lra.
Qed.

(** The integer variant is the two-dimensional one at the integer points. *)
Definition zvec (x z : Z) : qvec := (inject_Z x, 0, inject_Z z).
Lemma inject_diff : forall a b, inject_Z (a - b) == inject_Z a - inject_Z b.
Proof. intros. unfold Z.sub. rewrite inject_Z_plus, inject_Z_opp. reflexivity. Qed.

Lemma clampt_comp : forall n n' d d', n == n' -> d == d' -> clampt n d == clampt n' d'.
Proof.
  intros n n' d d' Hn Hd. unfold clampt.
  assert (forall a a' b b', a == a' -> b == b' -> Qltb a b = Qltb a' b') as C.
  { intros a a' b b' Ha Hb. destruct (Qltb a b) eqn:E1, (Qltb a' b') eqn:E2; auto.
    - apply Qltb_lt in E1. apply Qltb_ge in E2. exfalso. lra.
    - apply Qltb_ge in E1. apply Qltb_lt in E2. exfalso. lra. }
  rewrite (C 0 0 d d') by (auto; reflexivity).
  set (t := if Qltb 0 d' then n / d else n). set (t' := if Qltb 0 d' then n' / d' else n').
  assert (t == t') as Et.
  { unfold t, t'. destruct (Qltb 0 d'); [|exact Hn]. rewrite Hn, Hd. reflexivity. }
  rewrite (C t t' 0 0), (C 1 1 t t') by (auto; reflexivity).
  destruct (Qltb t' 0); [reflexivity|]. destruct (Qltb 1 t'); [reflexivity|exact Et].
Qed.

Lemma closest_int : forall x z px pz qx qz,
  is_i32 (qx - px) -> is_i32 (qz - pz) -> is_i32 (x - px) -> is_i32 (z - pz) ->
  exists t, closest dist2 (zvec x z) (zvec px pz) (zvec qx qz) (distancePtSeg numQ x z px pz qx qz) t.
Proof.
  intros x z px pz qx qz H1 H2 H3 H4.
  destruct (closest_2d' (zvec x z) (zvec px pz) (zvec qx qz)) as (t & Ht & Hd & Hm). exists t.
  assert (distancePtSeg numQ x z px pz qx qz ==
          distancePtSeg2d numQ (zvec x z) (zvec px pz) (zvec qx qz)) as E.
  { unfold distancePtSeg, distancePtSeg2d, zvec, numQ.
    cbn [vx vz nadd nsub nmul ndiv nlt nle nZ fst snd]. rewrite !i32_id by assumption.
    change (inject_Z 0) with 0. change (inject_Z 1) with 1.
    fold (clampt (inject_Z (qx - px) * inject_Z (x - px) + inject_Z (qz - pz) * inject_Z (z - pz))
                 (inject_Z (qx - px) * inject_Z (qx - px) + inject_Z (qz - pz) * inject_Z (qz - pz))).
    fold (clampt ((inject_Z qx - inject_Z px) * (inject_Z x - inject_Z px) + (inject_Z qz - inject_Z pz) * (inject_Z z - inject_Z pz))
                 ((inject_Z qx - inject_Z px) * (inject_Z qx - inject_Z px) + (inject_Z qz - inject_Z pz) * (inject_Z qz - inject_Z pz))).
    match goal with |- context [clampt ?n ?d] =>
      match goal with |- context [clampt ?n' ?d'] =>
        lazymatch n with n' => fail | _ =>
        assert (clampt n d == clampt n' d') as F by
          (apply clampt_comp; rewrite !inject_diff; reflexivity); rewrite F end end end.
    rewrite !inject_diff. reflexivity. }
  split; [exact Ht|]. split; [now rewrite E|]. intros s Hs. rewrite E. auto.
Qed.

(** ** Segment against polygon *)

Lemma edge_order_edges : forall (vs : list (vec Q)) u v,
  (exists j, In (j, (u, v)) (edge_order vs)) <-> In (u, v) (poly_edges vs).
Proof.
  intros vs u v. destruct vs as [|v0 tl]; cbn [edge_order poly_edges]; [firstorder|].
  assert (forall (l : list (vec Q)) x, combine (x :: l) (l ++ [v0]) = combine (x :: l) l ++ [(last (x :: l) v0, v0)]) as C.
  { induction l as [|y l IH]; intros x; [reflexivity|].
    change (combine (x :: y :: l) ((y :: l) ++ [v0])) with ((x, y) :: combine (y :: l) (l ++ [v0])).
    rewrite IH. reflexivity. }
  rewrite C.
  assert (forall (l : list (vec Q * vec Q)) (k : list Z), length k = length l ->
    forall e, (exists j, In (j, e) (combine k l)) <-> In e l) as D.
  { induction l as [|e l IH]; intros [|j k] Hl e'; cbn [combine length] in *; try lia; [firstorder|].
    split.
    - intros (j' & [H|H]); [inversion H; subst; now left|]. right. apply (IH k); [lia|eauto].
    - intros [->|H]; [exists j; now left|]. apply (IH k) in H; [|lia]. destruct H as (j' & H). exists j'. now right. }
  assert (length (map Z.of_nat (seq 0 (length (v0 :: tl) - 1))) = length (combine (v0 :: tl) tl)) as HL.
  { rewrite map_length, seq_length, combine_length. cbn [length]. lia. }
  rewrite in_app_iff. cbn [List.tl]. split.
  - intros (j & [H|H]).
    + inversion H; subst. right. now left.
    + left. apply (D _ _ HL). eauto.
  - intros [H|[H|[]]].
    + apply (D _ _ HL) in H. destruct H as (j & H). exists j. now right.
    + inversion H; subst. eexists. now left.
Qed.

(** Parameters in [0,1] at which the point is on the inner side of all the edges of [l]. *)
Definition good (p0 p1 : qvec) (l : list (Z * (qvec * qvec))) (t : Q) : Prop :=
  0 <= t <= 1 /\ forall j u v, In (j, (u, v)) l -> 0 <= side u v (point_at p0 p1 t).

Definition sp_inv (p0 p1 : qvec) (l : list (Z * (qvec * qvec))) (st : SegPoly (T := Q)) : Prop :=
  spMin st <= spMax st /\ (forall t, good p0 p1 l t <-> spMin st <= t <= spMax st) /\
  ((spSegMin st = -1)%Z /\ spMin st == 0 \/
   exists u v, In (spSegMin st, (u, v)) l /\ side u v (point_at p0 p1 (spMin st)) == 0) /\
  ((spSegMax st = -1)%Z /\ spMax st == 1 \/
   exists u v, In (spSegMax st, (u, v)) l /\ side u v (point_at p0 p1 (spMax st)) == 0).

Lemma side_at : forall p0 p1 u v t,
  side u v (point_at p0 p1 t) == side u v p0 - t * cross p0 p1 u v.
Proof.
  intros [[px py] pz] [[qx qy] qz] [[ux uy] uz] [[wx wy] wz] t.
  unfold side, cross, point_at, X, Y, Zc. cbn [fst snd]. ring.
Qed.

Lemma abs_small : forall d, nabs numQ d = Qabs' d.
Proof. reflexivity. Qed.

Definition okcross (c : Q) : Prop := c == 0 \/ 1 # 100000000 <= c \/ c <= - (1 # 100000000).

Lemma near_test : forall d, okcross d -> nlt numQ (nabs numQ d) (nratio numQ 1 100000000) = true <-> d == 0.
Proof.
  intros d Hd. cbn [nlt nabs nratio numQ]. unfold Qabs'.
  assert (inject_Z 1 / inject_Z 100000000 == 1 # 100000000) as E by reflexivity.
  rewrite Qltb_lt, E. destruct (Qltb d 0) eqn:E0.
  - apply Qltb_lt in E0. destruct Hd as [Hd|[Hd|Hd]]; split; intros; lra.
  - apply Qltb_ge in E0. destruct Hd as [Hd|[Hd|Hd]]; split; intros; lra.
Qed.

Lemma good_snoc : forall p0 p1 l j u v t,
  good p0 p1 (l ++ [(j, (u, v))]) t <-> good p0 p1 l t /\ 0 <= side u v (point_at p0 p1 t).
Proof.
  intros. unfold good. split.
  - intros [Ht H]. split; [split; [exact Ht|]|].
    + intros. eapply H. apply in_app_iff. eauto.
    + apply (H j). apply in_app_iff. right. now left.
  - intros [[Ht H] Hs]. split; [exact Ht|]. intros j' u' v' Hi. apply in_app_iff in Hi.
    destruct Hi as [Hi|[Hi|[]]]; [eauto|]. inversion Hi; subst. exact Hs.
Qed.

Lemma step_inv : forall p0 p1 l st j u v, sp_inv p0 p1 l st -> okcross (cross p0 p1 u v) ->
  match segPoly_step numQ p0 (vsub numQ p1 p0) st j u v with
  | inl _ => forall t, ~ good p0 p1 (l ++ [(j, (u, v))]) t
  | inr st' => sp_inv p0 p1 (l ++ [(j, (u, v))]) st'
  end.
Proof.
  intros p0 p1 l st j u v (Hle & Hg & Hmin & Hmax) Hok. unfold segPoly_step.
  assert (vperp2D numQ (vsub numQ v u) (vsub numQ p0 u) == side u v p0) as En.
  { destruct p0 as [[? ?] ?], u as [[? ?] ?], v as [[? ?] ?].
    unfold vperp2D, vsub, vx, vz, side, X, Zc. cbn [nadd nsub nmul numQ fst snd]. reflexivity. }
  assert (vperp2D numQ (vsub numQ p1 p0) (vsub numQ v u) == cross p0 p1 u v) as Ed.
  { destruct p0 as [[? ?] ?], p1 as [[? ?] ?], u as [[? ?] ?], v as [[? ?] ?].
    unfold vperp2D, vsub, vx, vz, cross, X, Zc. cbn [nadd nsub nmul numQ fst snd]. reflexivity. }
  set (n := vperp2D numQ (vsub numQ v u) (vsub numQ p0 u)) in *.
  set (d := vperp2D numQ (vsub numQ p1 p0) (vsub numQ v u)) in *. clearbody n d.
  assert (okcross d) as Hok' by (unfold okcross in *; rewrite Ed; exact Hok).
  assert (forall t, side u v (point_at p0 p1 t) == n - t * d) as Hs.
  { intros t. rewrite side_at, En, Ed. reflexivity. }
  clear En Ed Hok.
  assert (forall st' : SegPoly (T := Q), (forall k, In k l -> In k (l ++ [(j, (u, v))])) ) as Hin by (intros; apply in_app_iff; auto).
  specialize (Hin st).
  assert (forall sg x, ((sg = -1)%Z /\ x == 0 \/ exists u0 v0, In (sg, (u0, v0)) l /\ side u0 v0 (point_at p0 p1 x) == 0) ->
    ((sg = -1)%Z /\ x == 0 \/ exists u0 v0, In (sg, (u0, v0)) (l ++ [(j, (u, v))]) /\ side u0 v0 (point_at p0 p1 x) == 0)) as W0.
  { intros sg x [H|(u0 & v0 & H1 & H2)]; [now left|right; eauto 6]. }
  assert (forall sg x, ((sg = -1)%Z /\ x == 1 \/ exists u0 v0, In (sg, (u0, v0)) l /\ side u0 v0 (point_at p0 p1 x) == 0) ->
    ((sg = -1)%Z /\ x == 1 \/ exists u0 v0, In (sg, (u0, v0)) (l ++ [(j, (u, v))]) /\ side u0 v0 (point_at p0 p1 x) == 0)) as W1.
  { intros sg x [H|(u0 & v0 & H1 & H2)]; [now left|right; eauto 6]. }
  destruct (nlt numQ (nabs numQ d) (nratio numQ 1 100000000)) eqn:Enear.
  - apply near_test in Enear; [|exact Hok'].
    cbn [nlt numQ nZ]. change (inject_Z 0) with 0.
    destruct (Qltb n 0) eqn:En0.
    + apply Qltb_lt in En0. intros t Ht. apply good_snoc in Ht. destruct Ht as [_ Ht].
      rewrite Hs, Enear in Ht. lra.
    + apply Qltb_ge in En0. split; [exact Hle|]. split; [|split; auto].
      intros t. rewrite good_snoc, Hg, Hs, Enear. split; [tauto|]. intros H. split; [exact H|lra].
  - assert (~ d == 0) as Hd by (intro H; apply near_test in H; [congruence|exact Hok']).
    cbn [nlt numQ nZ ndiv]. change (inject_Z 0) with 0.
    set (t0 := n / d). assert (n == t0 * d) as En by (unfold t0; field; exact Hd). clearbody t0.
    assert (side u v (point_at p0 p1 t0) == 0) as Hs0 by (rewrite Hs, En; ring).
    destruct (Qltb d 0) eqn:Ed0.
    + apply Qltb_lt in Ed0.
      assert (forall t, 0 <= side u v (point_at p0 p1 t) <-> t0 <= t) as Hside.
      { intros t. rewrite Hs, En. split; intros; nra. }
      destruct (Qltb (spMin st) t0) eqn:E1.
      * apply Qltb_lt in E1. cbn [spMin spMax spSegMin spSegMax].
        destruct (Qltb (spMax st) t0) eqn:E2.
        { apply Qltb_lt in E2. intros t Ht. rewrite good_snoc, Hg, Hside in Ht. lra. }
        apply Qltb_ge in E2. split; [exact E2|]. cbn [spMin spMax spSegMin spSegMax]. split; [|split; auto].
        -- intros t. rewrite good_snoc, Hg, Hside. split; intros; lra.
        -- right. exists u, v. split; [apply in_app_iff; right; now left|exact Hs0].
      * apply Qltb_ge in E1. split; [exact Hle|]. split; [|split; auto].
        intros t. rewrite good_snoc, Hg, Hside. split; intros; lra.
    + apply Qltb_ge in Ed0.
      assert (0 < d) as Hpos by (destruct (Q_dec d 0) as [[?|?]|?]; [lra|lra|contradiction]).
      assert (forall t, 0 <= side u v (point_at p0 p1 t) <-> t <= t0) as Hside.
      { intros t. rewrite Hs, En. split; intros; nra. }
      destruct (Qltb t0 (spMax st)) eqn:E1.
      * apply Qltb_lt in E1. cbn [spMin spMax spSegMin spSegMax].
        destruct (Qltb t0 (spMin st)) eqn:E2.
        { apply Qltb_lt in E2. intros t Ht. rewrite good_snoc, Hg, Hside in Ht. lra. }
        apply Qltb_ge in E2. split; [exact E2|]. cbn [spMin spMax spSegMin spSegMax]. split; [|split; auto].
        -- intros t. rewrite good_snoc, Hg, Hside. split; intros; lra.
        -- right. exists u, v. split; [apply in_app_iff; right; now left|exact Hs0].
      * apply Qltb_ge in E1. split; [exact Hle|]. split; [|split; auto].
        intros t. rewrite good_snoc, Hg, Hside. split; intros; lra.
Qed.

Lemma loop_inv : forall p0 p1 l' l st, sp_inv p0 p1 l st ->
  (forall j u v, In (j, (u, v)) l' -> okcross (cross p0 p1 u v)) ->
  match segPoly_loop numQ p0 (vsub numQ p1 p0) st l' with
  | (st', true) => sp_inv p0 p1 (l ++ l') st'
  | (_, false) => forall t, ~ good p0 p1 (l ++ l') t
  end.
Proof.
  intros p0 p1 l'. induction l' as [|[j [u v]] l' IH]; intros l st Hi Hc; cbn [segPoly_loop].
  - now rewrite app_nil_r.
  - pose proof (step_inv p0 p1 l st j u v Hi (Hc j u v (or_introl eq_refl))) as Hst.
    destruct (segPoly_step numQ p0 (vsub numQ p1 p0) st j u v) as [st'|st'].
    + intros t [Ht Hg]. apply (Hst t). split; [exact Ht|]. intros j' u' v' Hin.
      apply (Hg j'). apply in_app_iff in Hin. apply in_app_iff.
      destruct Hin as [Hin|[Hin|[]]]; [now left|]. inversion Hin; subst. right. now left.
    + specialize (IH (l ++ [(j, (u, v))]) st' Hst).
      rewrite <- app_assoc in IH. cbn [app] in IH. apply IH. intros. eapply Hc. right. eauto.
Qed.

Lemma segPoly_spec : forall (p0 p1 : qvec) (vs : list qvec), not_nearly_parallel p0 p1 vs ->
  let '(st, hit) := IntersectSegmentPoly2D numQ p0 p1 vs in
  (hit = true <-> exists t, 0 <= t <= 1 /\ inside vs (point_at p0 p1 t)) /\
  (hit = true ->
    (forall t, (0 <= t <= 1 /\ inside vs (point_at p0 p1 t)) <-> spMin st <= t <= spMax st) /\
    ((spSegMin st = -1)%Z /\ spMin st == 0 \/
     exists u v, In (spSegMin st, (u, v)) (edge_order vs) /\ side u v (point_at p0 p1 (spMin st)) == 0) /\
    ((spSegMax st = -1)%Z /\ spMax st == 1 \/
     exists u v, In (spSegMax st, (u, v)) (edge_order vs) /\ side u v (point_at p0 p1 (spMax st)) == 0)).
Proof.
  intros p0 p1 vs Hnp. unfold IntersectSegmentPoly2D.
  pose proof (loop_inv p0 p1 (edge_order vs) [] (mkSP (nZ numQ 0) (nZ numQ 1) (-1) (-1))) as H.
  assert (forall t, (0 <= t <= 1 /\ inside vs (point_at p0 p1 t)) <-> good p0 p1 (edge_order vs) t) as Hgood.
  { intros t. unfold good, inside. split; intros [Ht Hi]; split; auto.
    - intros j u v Hin. apply Hi. apply edge_order_edges. eauto.
    - intros u v Hin. apply edge_order_edges in Hin. destruct Hin as (j & Hin). eapply Hi; eauto. }
  destruct (segPoly_loop numQ p0 (vsub numQ p1 p0) (mkSP (nZ numQ 0) (nZ numQ 1) (-1) (-1)) (edge_order vs)) as [st hit].
  cbn [app] in H.
  assert (sp_inv p0 p1 [] (mkSP (nZ numQ 0) (nZ numQ 1) (-1) (-1))) as H0.
  { unfold sp_inv. cbn [spMin spMax spSegMin spSegMax nZ numQ]. change (inject_Z 0) with 0. change (inject_Z 1) with 1.
    split; [lra|]. split; [|split; left; split; reflexivity].
    intros t. unfold good. split; [tauto|]. intros Ht. split; [exact Ht|]. intros j u v []. }
  specialize (H H0). destruct hit.
  - destruct H as (Hle & Hg & Hm & HM).
    { intros j u v Hin. apply Hnp. apply edge_order_edges. eauto. }
    split.
    + split; [|auto]. intros _. exists (spMin st). apply Hgood, Hg. lra.
    + intros _. split; [|split; assumption]. intros t. now rewrite Hgood.
  - split; [|discriminate]. split; [discriminate|]. intros (t & Ht). apply Hgood in Ht. exfalso.
    refine (H _ t Ht). intros j u v Hin. apply Hnp. apply edge_order_edges. eauto.
Qed.
