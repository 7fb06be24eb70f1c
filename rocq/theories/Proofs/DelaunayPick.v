(** The choice of the third corner in completeFacet. *)
From Coq Require Import ZArith List Bool Lia.
From Verif.Base Require Import Res GoNum F32 Num Grid.
From Verif.Model Require Import Geom Delaunay.
From Verif.Spec Require Import DelaunaySpec.
From Verif.Proofs Require Import HullProofs.
Import ListNotations.
Open Scope Z_scope.

Definition pvec (pts : list f32) (i : Z) : vec f32 := (px pts i, nth (Z.to_nat (3 * i + 1)) pts f0, pz pts i).
(** The circle computed for three points. *)
Notation circ := circle3.
Lemma circ_eq : forall pts a b c,
  let k := circumCircle (pvec pts a) (pvec pts b) (pvec pts c) in (vx (fst k), vz (fst k), snd k) = circ pts a b c.
Proof.
  intros pts a b c. cbv zeta. unfold circumCircle, circle3, circumCentre, pvec, vsub, vcross2, vdot2.
  cbn [vx vy vz numF nsub nadd nmul ndiv nlt nratio nabs nZ fst snd].
  match goal with |- context [if ?t then Some _ else None] => destruct t end; [|reflexivity].
  unfold vadd, vdist2, vdistSq2. cbn [vx vy vz numF nsub nadd nmul ndiv fst snd]. reflexivity.
Qed.

Lemma get_nth_f : forall (l : list f32) i, 0 <= i < zlen l -> get l i = Ok (nth (Z.to_nat i) l f0).
Proof.
  intros l i H. destruct (get_in_range l i) as [x E]; [lia|]. rewrite E. f_equal. apply get_ok in E as [_ E].
  symmetry. now apply nth_error_nth.
Qed.

Lemma vert_ok : forall pts n i, 0 <= i < n -> 3 * n <= zlen pts -> 3 * n < 2 ^ 31 -> vert pts i = Ok (pvec pts i).
Proof.
  intros pts n i Hi Hl Hs. unfold vert. rewrite i32_id by (unfold is_i32; lia). rewrite !get_nth_f by lia. cbn [bind].
  unfold pvec, px, pz. replace (i * 3) with (3 * i) by lia. reflexivity.
Qed.

Lemma overlap_ok : forall pts n s u E, 3 * n <= zlen pts -> 3 * n < 2 ^ 31 -> 0 <= s < n -> 0 <= u < n ->
  (forall a b, In (a, b) (dirs E) -> 0 <= a < n /\ 0 <= b < n) ->
  overlapEdges pts E s u = Ok (existsb (fun '(a, b, _, _) => meets pts a b s u) E).
Proof.
  intros pts n s u E Hl Hs Rs Ru. induction E as [|[[[a b] l] r] E IH]; intros HE; [reflexivity|].
  cbn [overlapEdges existsb]. rewrite IH by (intros x y Hx; apply HE; unfold dirs, sides in *; cbn [flat_map app map]; right; right; exact Hx).
  destruct (HE a b) as [Ra Rb]; [now left|].
  replace (meets pts a b s u) with (negb ((a =? s) || (a =? u) || (b =? s) || (b =? u)) && crosses pts a b s u) by reflexivity.
  destruct ((a =? s) || (a =? u) || (b =? s) || (b =? u)); [reflexivity|].
  rewrite !(vert_ok pts n) by assumption. cbn [bind negb andb].
  replace (overlapSegSeg2d numF (pvec pts a) (pvec pts b) (pvec pts s) (pvec pts u)) with (crosses pts a b s u).
  - destruct (crosses pts a b s u); reflexivity.
  - unfold overlapSegSeg2d, crosses. cbn [numF nadd nsub nmul nlt nZ].
    change (vcross2 numF (pvec pts a) (pvec pts b) (pvec pts u)) with (turn2 pts a b u).
    change (vcross2 numF (pvec pts a) (pvec pts b) (pvec pts s)) with (turn2 pts a b s).
    change (vcross2 numF (pvec pts s) (pvec pts u) (pvec pts a)) with (turn2 pts s u a).
    change (f_of_Z 0) with f0. destruct (flt (fmul (turn2 pts a b u) (turn2 pts a b s)) f0); [|reflexivity].
    cbn [andb]. destruct (flt _ f0); reflexivity.
Qed.

Lemma circ_notneg : forall pts a b c, flt (snd (circumCircle (pvec pts a) (pvec pts b) (pvec pts c))) f0 = false.
Proof.
  intros. unfold circumCircle. destruct (circumCentre _ _ _ _) as [k|]; cbn [snd]; [|reflexivity].
  apply notneg_flt. apply fsqrt_notneg.
Qed.

Section Pick.
Variables (pts : list f32) (n : Z) (hull : list Z) (E : list (Z * Z * Z * Z)) (s t : Z).
Hypothesis Hl : 3 * n <= zlen pts.
Hypothesis Hs : 3 * n < 2 ^ 31.
Hypothesis HE : forall a b, In (a, b) (dirs E) -> 0 <= a < n /\ 0 <= b < n.
Hypothesis HH : forall a b, In (a, b) (ring hull) -> exists l r, In (a, b, l, r) E.
Hypothesis Rs : 0 <= s < n.
Hypothesis Rt : 0 <= t < n.

Definition picked (k : Z) (st : Z * vec f32 * f32) : Prop :=
  let '(pt, c, r) := st in
  (pt = n /\ r = f_of_Z (-1) /\ forall v, 0 <= v < k -> onLeft pts s t v = false) \/
  (fits (circ pts) pts k hull E s t pt /\ (vx c, vz c, r) = circ pts s t pt /\ flt r f0 = false).

Lemma facetStep_ok : forall k st, 0 <= k < n -> picked k st ->
  exists st', facetStep pts E s t st k = Ok st' /\ picked (k + 1) st'.
Proof.
  intros k [[pt c] r] Hk HP.
  assert (Keep : onLeft pts s t k = false -> picked (k + 1) (pt, c, r)).
  { intros L. destruct HP as [(E1 & E2 & N)|(F & Ec & Er)].
    - left. split; [exact E1|]. split; [exact E2|]. intros v Hv. destruct (Z.eq_dec v k) as [->|]; [exact L|]. apply N. lia.
    - right. split; [|split; [exact Ec|exact Er]]. destruct F as (F1 & F2 & F3 & F4). split; [lia|]. split; [exact F2|]. split; [|exact F4].
      intros v Hv Lv. apply F3; [|exact Lv]. destruct (Z.eq_dec v k) as [->|]; [congruence|lia]. }
  cbn [facetStep].
  destruct ((k =? s) || (k =? t)) eqn:Est.
  { exists (pt, c, r). split; [reflexivity|]. apply Keep. unfold onLeft. apply orb_true_iff in Est as [-> | ->]; cbn [negb andb]; [reflexivity|]. now rewrite andb_false_r. }
  apply orb_false_iff in Est as [Es Et].
  rewrite (vert_ok pts n s), (vert_ok pts n t), (vert_ok pts n k) by assumption. cbn [bind].
  assert (EL : onLeft pts s t k = fgt (vcross2 numF (pvec pts s) (pvec pts t) (pvec pts k)) (f_ratio 1 100000)).
  { unfold onLeft. rewrite Es, Et. cbn [negb andb]. reflexivity. }
  rewrite <- EL. destruct (onLeft pts s t k) eqn:L; [|exists (pt, c, r); split; [reflexivity|now apply Keep]].
  clear Keep.
  assert (New : (forall v, 0 <= v < k -> onLeft pts s t v = false) \/
                (exists v, 0 <= v < k /\ onLeft pts s t v = true /\ outside pts (circ pts s t v) k = false /\
                  (inside pts (circ pts s t v) k = true \/
                   forall a b, In (a, b) (ring hull) -> meets pts a b s k = false /\ meets pts a b t k = false)) ->
                picked (k + 1) (k, fst (circumCircle (pvec pts s) (pvec pts t) (pvec pts k)), snd (circumCircle (pvec pts s) (pvec pts t) (pvec pts k)))).
  { intros F4. right. split; [|split; [exact (circ_eq pts s t k)|apply circ_notneg]]. split; [lia|]. split; [exact L|]. split; [lia|exact F4]. }
  destruct HP as [(E1 & E2 & N)|(F & Ec & Er)].
  { rewrite E2. change (flt (f_of_Z (-1)) f0) with true. cbv iota. eexists. split; [reflexivity|]. apply New. now left. }
  rewrite Er.
  assert (Eo : fgt (vdist2 c (pvec pts k)) (fmul r (fadd f1 (f_ratio 1 1000))) = outside pts (circ pts s t pt) k).
  { rewrite <- Ec. reflexivity. }
  assert (Ei : flt (vdist2 c (pvec pts k)) (fmul r (fsub f1 (f_ratio 1 1000))) = inside pts (circ pts s t pt) k).
  { rewrite <- Ec. reflexivity. }
  cbv zeta. rewrite Eo, Ei.
  assert (Rej : outside pts (circ pts s t pt) k = true \/ (inside pts (circ pts s t pt) k = false /\
      exists a b l r, In (a, b, l, r) E /\ (meets pts a b s k = true \/ meets pts a b t k = true)) -> picked (k + 1) (pt, c, r)).
  { intros Rj. right. split; [|split; [exact Ec|exact Er]]. destruct F as (F1 & F2 & F3 & F4). split; [lia|]. split; [exact F2|]. split; [|exact F4].
    intros v Hv Lv. destruct (Z.eq_dec v k) as [->|]; [exact Rj|]. apply F3; [lia|exact Lv]. }
  assert (F' := F). destruct F' as (F1 & F2 & _ & _).
  destruct (outside pts (circ pts s t pt) k) eqn:O; [exists (pt, c, r); split; [reflexivity|apply Rej; now left]|].
  destruct (inside pts (circ pts s t pt) k) eqn:I.
  { eexists. split; [reflexivity|]. apply New. right. exists pt. rewrite O, I. auto. }
  rewrite (overlap_ok pts n s k E), (overlap_ok pts n t k E) by assumption. cbn [bind].
  assert (Ex : forall w, existsb (fun '(a, b, _, _) => meets pts a b w k) E = true ->
    exists a b l r, In (a, b, l, r) E /\ meets pts a b w k = true).
  { intros w Hw. apply existsb_exists in Hw as ([[[a b] l] r'] & Hi & Hm). exists a, b, l, r'. split; assumption. }
  assert (Nx : forall w, existsb (fun '(a, b, _, _) => meets pts a b w k) E = false ->
    forall a b, In (a, b) (ring hull) -> meets pts a b w k = false).
  { intros w Hw a b Hi. destruct (HH a b Hi) as (l & r' & Hi'). destruct (meets pts a b w k) eqn:M; [|reflexivity].
    rewrite <- Hw. symmetry. apply existsb_exists. exists (a, b, l, r'). auto. }
  destruct (existsb (fun '(a, b, _, _) => meets pts a b s k) E) eqn:O1.
  { exists (pt, c, r). split; [reflexivity|]. apply Rej. right. split; [reflexivity|]. destruct (Ex s O1) as (a & b & l & r' & Hi & Hm). exists a, b, l, r'. auto. }
  destruct (existsb (fun '(a, b, _, _) => meets pts a b t k) E) eqn:O2.
  { exists (pt, c, r). split; [reflexivity|]. apply Rej. right. split; [reflexivity|]. destruct (Ex t O2) as (a & b & l & r' & Hi & Hm). exists a, b, l, r'. auto. }
  eexists. split; [reflexivity|]. apply New. right. exists pt. rewrite O. split; [lia|]. split; [exact F2|]. split; [reflexivity|]. right. intros a b Hi. split; [now apply (Nx s)|now apply (Nx t)].
Qed.

Lemma pick_ok : 0 <= n -> exists pt c r,
  foldM (facetStep pts E s t) (zseq (Z.to_nat n)) (n, (f0, f0, f0), f_of_Z (-1)) = Ok (pt, c, r) /\
  ((pt = n /\ forall v, 0 <= v < n -> onLeft pts s t v = false) \/ fits (circ pts) pts n hull E s t pt).
Proof.
  intros Hn.
  assert (G : forall k : nat, Z.of_nat k <= n -> exists st,
    foldM (facetStep pts E s t) (zseq k) (n, (f0, f0, f0), f_of_Z (-1)) = Ok st /\ picked (Z.of_nat k) st).
  { induction k as [|k IH]; intros Hk.
    - exists (n, (f0, f0, f0), f_of_Z (-1)). split; [reflexivity|]. left. split; [reflexivity|]. split; [reflexivity|]. lia.
    - destruct IH as (st & E1 & P1); [lia|]. rewrite zseq_S, foldM_app, E1. cbn [bind foldM].
      destruct (facetStep_ok (Z.of_nat k) st) as (st' & E2 & P2); [lia|exact P1|]. rewrite E2. cbn [bind]. exists st'. split; [reflexivity|].
      now replace (Z.of_nat (S k)) with (Z.of_nat k + 1) by lia. }
  destruct (G (Z.to_nat n)) as ([[pt c] r] & E1 & P1); [lia|]. rewrite Z2Nat.id in P1 by lia. exists pt, c, r. split; [exact E1|].
  destruct P1 as [(A & _ & B)|(A & _)]; [left; auto|now right].
Qed.
End Pick.
