From Coq Require Import ZArith List Bool Lia Permutation QArith Lqa.
From Verif.Base Require Import Res GoNum F32 Num Grid.
From Verif.Model Require Import ChunkyMesh.
From Verif.Spec Require Import ChunkySpec.
From Verif.Proofs Require Import ChunkyProofs ChunkyBuild.
Import ListNotations.

Lemma ordered_F : ordered numF nonnan.
Proof.
  split; cbn [nlt numF].
  - exact flt_irrefl.
  - exact flt_trans.
  - intros a b c Ga Gb H1 H2. eapply fle_flt_trans; [|exact H2]. now apply not_flt_fle.
  - intros a b c Gb Gc H1 H2. eapply flt_fle_trans; [exact H1|]. now apply not_flt_fle.
Qed.

Open Scope Q_scope.
Lemma Qltb_true : forall a b, Qltb a b = true <-> a < b.
Proof. intros a b. unfold Qltb. rewrite negb_true_iff. split; [intros H; apply Qnot_le_lt; intros L; apply Qle_bool_iff in L; congruence|intros H; destruct (Qle_bool b a) eqn:E; [apply Qle_bool_iff in E; lra|reflexivity]]. Qed.
Lemma Qltb_false : forall a b, Qltb a b = false <-> b <= a.
Proof. intros a b. unfold Qltb. rewrite negb_false_iff. apply Qle_bool_iff. Qed.

Lemma ordered_Q : ordered numQ (fun _ => True).
Proof.
  split; cbn [nlt numQ].
  - intros a. apply Qltb_false. lra.
  - intros a b c H1 H2. apply Qltb_true in H1. apply Qltb_true in H2. apply Qltb_true. lra.
  - intros a b c _ _ H1 H2. apply Qltb_false in H1. apply Qltb_true in H2. apply Qltb_true. lra.
  - intros a b c _ _ H1 H2. apply Qltb_true in H1. apply Qltb_false in H2. apply Qltb_true. lra.
Qed.

(** A larger box overlaps the rectangle if a smaller one does. *)
Lemma rect_grows : forall {T} (N : Num T) good (O : ordered N good) rmin rmax, grows N good (checkOverlapRect N rmin rmax).
Proof.
  intros T N good O rmin rmax mn mx mn' mx' g1 g2 g3 g4 g5 g6 g7 g8 _ _ L1 L2 L3 L4. unfold checkOverlapRect, nle' in *.
  destruct (nlt N (fst mx') (fst rmin)) eqn:E1; [rewrite (or_le_lt O _ _ _ g3 g7 L3 E1); discriminate|].
  destruct (nlt N (fst rmax) (fst mn')) eqn:E2; [rewrite (or_lt_le O _ _ _ g5 g1 E2 L1), orb_true_r; discriminate|].
  destruct (nlt N (snd mx') (snd rmin)) eqn:E3; [rewrite (or_le_lt O _ _ _ g4 g8 L4 E3); destruct (_ || _); discriminate|].
  destruct (nlt N (snd rmax) (snd mn')) eqn:E4; [rewrite (or_lt_le O _ _ _ g6 g2 E4 L2), orb_true_r; destruct (_ || _); discriminate|].
  reflexivity.
Qed.

(** * Segments in exact arithmetic *)
Open Scope Q_scope.
Definition eps : Q := nratio numQ 1 1000000.
(** The point at [t] lies within the slab; a nearly parallel segment lies within it as a whole
    if its first end does. *)
Definition axis_ok (p q mn mx t : Q) : Prop :=
  if Qltb (Qabs' (q - p)) eps then mn <= p <= mx else mn <= p + t * (q - p) <= mx.

Lemma mul_inv : forall d, ~ d == 0 -> d * (1 / d) == 1.
Proof. intros d H. field. exact H. Qed.

Lemma seg_axis_Q : forall tmin tmax p q mn mx, tmin <= tmax -> mn <= mx ->
  match seg_axis numQ (tmin, tmax) p q mn mx with
  | Some (a, b) => a <= b /\ forall t, a <= t <= b <-> (tmin <= t <= tmax /\ axis_ok p q mn mx t)
  | None => forall t, tmin <= t <= tmax -> ~ axis_ok p q mn mx t
  end.
Proof.
  intros tmin tmax p q mn mx Ht Hb. unfold seg_axis, axis_ok. fold eps.
  cbn [nlt nsub nabs nmul ndiv nZ numQ].
  destruct (Qltb (Qabs' (q - p)) eps) eqn:Ep.
  - destruct (Qltb p mn) eqn:E1; [apply Qltb_true in E1; cbn [orb]; intros t _; lra|].
    destruct (Qltb mx p) eqn:E2; [apply Qltb_true in E2; cbn [orb]; intros t _; lra|].
    apply Qltb_false in E1. apply Qltb_false in E2. cbn [orb]. split; [exact Ht|]. intros t. split; [intros H; split; [exact H|lra]|tauto].
  - apply Qltb_false in Ep. change (inject_Z 1) with 1.
    set (d := q - p) in *.
    assert (E0 : 0 < eps) by reflexivity.
    assert (D : 0 < d \/ d < 0).
    { unfold Qabs' in Ep. destruct (Qltb d 0) eqn:Ed; [apply Qltb_true in Ed; now right|]. apply Qltb_false in Ed. left. lra. }
    assert (I : d * (1 / d) == 1) by (apply mul_inv; lra).
    clearbody d. set (o := 1 / d) in *. clearbody o.
    set (t1 := (mn - p) * o). set (t2 := (mx - p) * o).
    assert (S1 : t1 * d == mn - p).
    { unfold t1. rewrite <- Qmult_assoc, (Qmult_comm o d), I. lra. }
    assert (S2 : t2 * d == mx - p).
    { unfold t2. rewrite <- Qmult_assoc, (Qmult_comm o d), I. lra. }
    clearbody t1 t2.
    assert (K : exists u w, (if Qltb t2 t1 then (t2, t1) else (t1, t2)) = (u, w) /\ forall t, mn <= p + t * d <= mx <-> u <= t <= w).
    { destruct (Qltb t2 t1) eqn:E; [apply Qltb_true in E|apply Qltb_false in E]; do 2 eexists; (split; [reflexivity|]);
        intros t; destruct D as [D|D]; split; intros; split; try nra. }
    destruct K as (u & w & -> & K).
    destruct (Qltb tmin u) eqn:E1; [apply Qltb_true in E1|apply Qltb_false in E1];
    (destruct (Qltb w tmax) eqn:E2; [apply Qltb_true in E2|apply Qltb_false in E2]);
    match goal with |- context [if Qltb ?a ?b then _ else _] => destruct (Qltb a b) eqn:E3; [apply Qltb_true in E3|apply Qltb_false in E3] end;
    try (intros t Hr Hk; apply K in Hk; lra);
    (split; [assumption|]); intros t; rewrite K; split; intros; try split; lra.
Qed.

Lemma segment_Q : forall p q mn mx, fst mn <= fst mx -> snd mn <= snd mx ->
  (checkOverlapSegment numQ p q mn mx = true <->
   exists t, 0 <= t <= 1 /\ axis_ok (fst p) (fst q) (fst mn) (fst mx) t /\ axis_ok (snd p) (snd q) (snd mn) (snd mx) t).
Proof.
  intros p q mn mx B1 B2. unfold checkOverlapSegment. change (nZ numQ 0) with 0. change (nZ numQ 1) with 1.
  pose proof (seg_axis_Q 0 1 (fst p) (fst q) (fst mn) (fst mx) ltac:(lra) B1) as A1.
  destruct (seg_axis numQ (0, 1) (fst p) (fst q) (fst mn) (fst mx)) as [[a b]|].
  - destruct A1 as [L1 A1].
    pose proof (seg_axis_Q a b (snd p) (snd q) (snd mn) (snd mx) L1 B2) as A2.
    destruct (seg_axis numQ (a, b) (snd p) (snd q) (snd mn) (snd mx)) as [[c e]|].
    + destruct A2 as [L2 A2]. split; [|reflexivity]. intros _. exists c.
      destruct (proj1 (A2 c)) as [X Y]; [lra|]. destruct (proj1 (A1 c) X) as [U V]. auto.
    + split; [discriminate|]. intros (t & Ht & X & Y). exfalso. apply (A2 t); [apply A1; auto|exact Y].
  - split; [discriminate|]. intros (t & Ht & X & Y). exfalso. exact (A1 t Ht X).
Qed.

Lemma axis_grows : forall p q mn mx mn' mx' t, mn' <= mn -> mx <= mx' -> axis_ok p q mn mx t -> axis_ok p q mn' mx' t.
Proof. intros p q mn mx mn' mx' t H1 H2. unfold axis_ok. destruct (Qltb _ _); lra. Qed.

Lemma segment_grows : forall p q, grows numQ (fun _ => True) (checkOverlapSegment numQ p q).
Proof.
  intros p q mn mx mn' mx' _ _ _ _ _ _ _ _ L1 L2 L3 L4 L5 L6 H. unfold nle' in *. cbn [nlt numQ] in *.
  apply Qltb_false in L1. apply Qltb_false in L2. apply Qltb_false in L3. apply Qltb_false in L4. apply Qltb_false in L5. apply Qltb_false in L6.
  apply segment_Q in H as (t & Ht & X & Y); [|assumption|assumption].
  apply segment_Q; [lra|lra|]. exists t. split; [exact Ht|].
  split; [eapply axis_grows; [exact L3|exact L5|exact X]|eapply axis_grows; [exact L4|exact L6|exact Y]].
Qed.
