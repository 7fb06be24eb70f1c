(** IEEE-754 binary32 ([float32]) through the standard library's [SpecFloat]:
    exact results rounded to nearest even, NaN, infinities and signed zeros. *)
From Coq Require Import ZArith Bool Lia.
From Coq Require Export Floats.SpecFloat.
Open Scope Z_scope.

Definition f32 := spec_float.
Definition fprec : Z := 24.
Definition femax : Z := 128.

Definition fadd : f32 -> f32 -> f32 := SFadd fprec femax.
Definition fsub : f32 -> f32 -> f32 := SFsub fprec femax.
Definition fmul : f32 -> f32 -> f32 := SFmul fprec femax.
Definition fdiv : f32 -> f32 -> f32 := SFdiv fprec femax.
Definition fsqrt : f32 -> f32 := SFsqrt fprec femax.
Definition fabs : f32 -> f32 := SFabs.
Definition fopp : f32 -> f32 := SFopp.

(** Go comparison operators on float32: false as soon as one side is NaN
    (except [!=]). *)
Definition flt (a b : f32) : bool := SFltb a b.
Definition fle (a b : f32) : bool := SFleb a b.
Definition fgt (a b : f32) : bool := SFltb b a.
Definition fge (a b : f32) : bool := SFleb b a.
Definition feq (a b : f32) : bool := SFeqb a b.

(** [float32(z)] for an integer [z]. *)
Definition f_of_Z (z : Z) : f32 := binary_normalize fprec femax z 0 false.
(** The constant [n/d] rounded to float32. *)
Definition f_ratio (n d : Z) : f32 := fdiv (f_of_Z n) (f_of_Z d).
Definition f0 : f32 := S754_zero false.
Definition f1 : f32 := f_of_Z 1.

Definition is_nanb (a : f32) : bool := match a with S754_nan => true | _ => false end.
Definition nonnan (a : f32) : Prop := a <> S754_nan.

(** Truncation towards zero; [None] for NaN and infinities. *)
Definition f_trunc (a : f32) : option Z :=
  match a with
  | S754_zero _ => Some 0
  | S754_finite s m e =>
      let q := if 0 <=? e then Z.pos m * 2 ^ e else Z.pos m / 2 ^ (- e) in
      Some (if s then - q else q)
  | _ => None
  end.

(** * The order of non-NaN floats *)
Definition fkey (a : f32) : Z * Z * Z :=
  match a with
  | S754_infinity true => (-2, 0, 0)
  | S754_finite true m e => (-1, - e, - Z.pos m)
  | S754_zero _ => (0, 0, 0)
  | S754_finite false m e => (1, e, Z.pos m)
  | S754_infinity false => (2, 0, 0)
  | S754_nan => (3, 0, 0)
  end.

Definition lex (a b : Z * Z * Z) : comparison :=
  let '(a1, a2, a3) := a in
  let '(b1, b2, b3) := b in
  match a1 ?= b1 with
  | Eq => match a2 ?= b2 with Eq => a3 ?= b3 | c => c end
  | c => c
  end.

Lemma SFcompare_lex : forall a b, nonnan a -> nonnan b ->
  SFcompare a b = Some (lex (fkey a) (fkey b)).
Proof.
  unfold nonnan.
  intros [sa|sa| |sa ma ea] [sb|sb| |sb mb eb] Ha Hb; try congruence; simpl;
    try (destruct sa); try (destruct sb); try reflexivity.
  - unfold lex; simpl. assert ((-ea ?= -eb) = (eb ?= ea)) as ->
      by (destruct (Z.compare_spec (-ea) (-eb)), (Z.compare_spec eb ea); auto; lia).
    rewrite (Z.compare_antisym ea eb). destruct (ea ?= eb); reflexivity.
Qed.

Lemma lex_lt_iff : forall a1 a2 a3 b1 b2 b3,
  lex (a1,a2,a3) (b1,b2,b3) = Lt <->
  a1 < b1 \/ (a1 = b1 /\ (a2 < b2 \/ (a2 = b2 /\ a3 < b3))).
Proof.
  intros. unfold lex.
  destruct (Z.compare_spec a1 b1); destruct (Z.compare_spec a2 b2);
    destruct (Z.compare_spec a3 b3); split; intros; try discriminate; try reflexivity; lia.
Qed.

Lemma lex_eq_iff : forall a b, lex a b = Eq <-> a = b.
Proof.
  intros [[a1 a2] a3] [[b1 b2] b3]. unfold lex.
  destruct (Z.compare_spec a1 b1); destruct (Z.compare_spec a2 b2);
    destruct (Z.compare_spec a3 b3); split; intros; try discriminate; try reflexivity;
    try congruence; inversion H2; lia.
Qed.

Lemma lex_gt_iff : forall a b, lex a b = Gt <-> lex b a = Lt.
Proof.
  intros [[a1 a2] a3] [[b1 b2] b3]. rewrite lex_lt_iff. unfold lex.
  destruct (Z.compare_spec a1 b1); destruct (Z.compare_spec a2 b2);
    destruct (Z.compare_spec a3 b3); split; intros; try discriminate; try reflexivity; lia.
Qed.

Lemma flt_nan_l : forall b, flt S754_nan b = false.
Proof. intros [ | | |]; reflexivity. Qed.
Lemma flt_nan_r : forall a, flt a S754_nan = false.
Proof. intros [ | | |]; reflexivity. Qed.
Lemma fle_nan_l : forall b, fle S754_nan b = false.
Proof. intros [ | | |]; reflexivity. Qed.
Lemma fle_nan_r : forall a, fle a S754_nan = false.
Proof. intros [ | | |]; reflexivity. Qed.

Lemma nan_dec : forall a : f32, {a = S754_nan} + {nonnan a}.
Proof. intros [ | | |]; unfold nonnan; try (right; congruence); left; reflexivity. Qed.

Lemma flt_nonnan : forall a b, flt a b = true -> nonnan a /\ nonnan b.
Proof.
  intros a b H. destruct (nan_dec a) as [->|Ha]; [now rewrite flt_nan_l in H|].
  destruct (nan_dec b) as [->|Hb]; [now rewrite flt_nan_r in H|]. auto.
Qed.

Lemma fle_nonnan : forall a b, fle a b = true -> nonnan a /\ nonnan b.
Proof.
  intros a b H. destruct (nan_dec a) as [->|Ha]; [now rewrite fle_nan_l in H|].
  destruct (nan_dec b) as [->|Hb]; [now rewrite fle_nan_r in H|]. auto.
Qed.

Lemma flt_lex : forall a b, nonnan a -> nonnan b ->
  flt a b = match lex (fkey a) (fkey b) with Lt => true | _ => false end.
Proof. intros a b Ha Hb. unfold flt, SFltb. now rewrite SFcompare_lex. Qed.

Lemma fle_lex : forall a b, nonnan a -> nonnan b ->
  fle a b = match lex (fkey a) (fkey b) with Gt => false | _ => true end.
Proof.
  intros a b Ha Hb. unfold fle, SFleb. rewrite SFcompare_lex by assumption.
  destruct (lex (fkey a) (fkey b)); reflexivity.
Qed.

Lemma feq_lex : forall a b, nonnan a -> nonnan b ->
  feq a b = match lex (fkey a) (fkey b) with Eq => true | _ => false end.
Proof. intros a b Ha Hb. unfold feq, SFeqb. now rewrite SFcompare_lex. Qed.

Lemma flt_irrefl : forall a, flt a a = false.
Proof.
  intros a. destruct (nan_dec a) as [->|Ha]; [reflexivity|].
  rewrite flt_lex by assumption.
  now rewrite (proj2 (lex_eq_iff (fkey a) (fkey a)) eq_refl).
Qed.

Lemma fle_refl : forall a, nonnan a -> fle a a = true.
Proof.
  intros a Ha. rewrite fle_lex by assumption.
  now rewrite (proj2 (lex_eq_iff (fkey a) (fkey a)) eq_refl).
Qed.

(** Without NaN, [<] is the negation of the flipped [<=]. *)
Lemma flt_not_fle : forall a b, nonnan a -> nonnan b -> flt a b = negb (fle b a).
Proof.
  intros a b Ha Hb. rewrite flt_lex, fle_lex by assumption.
  destruct (lex (fkey a) (fkey b)) eqn:E.
  - apply lex_eq_iff in E. rewrite E.
    now rewrite (proj2 (lex_eq_iff (fkey b) (fkey b)) eq_refl).
  - apply lex_gt_iff in E. now rewrite E.
  - apply lex_gt_iff in E. now rewrite E.
Qed.

Lemma fle_total : forall a b, nonnan a -> nonnan b -> fle a b = true \/ fle b a = true.
Proof.
  intros a b Ha Hb. destruct (fle a b) eqn:E; auto. right.
  assert (flt b a = true) as L by (rewrite flt_not_fle, E by assumption; reflexivity).
  rewrite fle_lex by assumption. rewrite flt_lex in L by assumption.
  destruct (lex (fkey b) (fkey a)); congruence.
Qed.

Lemma flt_fle : forall a b, flt a b = true -> fle a b = true.
Proof.
  intros a b H. destruct (flt_nonnan _ _ H) as [Ha Hb].
  rewrite flt_lex in H by assumption. rewrite fle_lex by assumption.
  destruct (lex (fkey a) (fkey b)); congruence.
Qed.

Lemma flt_trans : forall a b c, flt a b = true -> flt b c = true -> flt a c = true.
Proof.
  intros a b c H1 H2.
  destruct (flt_nonnan _ _ H1) as [Ha Hb]. destruct (flt_nonnan _ _ H2) as [_ Hc].
  rewrite flt_lex in * by assumption.
  destruct (lex (fkey a) (fkey b)) eqn:E1; try discriminate.
  destruct (lex (fkey b) (fkey c)) eqn:E2; try discriminate.
  destruct (fkey a) as [[a1 a2] a3], (fkey b) as [[b1 b2] b3], (fkey c) as [[c1 c2] c3].
  apply lex_lt_iff in E1. apply lex_lt_iff in E2.
  assert (lex (a1, a2, a3) (c1, c2, c3) = Lt) as -> by (apply lex_lt_iff; lia).
  reflexivity.
Qed.

Lemma fle_flt_or_key : forall a b, fle a b = true ->
  flt a b = true \/ fkey a = fkey b.
Proof.
  intros a b H. destruct (fle_nonnan _ _ H) as [Ha Hb].
  rewrite fle_lex in H by assumption. rewrite flt_lex by assumption.
  destruct (lex (fkey a) (fkey b)) eqn:E; auto; try discriminate.
  right. now apply lex_eq_iff.
Qed.

Lemma fle_trans : forall a b c, fle a b = true -> fle b c = true -> fle a c = true.
Proof.
  intros a b c H1 H2.
  destruct (fle_nonnan _ _ H1) as [Ha Hb]. destruct (fle_nonnan _ _ H2) as [_ Hc].
  destruct (fle_flt_or_key _ _ H1) as [L1|K1]; destruct (fle_flt_or_key _ _ H2) as [L2|K2].
  - apply flt_fle. eapply flt_trans; eassumption.
  - rewrite fle_lex by assumption. rewrite flt_lex in L1 by assumption.
    rewrite K2 in L1. destruct (lex (fkey a) (fkey c)); congruence.
  - rewrite fle_lex by assumption. rewrite flt_lex in L2 by assumption.
    rewrite <- K1 in L2. destruct (lex (fkey a) (fkey c)); congruence.
  - rewrite fle_lex by assumption. rewrite K1, K2.
    now rewrite (proj2 (lex_eq_iff (fkey c) (fkey c)) eq_refl).
Qed.

Lemma flt_fle_trans : forall a b c, flt a b = true -> fle b c = true -> flt a c = true.
Proof.
  intros a b c H1 H2.
  destruct (flt_nonnan _ _ H1) as [Ha Hb]. destruct (fle_nonnan _ _ H2) as [_ Hc].
  destruct (fle_flt_or_key _ _ H2) as [L2|K2].
  - eapply flt_trans; eassumption.
  - rewrite flt_lex in * by assumption. now rewrite <- K2.
Qed.

Lemma fle_flt_trans : forall a b c, fle a b = true -> flt b c = true -> flt a c = true.
Proof.
  intros a b c H1 H2.
  destruct (fle_nonnan _ _ H1) as [Ha Hb]. destruct (flt_nonnan _ _ H2) as [_ Hc].
  destruct (fle_flt_or_key _ _ H1) as [L1|K1].
  - eapply flt_trans; eassumption.
  - rewrite flt_lex in * by assumption. now rewrite K1.
Qed.

Lemma not_flt_fle : forall a b, nonnan a -> nonnan b -> flt a b = false -> fle b a = true.
Proof.
  intros a b Ha Hb H. rewrite flt_not_fle in H by assumption.
  destruct (fle b a); [reflexivity|discriminate].
Qed.

(** Constants are not NaN. *)
Lemma f0_nonnan : nonnan f0. Proof. discriminate. Qed.
Lemma f1_nonnan : nonnan f1. Proof. vm_compute. discriminate. Qed.
