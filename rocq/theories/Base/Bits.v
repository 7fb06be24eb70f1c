(** Bit-level lemmas on [Z]. *)
From Coq Require Import ZArith Bool Lia Btauto.
From Verif.Base Require Import GoNum.
Open Scope Z_scope.

Lemma testbit_u8 : forall z i, Z.testbit (u8 z) i = (i <? 8) && Z.testbit z i.
Proof.
  intros z i. unfold u8. change 256 with (2 ^ 8).
  destruct (Z.ltb_spec i 8); rewrite ?andb_true_l, ?andb_false_l.
  - destruct (Z.lt_ge_cases i 0); [now rewrite !Z.testbit_neg_r|].
    apply Z.mod_pow2_bits_low; lia.
  - apply Z.mod_pow2_bits_high; lia.
Qed.

Lemma testbit_u16 : forall z i, Z.testbit (u16 z) i = (i <? 16) && Z.testbit z i.
Proof.
  intros z i. unfold u16. change 65536 with (2 ^ 16).
  destruct (Z.ltb_spec i 16); rewrite ?andb_true_l, ?andb_false_l.
  - destruct (Z.lt_ge_cases i 0); [now rewrite !Z.testbit_neg_r|].
    apply Z.mod_pow2_bits_low; lia.
  - apply Z.mod_pow2_bits_high; lia.
Qed.

Lemma testbit_u32 : forall z i, Z.testbit (u32 z) i = (i <? 32) && Z.testbit z i.
Proof.
  intros z i. unfold u32. change 4294967296 with (2 ^ 32).
  destruct (Z.ltb_spec i 32); rewrite ?andb_true_l, ?andb_false_l.
  - destruct (Z.lt_ge_cases i 0); [now rewrite !Z.testbit_neg_r|].
    apply Z.mod_pow2_bits_low; lia.
  - apply Z.mod_pow2_bits_high; lia.
Qed.

Lemma testbit_high : forall n x i, 0 <= x < 2 ^ n -> n <= i -> Z.testbit x i = false.
Proof.
  intros n x i Hx Hi.
  destruct (Z.eq_dec x 0) as [->|N]; [apply Z.bits_0|].
  apply Z.bits_above_log2; [lia|].
  assert (Z.log2 x < n); [|lia].
  apply Z.log2_lt_pow2; lia.
Qed.

Lemma u8_bits : forall x, is_u8 x -> forall i, 8 <= i -> Z.testbit x i = false.
Proof. intros x H i. apply testbit_high. exact H. Qed.
Lemma u16_bits : forall x, is_u16 x -> forall i, 16 <= i -> Z.testbit x i = false.
Proof. intros x H i. apply testbit_high. exact H. Qed.
Lemma u32_bits : forall x, is_u32 x -> forall i, 32 <= i -> Z.testbit x i = false.
Proof. intros x H i. apply testbit_high. exact H. Qed.

Lemma land_zero_iff : forall a b,
  Z.land a b = 0 <-> forall i, 0 <= i -> Z.testbit a i && Z.testbit b i = false.
Proof.
  intros a b. split.
  - intros H i Hi. rewrite <- Z.land_spec, H. apply Z.bits_0.
  - intros H. apply Z.bits_inj'. intros i Hi. rewrite Z.land_spec, Z.bits_0. auto.
Qed.

Lemma land_nonzero_iff : forall a b,
  Z.land a b <> 0 <-> exists i, 0 <= i /\ Z.testbit a i = true /\ Z.testbit b i = true.
Proof.
  intros a b. split.
  - intros H.
    assert (Z.land a b < 0 \/ 0 < Z.land a b) as [N|P] by lia.
    + destruct (Z.bits_iff_neg (Z.land a b) (1 + Z.log2 (Z.abs (Z.land a b)))) as [F _]; [lia|].
      specialize (F N). rewrite Z.land_spec in F. apply andb_true_iff in F.
      exists (1 + Z.log2 (Z.abs (Z.land a b))).
      pose proof (Z.log2_nonneg (Z.abs (Z.land a b))). intuition lia.
    + exists (Z.log2 (Z.land a b)).
      pose proof (Z.bit_log2 _ P) as F. rewrite Z.land_spec in F. apply andb_true_iff in F.
      pose proof (Z.log2_nonneg (Z.land a b)). intuition.
  - intros [i [Hi [Ha Hb]]] E.
    rewrite land_zero_iff in E. specialize (E i Hi). rewrite Ha, Hb in E. discriminate.
Qed.

(** [z land (2^n - 1)] is [z mod 2^n]. *)
Lemma land_mask : forall z n, 0 <= n -> Z.land z (2 ^ n - 1) = z mod 2 ^ n.
Proof. intros z n H. rewrite <- Z.land_ones by assumption. f_equal. rewrite Z.ones_equiv. lia. Qed.

Lemma lor_disjoint_add : forall a b, Z.land a b = 0 -> Z.lor a b = a + b.
Proof. intros a b H. now rewrite <- Z.lxor_lor, Z.add_nocarry_lxor. Qed.

Lemma land_shiftl_low : forall a b n, 0 <= n -> 0 <= b < 2 ^ n -> Z.land (Z.shiftl a n) b = 0.
Proof.
  intros a b n Hn Hb. apply land_zero_iff. intros i Hi.
  destruct (Z.lt_ge_cases i n).
  - now rewrite Z.shiftl_spec_low.
  - rewrite (testbit_high n b i) by lia. apply andb_false_r.
Qed.

Lemma lor_shiftl_add : forall a b n, 0 <= n -> 0 <= b < 2 ^ n ->
  Z.lor (Z.shiftl a n) b = a * 2 ^ n + b.
Proof.
  intros a b n Hn Hb. rewrite lor_disjoint_add by now apply land_shiftl_low.
  now rewrite Z.shiftl_mul_pow2.
Qed.

(** Decide an equation on bits by cases on the bit index below [8]. *)
Ltac bit_cases8 i :=
  match goal with
  | H : 0 <= i, L : i < 8 |- _ =>
      assert (i = 0 \/ i = 1 \/ i = 2 \/ i = 3 \/ i = 4 \/ i = 5 \/ i = 6 \/ i = 7) as HC by lia;
      destruct HC as [->|[->|[->|[->|[->|[->|[->| ->]]]]]]]
  end.
