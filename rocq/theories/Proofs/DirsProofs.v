From Coq Require Import ZArith List Bool Lia.
From Verif.Base Require Import Res GoNum Bits.
From Verif.Model Require Import Dirs.
Import ListNotations.
Open Scope Z_scope.

Lemma land63_bits : forall z n, 0 <= n -> Z.testbit (Z.land z 63) n = (n <? 6) && Z.testbit z n.
Proof.
  intros z n Hn. change 63 with (2 ^ 6 - 1). rewrite land_mask by lia.
  destruct (Z.ltb_spec n 6).
  - rewrite Z.mod_pow2_bits_low by lia. reflexivity.
  - rewrite Z.mod_pow2_bits_high by lia. reflexivity.
Qed.
Lemma bits63 : forall n, 0 <= n -> Z.testbit 63 n = (n <? 6).
Proof.
  intros n Hn. change 63 with (Z.ones 6). destruct (Z.ltb_spec n 6).
  - now apply Z.ones_spec_low.
  - now apply Z.ones_spec_high.
Qed.
Lemma land63_range : forall z, 0 <= Z.land z 63 < 64.
Proof.
  intros. change 63 with (2 ^ 6 - 1). rewrite land_mask by lia. apply Z.mod_pos_bound. lia.
Qed.

Lemma shift_dir : forall d, 0 <= d < 4 -> u32 (d * 6) = d * 6.
Proof. intros. apply u32_id. unfold is_u32. lia. Qed.

Lemma shl_u32 : forall a d, 0 <= d < 4 -> 0 <= a < 64 -> u32 (Z.shiftl a (d * 6)) = Z.shiftl a (d * 6).
Proof.
  intros a d Hd Ha. apply u32_id. unfold is_u32. rewrite Z.shiftl_mul_pow2 by lia.
  assert (d = 0 \/ d = 1 \/ d = 2 \/ d = 3) as [->|[->|[->| ->]]] by lia; cbn; lia.
Qed.

Lemma GetCon_range : forall con d, 0 <= GetCon con d < 64.
Proof. intros. unfold GetCon. apply land63_range. Qed.

Lemma GetCon_SetCon : forall con d d' i, 0 <= d < 4 -> 0 <= d' < 4 ->
  GetCon (SetCon con d i) d' =
  if d' =? d then Z.lor (Z.lxor (GetCon con d) 63) (Z.land i 63) else GetCon con d'.
Proof.
  intros con d d' i Hd Hd'. unfold GetCon, SetCon. rewrite !shift_dir by assumption.
  rewrite (u32_id (Z.land i 63)) by (pose proof (land63_range i); unfold is_u32; lia).
  rewrite !shl_u32 by (try assumption; try apply land63_range; lia).
  destruct (Z.eqb_spec d' d) as [->|N].
  - apply Z.bits_inj'. intros n Hn.
    rewrite land63_bits, Z.shiftr_spec, Z.lor_spec, Z.lxor_spec, !Z.shiftl_spec by lia.
    rewrite Z.lor_spec, Z.lxor_spec, !land63_bits, Z.shiftr_spec by lia.
    replace (n + d * 6 - d * 6) with n by lia. rewrite !bits63 by lia.
    destruct (n <? 6); reflexivity.
  - apply Z.bits_inj'. intros n Hn.
    rewrite !land63_bits, !Z.shiftr_spec, Z.lor_spec, Z.lxor_spec, !Z.shiftl_spec by lia.
    destruct (Z.ltb_spec n 6); [|reflexivity]. cbn [andb].
    assert (Z.testbit 63 (n + d' * 6 - d * 6) = false /\ Z.testbit (Z.land i 63) (n + d' * 6 - d * 6) = false) as [-> ->].
    { destruct (Z.lt_ge_cases (n + d' * 6 - d * 6) 0).
      - rewrite !Z.testbit_neg_r by assumption. auto.
      - rewrite land63_bits, bits63 by assumption. destruct (Z.ltb_spec (n + d' * 6 - d * 6) 6); [lia|auto]. }
    now rewrite xorb_false_r, orb_false_r.
Qed.

Lemma land63_id : forall i, 0 <= i < 64 -> Z.land i 63 = i.
Proof. intros. change 63 with (2 ^ 6 - 1). rewrite land_mask by lia. apply Z.mod_small. lia. Qed.

(** The round trip holds exactly when every bit that was clear is set in the new value. *)
Lemma SetCon_correct_iff : forall con d i, 0 <= d < 4 -> 0 <= i < 64 ->
  (GetCon (SetCon con d i) d = i <-> Z.lor (GetCon con d) i = 63).
Proof.
  intros con d i Hd Hi. rewrite GetCon_SetCon, Z.eqb_refl, land63_id by assumption.
  pose proof (GetCon_range con d) as Hg. set (g := GetCon con d) in *. clearbody g. split; intros H.
  - apply Z.bits_inj'. intros n Hn. rewrite Z.lor_spec, bits63 by assumption.
    assert (Z.testbit (Z.lor (Z.lxor g 63) i) n = Z.testbit i n) as E by now rewrite H.
    rewrite Z.lor_spec, Z.lxor_spec, bits63 in E by assumption.
    destruct (Z.ltb_spec n 6).
    + destruct (Z.testbit g n), (Z.testbit i n); cbn in *; congruence.
    + rewrite (testbit_high 6 g n), (testbit_high 6 i n) by (cbn; lia). reflexivity.
  - apply Z.bits_inj'. intros n Hn. rewrite Z.lor_spec, Z.lxor_spec, bits63 by assumption.
    assert (Z.testbit (Z.lor g i) n = Z.testbit 63 n) as E by now rewrite H.
    rewrite Z.lor_spec, bits63 in E by assumption.
    destruct (Z.testbit g n), (Z.testbit i n), (n <? 6); cbn in *; congruence.
Qed.
