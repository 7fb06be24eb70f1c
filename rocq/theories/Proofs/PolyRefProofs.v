From Coq Require Import ZArith Bool Lia.
From Verif.Base Require Import GoNum Bits.
From Verif.Model Require Import Status PolyRef.
Open Scope Z_scope.

(** The widths fit in a 32-bit reference. *)
Definition bits_ok (b : IdBits) : Prop :=
  0 <= saltBits b /\ 0 <= tileBits b /\ 0 <= polyBits b /\
  saltBits b + tileBits b + polyBits b <= 32.

Lemma mask32 : forall n, 0 <= n <= 32 -> u32 (shl32 1 n - 1) = 2 ^ n - 1.
Proof.
  intros n Hn. unfold shl32. rewrite Z.shiftl_1_l.
  destruct (Z.eq_dec n 32) as [->|N]; [reflexivity|].
  assert (2 ^ n < 2 ^ 32) by (apply Z.pow_lt_mono_r; lia).
  assert (0 < 2 ^ n) by (apply Z.pow_pos_nonneg; lia).
  rewrite (u32_id (2 ^ n)) by (unfold is_u32; lia).
  apply u32_id. unfold is_u32; lia.
Qed.

Lemma shl32_small : forall x n k, 0 <= n -> 0 <= k -> n + k <= 32 -> 0 <= x < 2 ^ k ->
  shl32 x n = x * 2 ^ n.
Proof.
  intros x n k Hn Hk Hnk Hx. unfold shl32. rewrite Z.shiftl_mul_pow2 by assumption.
  apply u32_id. unfold is_u32.
  assert (0 < 2 ^ n) by (apply Z.pow_pos_nonneg; lia).
  assert (2 ^ k * 2 ^ n <= 2 ^ 32).
  { rewrite <- Z.pow_add_r by lia. apply Z.pow_le_mono_r; lia. }
  change 4294967296 with (2 ^ 32). nia.
Qed.

(** The reference as a number: salt, tile, poly are its digits. *)
Lemma encode_value : forall b salt it ip, bits_ok b ->
  0 <= salt < 2 ^ saltBits b -> 0 <= it < 2 ^ tileBits b -> 0 <= ip < 2 ^ polyBits b ->
  encodePolyID b salt it ip = (salt * 2 ^ tileBits b + it) * 2 ^ polyBits b + ip.
Proof.
  intros b salt it ip (Hs & Ht & Hp & Hsum) Hsalt Hit Hip.
  unfold encodePolyID.
  rewrite (u32_id (polyBits b + tileBits b)) by (unfold is_u32; lia).
  rewrite (shl32_small salt _ (saltBits b)) by lia.
  rewrite (shl32_small it _ (tileBits b)) by lia.
  rewrite (Z.add_comm (polyBits b)), Z.pow_add_r, Z.mul_assoc by lia.
  rewrite <- (Z.shiftl_mul_pow2 (salt * 2 ^ tileBits b)), <- (Z.shiftl_mul_pow2 it) by lia.
  rewrite <- Z.shiftl_lor.
  rewrite <- (Z.shiftl_mul_pow2 salt) by lia.
  rewrite (lor_shiftl_add salt it (tileBits b)) by lia.
  rewrite lor_shiftl_add by lia. rewrite Z.shiftl_mul_pow2 by lia. reflexivity.
Qed.

Lemma decode_encode : forall b salt it ip, bits_ok b ->
  0 <= salt < 2 ^ saltBits b -> 0 <= it < 2 ^ tileBits b -> 0 <= ip < 2 ^ polyBits b ->
  DecodePolyID b (encodePolyID b salt it ip) = (salt, it, ip).
Proof.
  intros b salt it ip Hb Hsalt Hit Hip.
  pose proof Hb as (Hs & Ht & Hp & Hsum).
  unfold DecodePolyID, decodePolyIDSalt, decodePolyIDTile, decodePolyIDPoly.
  rewrite (u32_id (polyBits b + tileBits b)) by (unfold is_u32; lia).
  rewrite !mask32 by lia. rewrite !land_mask by lia.
  rewrite !Z.shiftr_div_pow2 by lia.
  rewrite encode_value by assumption.
  rewrite Z.pow_add_r by lia.
  assert (0 < 2 ^ polyBits b) by (apply Z.pow_pos_nonneg; lia).
  assert (0 < 2 ^ tileBits b) by (apply Z.pow_pos_nonneg; lia).
  rewrite <- Z.div_div by lia.
  rewrite !(Z.div_add_l _ (2 ^ polyBits b)) by lia.
  rewrite (Z.div_small ip) by lia.
  rewrite Z.add_0_r.
  rewrite (Z.div_add_l salt) by lia. rewrite (Z.div_small it), Z.add_0_r by lia.
  rewrite (Z.mod_small salt) by lia.
  f_equal; [f_equal|].
  - rewrite Z.add_comm, Z_mod_plus_full. apply Z.mod_small; lia.
  - rewrite Z.add_comm, Z_mod_plus_full. apply Z.mod_small; lia.
Qed.

(** A 32-bit reference is the encoding of its decoding when the widths sum to 32. *)
Lemma encode_decode : forall b ref, bits_ok b ->
  saltBits b + tileBits b + polyBits b = 32 -> is_u32 ref ->
  let '(salt, it, ip) := DecodePolyID b ref in
  0 <= salt < 2 ^ saltBits b /\ 0 <= it < 2 ^ tileBits b /\ 0 <= ip < 2 ^ polyBits b /\
  encodePolyID b salt it ip = ref.
Proof.
  intros b ref Hb Hsum32 Href.
  pose proof Hb as (Hs & Ht & Hp & Hsum).
  unfold DecodePolyID, decodePolyIDSalt, decodePolyIDTile, decodePolyIDPoly.
  rewrite (u32_id (polyBits b + tileBits b)) by (unfold is_u32; lia).
  rewrite !mask32 by lia. rewrite !land_mask by lia.
  rewrite !Z.shiftr_div_pow2 by lia.
  assert (0 < 2 ^ polyBits b) by (apply Z.pow_pos_nonneg; lia).
  assert (0 < 2 ^ tileBits b) by (apply Z.pow_pos_nonneg; lia).
  assert (0 < 2 ^ saltBits b) by (apply Z.pow_pos_nonneg; lia).
  assert (2 ^ saltBits b * 2 ^ tileBits b * 2 ^ polyBits b = 2 ^ 32) as E32.
  { rewrite <- !Z.pow_add_r by lia. f_equal. lia. }
  repeat split; try (apply Z.mod_pos_bound; assumption).
  rewrite encode_value; try assumption; try (apply Z.mod_pos_bound; assumption).
  rewrite Z.pow_add_r by lia. rewrite <- Z.div_div by lia.
  set (q := ref / 2 ^ polyBits b). set (q2 := q / 2 ^ tileBits b).
  assert (0 <= q2 < 2 ^ saltBits b).
  { unfold q2, q. rewrite Z.div_div by lia. unfold is_u32 in Href. change 4294967296 with (2^32) in Href.
    split; [apply Z.div_pos; nia|]. apply Z.div_lt_upper_bound; nia. }
  rewrite (Z.mod_small q2) by lia.
  assert (q2 * 2 ^ tileBits b + q mod 2 ^ tileBits b = q) as ->.
  { unfold q2. pose proof (Z.div_mod q (2 ^ tileBits b)). lia. }
  unfold q. pose proof (Z.div_mod ref (2 ^ polyBits b)). lia.
Qed.

Lemma ilog2_nextpow2 : forall v, 0 <= v <= 2 ^ 31 -> Ilog2 (NextPow2 v) = Z.log2_up v.
Proof.
  intros v Hv. unfold Ilog2, NextPow2.
  destruct (Z.eqb_spec v 0) as [->|N]; [reflexivity|].
  assert (0 <= Z.log2_up v) by apply Z.log2_up_nonneg.
  assert (Z.log2_up v <= 31).
  { apply Z.log2_up_le_pow2; lia. }
  assert (2 ^ Z.log2_up v <= 2 ^ 31) by (apply Z.pow_le_mono_r; lia).
  assert (0 < 2 ^ Z.log2_up v) by (apply Z.pow_pos_nonneg; lia).
  rewrite u32_id by (unfold is_u32; change 4294967296 with (2*2^31); lia).
  apply Z.log2_pow2. assumption.
Qed.

Lemma log2_up_iff : forall n k, 0 <= n -> 0 <= k -> (n <= 2 ^ k <-> Z.log2_up n <= k).
Proof.
  intros n k Hn Hk. destruct (Z.eq_dec n 0) as [->|N].
  - assert (0 < 2 ^ k) by (apply Z.pow_pos_nonneg; lia). change (Z.log2_up 0) with 0. lia.
  - apply Z.log2_up_le_pow2. lia.
Qed.

Lemma init_bits_facts : forall mt mp, 0 <= mt <= 2 ^ 31 -> 0 <= mp <= 2 ^ 31 ->
  Z.log2_up mt + Z.log2_up mp <= 32 ->
  bits_ok (init_bits mt mp) /\
  tileBits (init_bits mt mp) = Z.log2_up mt /\
  polyBits (init_bits mt mp) = Z.log2_up mp /\
  saltBits (init_bits mt mp) = Z.min 31 (32 - Z.log2_up mt - Z.log2_up mp).
Proof.
  intros mt mp Ht Hp Hsum.
  pose proof (Z.log2_up_nonneg mt). pose proof (Z.log2_up_nonneg mp).
  unfold init_bits, bits_ok; cbn [saltBits tileBits polyBits].
  rewrite !ilog2_nextpow2 by assumption.
  rewrite u32_id by (unfold is_u32; lia).
  destruct (Z.ltb_spec 31 (32 - Z.log2_up mt - Z.log2_up mp)); lia.
Qed.

Lemma init_status_iff : forall mt mp, 0 <= mt <= 2 ^ 31 -> 0 <= mp <= 2 ^ 31 ->
  Z.log2_up mt + Z.log2_up mp <= 32 ->
  (init_status (init_bits mt mp) = Success <-> Z.log2_up mt + Z.log2_up mp <= 24).
Proof.
  intros mt mp Ht Hp Hsum.
  destruct (init_bits_facts mt mp Ht Hp Hsum) as (_ & _ & _ & Hs).
  unfold init_status. rewrite Hs.
  destruct (Z.ltb_spec (Z.min 31 (32 - Z.log2_up mt - Z.log2_up mp)) 8); split; intros;
    try lia; try discriminate; reflexivity.
Qed.
