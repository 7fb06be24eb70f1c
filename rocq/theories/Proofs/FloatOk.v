(** Results of float32 operations are valid floats, and valid floats survive the bit pattern. *)
From Coq Require Import ZArith List Lia Bool.
From Verif.Base Require Import Res GoNum F32 Num.
From Verif.Proofs Require Import FloatAdd FloatMag FindPathEnd.
Import ListNotations.
Open Scope Z_scope.

Definition ok32 (a : f32) : Prop := a = S754_nan \/ num a.

Lemma ok_of_bits : forall b, ok32 (f_of_bits b).
Proof. exact f_of_bits_num. Qed.
Lemma ok_of_Z : forall z, ok32 (f_of_Z z).
Proof. intros z. right. apply normalize_V. lia. Qed.
Lemma num_fin : forall a, num a -> fin a \/ exists s, a = S754_infinity s.
Proof.
  intros [s|s| |s m e] H; eauto; left; (split; [exact H|]); cbn [V]; pose proof OVER_INF; try lia.
  cbn [num fabs SFabs nn] in H. pose proof (V_finite m e H). lia.
Qed.
Lemma ok_fadd : forall a b, ok32 a -> ok32 b -> ok32 (fadd a b).
Proof.
  intros a b [->|Ha] [->|Hb]; try (left; reflexivity).
  - left. destruct a; reflexivity.
  - destruct (num_fin a Ha) as [Fa|(s & ->)].
    + destruct (num_fin b Hb) as [Fb|(s & ->)]; [right; now apply fadd_fin|]. right. destruct a; try exact I; [|contradiction]. destruct Fa as [_ Fa]. exfalso. cbn [V] in Fa. lia.
    + destruct (num_fin b Hb) as [Fb|(t & ->)]; [right; destruct b; try exact I; exfalso; [destruct Fb as [_ Fb]; cbn [V] in Fb; lia|exact Hb]|]. destruct s, t; try (left; reflexivity); right; exact I.
Qed.
Lemma ok_fmul : forall a b, ok32 a -> ok32 b -> ok32 (fmul a b).
Proof.
  intros a b [->|Ha] [->|Hb]; try (left; reflexivity).
  - left. destruct a; reflexivity.
  - destruct a as [s|s| |s m e], b as [t|t| |t m' e']; try contradiction; try (left; reflexivity); try (right; exact I).
    right. apply fmul_num; try assumption; left; cbn [V]; pose proof OVER_INF;
    [pose proof (V_finite m e Ha)|pose proof (V_finite m' e' Hb)]; lia.
Qed.
(** 1/x does not vanish. *)
Lemma ok_inv : forall b, ok32 b -> ok32 (fdiv f1 b).
Proof.
  intros b [->|Hb]; [left; reflexivity|]. change f1 with (S754_finite false 8388608 (-23)).
  destruct b as [t|t| |t m e]; try contradiction; try (right; exact I). right. cbn [num fabs SFabs nn] in Hb.
  destruct (bounded_spec m e Hb) as (He & Hm & _). unfold fdiv. cbn [SFdiv]. unfold SFdiv_core_binary.
  rewrite Zdigits2_eq by lia. rewrite (Zdigits2_eq (Zpos m)) by lia. change (Z.log2 8388608 + 1) with 24. rewrite fexp_eq.
  set (d := Z.log2 (Zpos m) + 1). set (e' := Z.min (Z.max (24 + -23 - (d + e) - 24) (-149)) (-23 - e)).
  set (s := -23 - e - e'). assert (Hs : 0 <= s) by (unfold s, e'; lia).
  assert (Em : (match s with Zpos _ => Z.shiftl 8388608 s | Z0 => 8388608 | Zneg _ => 0 end) = 2 ^ (23 + s)).
  { rewrite Z.pow_add_r by lia. change (2 ^ 23) with 8388608. destruct s as [|p|p]; [reflexivity|now rewrite Z.shiftl_mul_pow2 by lia|lia]. }
  rewrite Em. clear Em. pose proof (Z.log2_spec (Zpos m) ltac:(lia)) as [Lo Up]. pose proof (Z.log2_nonneg (Zpos m)) as Lg.
  assert (Hd : d <= 24) by (unfold d; assert (Z.log2 (Zpos m) < 24) by (apply Z.log2_lt_pow2; lia); lia).
  assert (Sd : d <= 23 + s) by (unfold s, e'; lia).
  pose proof (Z.div_eucl_eq (2 ^ (23 + s)) (Zpos m) ltac:(lia)) as De. change (fst (Z.div_eucl (2 ^ (23 + s)) (Zpos m))) with (2 ^ (23 + s) / Zpos m) in *.
  assert (Eq : fst (Z.div_eucl (2 ^ (23 + s)) (Zpos m)) = 2 ^ (23 + s) / Zpos m) by (unfold Z.div; destruct (Z.div_eucl _ _); reflexivity).
  destruct (Z.div_eucl (2 ^ (23 + s)) (Zpos m)) as [q r]. cbn [fst] in Eq. clear De.
  assert (Lq : 2 ^ (23 + s - d) <= q).
  { rewrite Eq. apply Z.div_le_lower_bound; [lia|]. replace (23 + s) with (d + (23 + s - d)) at 2 by lia. rewrite (Z.pow_add_r 2 d) by (unfold d in *; lia).
    apply Z.mul_le_mono_nonneg_r; [apply Z.pow_nonneg; lia|]. unfold d. replace (Z.log2 (Zpos m) + 1) with (Z.succ (Z.log2 (Zpos m))) by lia. lia. }
  assert (Hq : 0 < q) by (assert (0 < 2 ^ (23 + s - d)) by (apply Z.pow_pos_nonneg; lia); lia).
  assert (Lg2 : 23 + s - d <= Z.log2 q) by (apply Z.log2_le_pow2; lia).
  assert (X : nn (binary_round_aux fprec femax false q e' (new_location (Zpos m) r))).
  { apply round_aux_nn; [exact Hq|]. unfold fx. unfold s, e' in *. lia. }
  destruct (xorb false t); [rewrite round_aux_opp; apply num_opp|]; now apply nn_num.
Qed.

Lemma bits_u32 : forall a, ok32 a -> is_u32 (bits_of_f a).
Proof.
  intros a [->|H]; [unfold is_u32; cbn; lia|]. unfold is_u32. destruct a as [s|s| |s m e]; try contradiction; cbn [bits_of_f]; try (destruct s; lia).
  cbn [num fabs SFabs nn] in H. destruct (bounded_spec m e H) as (He & Hm & _). destruct s, (Z.ltb_spec (Z.pos m) 8388608); lia.
Qed.
Lemma bits_back : forall a, ok32 a -> f_of_bits (bits_of_f a) = a.
Proof.
  intros a [->|H]; [reflexivity|]. destruct a as [s|s| |s m e]; try contradiction; try (destruct s; reflexivity).
  cbn [num fabs SFabs nn] in H. destruct (bounded_spec m e H) as (He & Hm & Hn). cbn [bits_of_f].
  set (b := if s then 2147483648 else 0). assert (Hb : b = 0 \/ b = 256 * 8388608) by (unfold b; destruct s; lia).
  assert (K : forall x y, 0 <= x < 255 -> 0 <= y < 8388608 -> (x <> 0 \/ y <> 0) ->
    f_of_bits (b + (x * 8388608 + y)) = if x =? 0 then match y with Zpos p => S754_finite s p (-149) | _ => S754_zero s end
                                        else match y + 8388608 with Zpos p => S754_finite s p (x - 150) | _ => S754_nan end).
  { intros x y Hx Hy N. unfold f_of_bits.
    replace (2147483648 <=? b + (x * 8388608 + y)) with s by (unfold b; destruct s; symmetry; [apply Z.leb_le|apply Z.leb_gt]; lia).
    replace ((b + (x * 8388608 + y)) / 8388608 mod 256) with x.
    2:{ destruct Hb as [-> | ->].
        - replace (0 + (x * 8388608 + y)) with (y + x * 8388608) by lia. rewrite Z.div_add, Z.div_small by lia. symmetry. apply Z.mod_small. lia.
        - replace (256 * 8388608 + (x * 8388608 + y)) with (y + (x + 1 * 256) * 8388608) by lia. rewrite Z.div_add, Z.div_small by lia. rewrite Z.add_0_l, Z.mod_add by lia. symmetry. apply Z.mod_small. lia. }
    replace ((b + (x * 8388608 + y)) mod 8388608) with y.
    2:{ destruct Hb as [-> | ->].
        - replace (0 + (x * 8388608 + y)) with (y + x * 8388608) by lia. rewrite Z.mod_add by lia. symmetry. apply Z.mod_small. lia.
        - replace (256 * 8388608 + (x * 8388608 + y)) with (y + (x + 1 * 256) * 8388608) by lia. rewrite Z.mod_add by lia. symmetry. apply Z.mod_small. lia. }
    destruct (Z.eqb_spec x 255); [lia|]. reflexivity. }
  clearbody b. destruct (Z.ltb_spec (Z.pos m) 8388608) as [L|L].
  - replace (Z.pos m) with (0 * 8388608 + Z.pos m) by lia. rewrite K by lia. cbn [Z.eqb]. f_equal. destruct (Z.eq_dec e (-149)); [lia|]. specialize (Hn ltac:(lia)). lia.
  - rewrite K by lia. destruct (Z.eqb_spec (e + 150) 0); [lia|]. replace (Z.pos m - 8388608 + 8388608) with (Z.pos m) by lia. f_equal. lia.
Qed.
