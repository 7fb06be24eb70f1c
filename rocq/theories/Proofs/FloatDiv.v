(** Quotients of finite float32 values are valid. *)
From Coq Require Import ZArith List Lia Bool.
From Coq Require Import Floats.SpecFloat.
From Verif.Base Require Import Res GoNum F32 Num.
From Verif.Proofs Require Import FloatAdd FloatMag.
Import ListNotations.
Open Scope Z_scope.

Lemma round_aux_zero : forall e l, e <= -149 -> nn (binary_round_aux fprec femax false 0 e l).
Proof.
  intros e l He. unfold binary_round_aux, shr_fexp. cbn [Zdigits2]. rewrite Z.add_0_l, fexp_eq. replace (Z.max (e - 24) (-149)) with (-149) by lia.
  assert (S1 : exists r, shr (shr_record_of_loc 0 l) e (-149 - e) = (r, -149) /\ shr_m r = 0).
  { assert (M0 : shr_m (shr_record_of_loc 0 l) = 0) by (destruct l as [|[ | | ]]; reflexivity).
    destruct (-149 - e) as [|p|p] eqn:En; [|cbn [shr]|lia].
    - exists (shr_record_of_loc 0 l). cbn [shr]. split; [f_equal; lia|exact M0].
    - eexists. split; [f_equal; lia|]. rewrite iter_pos_nat, iter_shr_m by (rewrite M0; lia). rewrite M0. apply Z.div_0_l. pose proof (pow2_pos (Pos.to_nat p)). lia. }
  destruct S1 as (r1 & -> & Er). rewrite Er. unfold round_nearest_even. destruct (loc_of_shr_record r1) as [|[ | | ]]; cbn; try exact I; reflexivity.
Qed.
Lemma fdiv_num : forall a b, fin a -> fin b -> V b <> 0 -> num (fdiv a b).
Proof.
  intros a b Ha Hb Nb. destruct (fin_cases b Hb) as [(sb & ->)|(sb & mb & eb & -> & Bb)]; [cbn in Nb; congruence|].
  destruct (fin_cases a Ha) as [(sa & ->)|(sa & ma & ea & -> & Ba)]; [exact I|].
  destruct (bounded_spec ma ea Ba) as (Hea & Hma & _). destruct (bounded_spec mb eb Bb) as (Heb & Hmb & _). unfold fdiv. cbn [SFdiv]. unfold SFdiv_core_binary.
  rewrite !Zdigits2_eq by lia. rewrite fexp_eq. set (d1 := Z.log2 (Zpos ma) + 1). set (d2 := Z.log2 (Zpos mb) + 1).
  pose proof (Z.log2_spec (Zpos mb) ltac:(lia)) as [Lob Upb]. pose proof (Z.log2_nonneg (Zpos mb)) as Lgb. pose proof (Z.log2_spec (Zpos ma) ltac:(lia)) as [Loa Upa]. pose proof (Z.log2_nonneg (Zpos ma)) as Lga.
  assert (Hd1 : 1 <= d1 <= 24) by (unfold d1; assert (Z.log2 (Zpos ma) < 24) by (apply Z.log2_lt_pow2; lia); lia).
  assert (Hd2 : 1 <= d2 <= 24) by (unfold d2; assert (Z.log2 (Zpos mb) < 24) by (apply Z.log2_lt_pow2; lia); lia).
  set (e' := Z.min (Z.max (d1 + ea - (d2 + eb) - 24) (-149)) (ea - eb)). set (s := ea - eb - e'). assert (Hs : 0 <= s) by (unfold s, e'; lia).
  assert (Em : (match s with Zpos _ => Z.shiftl (Zpos ma) s | Z0 => Zpos ma | Zneg _ => 0 end) = Zpos ma * 2 ^ s).
  { destruct s as [|p|p]; [now rewrite Z.mul_1_r|now rewrite Z.shiftl_mul_pow2 by lia|lia]. }
  rewrite Em. clear Em. assert (Ps : 0 < 2 ^ s) by (apply Z.pow_pos_nonneg; lia).
  assert (Eq : fst (Z.div_eucl (Zpos ma * 2 ^ s) (Zpos mb)) = Zpos ma * 2 ^ s / Zpos mb) by (unfold Z.div; destruct (Z.div_eucl _ _); reflexivity).
  destruct (Z.div_eucl (Zpos ma * 2 ^ s) (Zpos mb)) as [q r]. cbn [fst] in Eq.
  assert (Q0 : 0 <= q) by (rewrite Eq; apply Z.div_pos; nia).
  assert (X : nn (binary_round_aux fprec femax false q e' (new_location (Zpos mb) r))).
  { destruct (Z_le_gt_dec e' (-149)) as [L|G].
    - destruct (Z.eq_dec q 0) as [->|N]; [apply round_aux_zero; exact L|]. apply round_aux_nn; [lia|]. unfold fx. lia.
    - assert (Es : s = 24 + d2 - d1) by (unfold s, e' in *; lia).
      assert (Lq : 2 ^ 23 <= q).
      { rewrite Eq. apply Z.div_le_lower_bound; [lia|]. transitivity (2 ^ d2 * 2 ^ 23).
        - apply Z.mul_le_mono_nonneg_r; [lia|]. unfold d2. replace (Z.log2 (Zpos mb) + 1) with (Z.succ (Z.log2 (Zpos mb))) by lia. lia.
        - rewrite <- Z.pow_add_r by lia. replace (d2 + 23) with ((d1 - 1) + s) by lia. rewrite Z.pow_add_r by lia. apply Z.mul_le_mono_nonneg_r; [lia|]. unfold d1. replace (Z.log2 (Zpos ma) + 1 - 1) with (Z.log2 (Zpos ma)) by lia. exact Loa. }
      apply round_aux_nn; [lia|]. assert (23 <= Z.log2 q) by (apply Z.log2_le_pow2; lia). unfold fx. lia. }
  destruct (xorb sa sb); [rewrite round_aux_opp; apply num_opp|]; now apply nn_num.
Qed.

(** The clamped parameter of a segment. *)
Lemma clamp01_mag : forall t, num t -> mag 149 (if F32.flt t f0 then f0 else if F32.flt f1 t then f1 else t).
Proof.
  intros t Ht. destruct (F32.flt t f0) eqn:E0; [split; [exact I|vm_compute; discriminate]|].
  destruct (F32.flt f1 t) eqn:E1; [split; [vm_compute; reflexivity|vm_compute; discriminate]|]. split; [exact Ht|].
  assert (V1 : nn f1 /\ V f1 = 2 ^ 149) by (split; vm_compute; reflexivity). destruct V1 as [N1 V1].
  destruct t as [s|s| |s mm e]; try contradiction.
  - vm_compute. discriminate.
  - destruct s; [discriminate E0|]. change (F32.flt f1 (S754_infinity false)) with true in E1. discriminate.
  - destruct s; [discriminate E0|]. assert (Nt : nn (S754_finite false mm e)) by exact Ht. rewrite flt_V in E1 by assumption. rewrite V1 in E1. apply Z.ltb_ge in E1. exact E1.
Qed.
