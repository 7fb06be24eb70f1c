(** Monotonicity of float32 differences, products and conversions to integers. *)
From Coq Require Import ZArith List Lia Bool.
From Verif.Base Require Import Res GoNum F32 Num.
From Verif.Proofs Require Import FloatAdd FloatMag.
Import ListNotations.
Open Scope Z_scope.

(** The signed value in units of 2^-149. *)
Definition neg (a : f32) : bool := match a with S754_zero s | S754_infinity s | S754_finite s _ _ => s | S754_nan => false end.
Definition SV (a : f32) : Z := sgn (neg a) (V a).

Lemma nn_SV : forall a, nn a -> SV a = V a.
Proof. intros [s|s| |s m e] H; cbn in H; try contradiction; unfold SV; cbn [neg]; destruct s; try contradiction; reflexivity. Qed.
Lemma num_split : forall a, num a -> nn a \/ nn (SFopp a).
Proof. intros [s|s| |s m e] H; cbn in *; try contradiction; auto; try (destruct s; auto). Qed.
Lemma SV_opp : forall a, SV (SFopp a) = - SV a.
Proof. intros [s|s| |s m e]; unfold SV; cbn [SFopp neg V sgn]; try (destruct s; cbn [negb sgn]; lia); reflexivity. Qed.
Lemma opp_opp : forall a : f32, SFopp (SFopp a) = a.
Proof. intros [s|s| |s m e]; cbn; now rewrite ?negb_involutive. Qed.
Lemma compare_opp : forall a b, SFcompare (SFopp a) (SFopp b) = SFcompare b a.
Proof.
  intros [s|s| |s m e] [t|t| |t n f]; try destruct s; try destruct t; try reflexivity; cbn [SFopp negb SFcompare].
  - rewrite (Z.compare_antisym f e). destruct (f ?= e); cbn [CompOpp]; try reflexivity.
    f_equal. change (Pcompare m n Eq) with (Pos.compare m n). change (Pcompare n m Eq) with (Pos.compare n m). rewrite (Pos.compare_antisym n m). reflexivity.
  - rewrite (Z.compare_antisym f e). destruct (f ?= e); cbn [CompOpp]; try reflexivity.
    f_equal. change (Pcompare m n Eq) with (Pos.compare m n). change (Pcompare n m Eq) with (Pos.compare n m). rewrite (Pos.compare_antisym n m). now rewrite CompOpp_involutive.
Qed.
Lemma compare_SV : forall a b, num a -> num b -> SFcompare a b = Some (SV a ?= SV b).
Proof.
  intros a b Ha Hb. destruct (num_split a Ha) as [Na|Na], (num_split b Hb) as [Nb|Nb].
  - rewrite compare_V by assumption. now rewrite !nn_SV by assumption.
  - assert (E : SV b = - V (SFopp b)) by (rewrite <- nn_SV by assumption; rewrite SV_opp; lia).
    rewrite (nn_SV a Na), E. pose proof (V_nonneg a Na). pose proof (V_nonneg _ Nb) as Pb.
    assert (X : forall m e, bounded fprec femax m e = true -> 0 < Zpos m * 2 ^ (e + 149)).
    { intros m e B. destruct (bounded_spec m e B) as (E1 & M & _). pose proof (pow149 e ltac:(lia)). nia. }
    pose proof OVER_INF.
    destruct a as [s|s| |s m e], b as [t|t| |t n f]; cbn in Na, Nb; try contradiction; try destruct s; try destruct t; try contradiction; cbn [SFcompare];
      f_equal; symmetry; rewrite ?Z.compare_eq_iff, ?Z.compare_lt_iff, ?Z.compare_gt_iff; cbn [V SFopp negb] in *; try lia;
      try (pose proof (X _ _ Na)); try (pose proof (X _ _ Nb)); lia.
  - assert (E : SV a = - V (SFopp a)) by (rewrite <- nn_SV by assumption; rewrite SV_opp; lia).
    rewrite (nn_SV b Nb), E. pose proof (V_nonneg b Nb). pose proof (V_nonneg _ Na) as Pb.
    assert (X : forall m e, bounded fprec femax m e = true -> 0 < Zpos m * 2 ^ (e + 149)).
    { intros m e B. destruct (bounded_spec m e B) as (E1 & M & _). pose proof (pow149 e ltac:(lia)). nia. }
    pose proof OVER_INF.
    destruct a as [s|s| |s m e], b as [t|t| |t n f]; cbn in Na, Nb; try contradiction; try destruct s; try destruct t; try contradiction; cbn [SFcompare];
      f_equal; symmetry; rewrite ?Z.compare_eq_iff, ?Z.compare_lt_iff, ?Z.compare_gt_iff; cbn [V SFopp negb] in *; try lia;
      try (pose proof (X _ _ Na)); try (pose proof (X _ _ Nb)); lia.
  - rewrite <- (opp_opp a), <- (opp_opp b), compare_opp, compare_V by assumption. f_equal.
    rewrite !opp_opp. pose proof (nn_SV _ Na) as Ea. pose proof (nn_SV _ Nb) as Eb. rewrite SV_opp in Ea, Eb. destruct (Z.compare_spec (V (SFopp b)) (V (SFopp a))); symmetry; rewrite ?Z.compare_eq_iff, ?Z.compare_lt_iff, ?Z.compare_gt_iff; lia.
Qed.
Lemma fle_SV : forall a b, num a -> num b -> fle a b = (SV a <=? SV b).
Proof. intros a b Ha Hb. unfold fle, SFleb. rewrite compare_SV by assumption. unfold Z.leb. destruct (SV a ?= SV b); reflexivity. Qed.
Lemma flt_SV : forall a b, num a -> num b -> flt a b = (SV a <? SV b).
Proof. intros a b Ha Hb. unfold flt, SFltb. rewrite compare_SV by assumption. unfold Z.ltb. destruct (SV a ?= SV b); reflexivity. Qed.

(** Exact sum, rounded; the sign is the sign of the exact sum. *)
Lemma normalize_SV : forall z e, -149 <= e -> 0 <= z ->
  nn (binary_normalize fprec femax z e false) /\ V (binary_normalize fprec femax z e false) = cap (rn (z * 2 ^ (e + 149))).
Proof.
  intros [|p|p] e He Hz; cbn [binary_normalize].
  - split; [exact I|reflexivity].
  - exact (binary_round_V p e He).
  - lia.
Qed.
Lemma fadd_SV : forall a b, fin a -> fin b -> 0 <= SV a + SV b ->
  nn (fadd a b) /\ V (fadd a b) = cap (rn (SV a + SV b)).
Proof.
  intros a b Ha Hb P.
  destruct (fin_cases a Ha) as [(sa & ->)|(sa & ma & ea & -> & Ba)], (fin_cases b Hb) as [(sb & ->)|(sb & mb & eb & -> & Bb)]; unfold fadd; cbn [SFadd].
  - destruct (Bool.eqb sa sb); (split; [exact I|]); unfold SV; cbn [V neg sgn]; destruct sa, sb; reflexivity.
  - assert (E0 : SV (S754_zero sa) = 0) by (unfold SV; destruct sa; reflexivity). rewrite E0, Z.add_0_l in *.
    assert (N : nn (S754_finite sb mb eb)).
    { destruct sb; [|exact Bb]. exfalso. unfold SV in P. cbn [neg V sgn] in P. destruct (bounded_spec mb eb Bb) as (E1 & M & _). pose proof (pow149 eb ltac:(lia)). nia. }
    split; [exact N|]. rewrite (nn_SV _ N). symmetry. now apply cap_rn_V.
  - assert (E0 : SV (S754_zero sb) = 0) by (unfold SV; destruct sb; reflexivity). rewrite E0, Z.add_0_r in *.
    assert (N : nn (S754_finite sa ma ea)).
    { destruct sa; [|exact Ba]. exfalso. unfold SV in P. cbn [neg V sgn] in P. destruct (bounded_spec ma ea Ba) as (E1 & M & _). pose proof (pow149 ea ltac:(lia)). nia. }
    split; [exact N|]. rewrite (nn_SV _ N). symmetry. now apply cap_rn_V.
  - destruct (bounded_spec ma ea Ba) as (Ea & _). destruct (bounded_spec mb eb Bb) as (Eb & _). set (ez := Z.min ea eb) in *.
    set (x := fst (shl_align ma ea ez)). set (y := fst (shl_align mb eb ez)).
    assert (S1 : SV (S754_finite sa ma ea) + SV (S754_finite sb mb eb) = (cond_Zopp sa (Zpos x) + cond_Zopp sb (Zpos y)) * 2 ^ (ez + 149)).
    { unfold SV. cbn [neg V]. rewrite <- (align_V ma ea ez), <- (align_V mb eb ez) by lia. fold x y. destruct sa, sb; cbn [sgn cond_Zopp]; ring. }
    rewrite S1 in *. assert (Pz : 0 <= cond_Zopp sa (Zpos x) + cond_Zopp sb (Zpos y)) by (pose proof (pow149 ez ltac:(lia)); nia).
    apply normalize_SV; [lia|exact Pz].
Qed.
Lemma fsub_SV : forall a b, fin a -> fin b -> SV b <= SV a ->
  nn (fsub a b) /\ V (fsub a b) = cap (rn (SV a - SV b)).
Proof.
  intros a b Ha Hb P. destruct (fsub_opp a b) as [E|(s & t & -> & ->)].
  - rewrite E. destruct (fadd_SV a (SFopp b) Ha (fin_opp _ Hb)) as [N Q]; [rewrite SV_opp; lia|].
    split; [exact N|]. rewrite Q, SV_opp. do 2 f_equal. 
  - split; [unfold fsub; cbn [SFsub]; destruct (Bool.eqb s (negb t)); exact I|].
    unfold fsub. cbn [SFsub]. unfold SV. destruct s, t; reflexivity.
Qed.
Lemma fsub_mono : forall a b c, fin a -> fin b -> fin c -> SV c <= SV a -> SV a <= SV b ->
  V (fsub a c) <= V (fsub b c).
Proof.
  intros a b c Ha Hb Hc H1 H2. destruct (fsub_SV a c Ha Hc H1) as [_ E1]. destruct (fsub_SV b c Hb Hc ltac:(lia)) as [_ E2].
  rewrite E1, E2. apply cap_mono, rn_mono; lia.
Qed.

(** The product of two non-negative finite values; their product counts units of 2^-298. *)
Definition drop2 (v : Z) : Z := Z.max 149 (Z.log2 v - 23).
Definition rn2 (v : Z) : Z := rne v (drop2 v) * 2 ^ (drop2 v - 149).
Lemma rn2_mono : forall a b, 0 <= a -> a <= b -> rn2 a <= rn2 b.
Proof.
  intros a b Ha L. unfold rn2. assert (D : drop2 a <= drop2 b) by (unfold drop2; pose proof (Z.log2_le_mono a b L); lia).
  assert (Da : 149 <= drop2 a) by (unfold drop2; lia).
  destruct (Z.eq_dec (drop2 a) (drop2 b)) as [E|E].
  - rewrite E. apply Z.mul_le_mono_nonneg_r; [apply Z.pow_nonneg; lia|]. apply rne_mono; lia.
  - assert (Hb : drop2 b = Z.log2 b - 23) by (unfold drop2 in *; lia).
    assert (Pb : 0 < b) by (destruct (Z.eq_dec b 0) as [->|]; [unfold drop2 in *; cbn in *; lia|lia]).
    transitivity (2 ^ (24 + (drop2 a - 149))).
    + rewrite Z.pow_add_r by lia. apply Z.mul_le_mono_nonneg_r; [apply Z.pow_nonneg; lia|].
      replace 24 with (24 + drop2 a - drop2 a) by lia. apply rne_le_pow; [lia|lia|].
      destruct (Z.eq_dec a 0) as [->|]; [apply Z.pow_pos_nonneg; lia|].
      pose proof (Z.log2_spec a ltac:(lia)) as [_ U]. eapply Z.lt_le_trans; [exact U|]. apply Z.pow_le_mono_r; unfold drop2 in *; lia.
    + transitivity (2 ^ 23 * 2 ^ (drop2 b - 149)).
      * rewrite <- Z.pow_add_r by lia. apply Z.pow_le_mono_r; lia.
      * apply Z.mul_le_mono_nonneg_r; [apply Z.pow_nonneg; lia|].
        replace 23 with (Z.log2 b - drop2 b) by lia. apply rne_ge_pow; [unfold drop2 in *; lia|]. apply Z.log2_spec. lia.
Qed.
Lemma rn2_0 : rn2 0 = 0.
Proof. reflexivity. Qed.
Lemma fmul_V : forall a b, nn a -> nn b -> fin a -> fin b ->
  nn (fmul a b) /\ V (fmul a b) = cap (rn2 (V a * V b)).
Proof.
  intros a b Na Nb Fa Fb.
  destruct (fin_cases a Fa) as [(sa & ->)|(sa & ma & ea & -> & Ba)].
  { destruct (fin_cases b Fb) as [(sb & ->)|(sb & mb & eb & -> & Bb)]; (split; [exact I|]); cbn [V]; rewrite Z.mul_0_l; reflexivity. }
  destruct (fin_cases b Fb) as [(sb & ->)|(sb & mb & eb & -> & Bb)].
  { split; [exact I|]. change (V (S754_zero sb)) with 0. rewrite Z.mul_0_r. reflexivity. }
  destruct sa; [contradiction|]. destruct sb; [contradiction|]. rewrite fmul_finite by assumption. cbv zeta. cbn [xorb].
  pose proof (fx_mul _ _ _ _ Ba Bb) as F. destruct (finish_nn (Zpos ma * Zpos mb) (ea + eb) ltac:(lia) F) as [N E].
  split; [exact N|]. rewrite E. f_equal. cbn [V]. destruct (bounded_spec ma ea Ba) as (Ea & _). destruct (bounded_spec mb eb Bb) as (Eb & _).
  set (M := Zpos ma * Zpos mb) in *. assert (HM : 0 < M) by (unfold M; lia).
  replace (Zpos ma * 2 ^ (ea + 149) * (Zpos mb * 2 ^ (eb + 149))) with (M * 2 ^ (ea + eb + 298)).
  2:{ unfold M. replace (ea + eb + 298) with ((ea + 149) + (eb + 149)) by lia. rewrite Z.pow_add_r by lia. ring. }
  assert (D : drop2 (M * 2 ^ (ea + eb + 298)) = fx M (ea + eb) + 298).
  { unfold drop2, fx. rewrite Z.log2_mul_pow2 by lia. lia. }
  unfold rn2. rewrite D. f_equal; [|f_equal; lia].
  rewrite <- (rne_scale M (fx M (ea + eb) - (ea + eb)) (ea + eb + 298)) by lia. f_equal. lia.
Qed.
Lemma fmul_mono : forall a b c, nn a -> nn b -> nn c -> fin a -> fin b -> fin c -> V a <= V b -> V (fmul a c) <= V (fmul b c).
Proof.
  intros a b c Na Nb Nc Fa Fb Fc L. destruct (fmul_V a c Na Nc Fa Fc) as [_ E1]. destruct (fmul_V b c Nb Nc Fb Fc) as [_ E2].
  rewrite E1, E2. pose proof (V_nonneg a Na). pose proof (V_nonneg c Nc). apply cap_mono, rn2_mono; nia.
Qed.
Lemma fmul_comm_V : forall a b, nn a -> nn b -> fin a -> fin b -> V (fmul a b) = V (fmul b a).
Proof. intros a b Na Nb Fa Fb. rewrite (proj2 (fmul_V a b Na Nb Fa Fb)), (proj2 (fmul_V b a Nb Na Fb Fa)). now rewrite Z.mul_comm. Qed.

(** Conversion to an integer. *)
Lemma trunc_V : forall a, nn a -> fin a -> f_trunc a = Some (V a / 2 ^ 149).
Proof.
  intros a Na Fa. destruct (fin_cases a Fa) as [(s & ->)|(s & m & e & -> & B)]; [reflexivity|]. destruct s; [contradiction|].
  destruct (bounded_spec m e B) as (E & _). cbn [f_trunc V]. f_equal. destruct (Z.leb_spec 0 e).
  - rewrite Z.pow_add_r by lia. rewrite Z.mul_assoc, Z.div_mul by (apply Z.pow_nonzero; lia). reflexivity.
  - replace (2 ^ 149) with (2 ^ (- e) * 2 ^ (e + 149)) by (rewrite <- Z.pow_add_r by lia; f_equal; lia).
    rewrite Z.div_mul_cancel_r; [reflexivity|apply Z.pow_nonzero; lia|apply Z.pow_nonzero; lia].
Qed.
Lemma nn_fin_lt : forall a k, nn a -> k <= 277 -> V a < 2 ^ k -> fin a.
Proof. intros a k Na K L. split; [now apply nn_num|]. eapply Z.lt_le_trans; [exact L|]. unfold INF. apply Z.pow_le_mono_r; lia. Qed.
Lemma to_i32_V : forall a, nn a -> V a < 2 ^ 180 -> f_to_i32 a = V a / 2 ^ 149.
Proof.
  intros a Na L. unfold f_to_i32. rewrite trunc_V; [|exact Na|eapply nn_fin_lt; [exact Na| |exact L]; lia].
  pose proof (V_nonneg a Na). assert (0 <= V a / 2 ^ 149) by (apply Z.div_pos; lia).
  assert (V a / 2 ^ 149 < 2 ^ 31) by (apply Z.div_lt_upper_bound; [lia|]; rewrite <- Z.pow_add_r by lia; exact L).
  rewrite (proj2 (Z.leb_le _ _)), (proj2 (Z.ltb_lt _ _)) by lia. reflexivity.
Qed.

(** Differences that are not positive. *)
Lemma fadd_neg : forall a b, fin a -> fin b -> SV a + SV b <= 0 -> nn (SFopp (fadd a b)).
Proof.
  intros a b Ha Hb P.
  destruct (fin_cases a Ha) as [(sa & ->)|(sa & ma & ea & -> & Ba)], (fin_cases b Hb) as [(sb & ->)|(sb & mb & eb & -> & Bb)]; unfold fadd; cbn [SFadd].
  - destruct (Bool.eqb sa sb); exact I.
  - assert (E0 : SV (S754_zero sa) = 0) by (unfold SV; destruct sa; reflexivity). rewrite E0, Z.add_0_l in *.
    destruct sb; [exact Bb|]. exfalso. unfold SV in P. cbn [neg V sgn] in P. destruct (bounded_spec mb eb Bb) as (E1 & M & _). pose proof (pow149 eb ltac:(lia)). nia.
  - assert (E0 : SV (S754_zero sb) = 0) by (unfold SV; destruct sb; reflexivity). rewrite E0, Z.add_0_r in *.
    destruct sa; [exact Ba|]. exfalso. unfold SV in P. cbn [neg V sgn] in P. destruct (bounded_spec ma ea Ba) as (E1 & M & _). pose proof (pow149 ea ltac:(lia)). nia.
  - destruct (bounded_spec ma ea Ba) as (Ea & _). destruct (bounded_spec mb eb Bb) as (Eb & _). set (ez := Z.min ea eb) in *.
    set (x := fst (shl_align ma ea ez)). set (y := fst (shl_align mb eb ez)).
    assert (S1 : SV (S754_finite sa ma ea) + SV (S754_finite sb mb eb) = (cond_Zopp sa (Zpos x) + cond_Zopp sb (Zpos y)) * 2 ^ (ez + 149)).
    { unfold SV. cbn [neg V]. rewrite <- (align_V ma ea ez), <- (align_V mb eb ez) by lia. fold x y. destruct sa, sb; cbn [sgn cond_Zopp]; ring. }
    rewrite S1 in P. assert (Pz : cond_Zopp sa (Zpos x) + cond_Zopp sb (Zpos y) <= 0) by (pose proof (pow149 ez ltac:(lia)); nia).
    destruct (cond_Zopp sa (Zpos x) + cond_Zopp sb (Zpos y)) as [|p|p]; [exact I|lia|]. cbn [binary_normalize].
    rewrite round_opp, opp_opp. apply binary_round_V. lia.
Qed.
Lemma fsub_neg : forall a b, fin a -> fin b -> SV a <= SV b -> nn (SFopp (fsub a b)).
Proof.
  intros a b Ha Hb P. destruct (fsub_opp a b) as [E|(s & t & -> & ->)].
  - rewrite E. apply fadd_neg; [exact Ha|now apply fin_opp|rewrite SV_opp; lia].
  - unfold fsub. cbn [SFsub]. destruct (Bool.eqb s (negb t)); exact I.
Qed.
Lemma to_i32_neg : forall a b, nn (SFopp a) -> nn b -> f_to_i32 (fmul a b) <= 0.
Proof.
  intros a b Na Nb. assert (T : forall z, (if (-2147483648 <=? - z) && (- z <? 2147483648) then - z else -2147483648) <= 0 \/ z < 0).
  { intros z. destruct (Z.lt_ge_cases z 0); [now right|left]. destruct (_ && _); lia. }
  destruct a as [s|s| |s m e], b as [t|t| |t n f]; cbn in Na, Nb; try contradiction; try destruct s; try destruct t; try contradiction;
    try (unfold f_to_i32, fmul; cbn [SFmul f_trunc xorb]; reflexivity || discriminate).
  rewrite fmul_finite by assumption. cbv zeta. cbn [xorb].
  destruct (finish_nn (Zpos m * Zpos n) (e + f) ltac:(lia) (fx_mul _ _ _ _ Na Nb)) as [N _].
  match type of N with nn ?r => destruct r as [s|s| |s k g] end; cbn in N; try contradiction; try (destruct s; try contradiction; unfold f_to_i32; cbn [SFopp f_trunc]; reflexivity || discriminate).
  destruct s; try contradiction. unfold f_to_i32. cbn [SFopp f_trunc negb]. match goal with |- context [- ?z] => destruct (T z) as [H|H]; [exact H|exfalso] end.
  assert (0 < 2 ^ g \/ g < 0) by (destruct (Z.lt_ge_cases g 0); [now right|left; apply Z.pow_pos_nonneg; lia]).
  destruct (Z.leb_spec 0 g); [nia|]. pose proof (Z.div_pos (Zpos k) (2 ^ (- g)) ltac:(lia) ltac:(apply Z.pow_pos_nonneg; lia)). lia.
Qed.
