(** Float32 operations on finite values: sizes of results, products, square roots. *)
From Coq Require Import ZArith List Lia Bool.
From Verif.Base Require Import Res GoNum F32 Num.
From Verif.Proofs Require Import FloatAdd.
Import ListNotations.
Open Scope Z_scope.

(** A valid float32 that is not NaN. *)
Definition num (a : f32) : Prop := nn (fabs a).
(** Magnitude at most 2^(k-149). *)
Definition mag (k : Z) (a : f32) : Prop := num a /\ V a <= 2 ^ k.
(** Finite. *)
Definition fin (a : f32) : Prop := num a /\ V a < INF.

Lemma nn_num : forall a, nn a -> num a.
Proof. intros a H. destruct a as [s|s| |s m e]; cbn in *; try exact I; try contradiction. destruct s; [contradiction|exact H]. Qed.
Lemma num_V : forall a, num a -> 0 <= V a <= INF.
Proof. intros a H. replace (V a) with (V (fabs a)) by (destruct a; reflexivity). now apply V_nonneg. Qed.
Lemma mag_fin : forall k a, k < 300 -> mag k a -> fin a.
Proof. intros k a Hk [H1 H2]. split; [exact H1|]. eapply Z.le_lt_trans; [exact H2|]. apply Z.pow_lt_mono_r; lia. Qed.
Lemma mag_le : forall k j a, k <= j -> mag k a -> mag j a.
Proof. intros k j a L [H1 H2]. split; [exact H1|]. etransitivity; [exact H2|]. apply Z.pow_le_mono_r; lia. Qed.
Lemma fin_cases : forall a, fin a -> (exists s, a = S754_zero s) \/ exists s m e, a = S754_finite s m e /\ bounded fprec femax m e = true.
Proof. intros [s|s| |s m e] [H L]; cbn in *; eauto; [lia|contradiction|right; eauto 6]. Qed.
Lemma V_opp : forall a, V (SFopp a) = V a.
Proof. intros [s|s| |s m e]; reflexivity. Qed.
Lemma num_opp : forall a, num (SFopp a) <-> num a.
Proof. intros [s|s| |s m e]; reflexivity. Qed.

Lemma round_aux_opp : forall m e l, binary_round_aux fprec femax true m e l = SFopp (binary_round_aux fprec femax false m e l).
Proof.
  intros m e l. unfold binary_round_aux. destruct (shr_fexp _ _ m e l) as [r1 e1]. destruct (shr_fexp _ _ _ e1 loc_Exact) as [r2 e2].
  destruct (shr_m r2); try reflexivity. destruct (Z.leb _ _); reflexivity.
Qed.
Lemma round_opp : forall m e, binary_round fprec femax true m e = SFopp (binary_round fprec femax false m e).
Proof. intros m e. unfold binary_round. destruct (shl_align _ _ _). apply round_aux_opp. Qed.

(** Rounding an integer multiple of a power of two. *)
Lemma normalize_V : forall z e, -149 <= e ->
  num (binary_normalize fprec femax z e false) /\ V (binary_normalize fprec femax z e false) = cap (rn (Z.abs z * 2 ^ (e + 149))).
Proof.
  intros [|p|p] e He; cbn [binary_normalize Z.abs].
  - split; [exact I|]. reflexivity.
  - destruct (binary_round_V p e He) as [N E]. split; [now apply nn_num|exact E].
  - destruct (binary_round_V p e He) as [N E]. rewrite round_opp. split; [apply num_opp; now apply nn_num|rewrite V_opp; exact E].
Qed.
Lemma cap_rn_pow : forall v k, 0 <= v <= 2 ^ k -> 0 <= k < 277 -> cap (rn v) <= 2 ^ k.
Proof.
  intros v k Hv Hk. assert (R : rn v <= 2 ^ k).
  { replace (2 ^ k) with (rn (2 ^ k)); [apply rn_mono; lia|]. pose proof (rn_exact 1 k ltac:(lia) ltac:(lia)) as X. now rewrite !Z.mul_1_l in X. }
  unfold cap. destruct (Z.ltb_spec (rn v) OVER); [exact R|]. exfalso. assert (2 ^ k < OVER) by (apply Z.pow_lt_mono_r; lia). lia.
Qed.

Definition sgn (s : bool) (z : Z) : Z := if s then - z else z.
(** Sums and differences of finite values. *)
Lemma fadd_fin : forall a b, fin a -> fin b -> num (fadd a b) /\ V (fadd a b) <= cap (rn (V a + V b)).
Proof.
  intros a b Ha Hb. pose proof (num_V a (proj1 Ha)). pose proof (num_V b (proj1 Hb)).
  destruct (fin_cases a Ha) as [(sa & ->)|(sa & ma & ea & -> & Ba)], (fin_cases b Hb) as [(sb & ->)|(sb & mb & eb & -> & Bb)]; unfold fadd; cbn [SFadd].
  - destruct (Bool.eqb sa sb); split; try exact I; cbn [V]; vm_compute; discriminate.
  - split; [exact (proj1 Hb)|]. change (V (S754_zero sa)) with 0. rewrite Z.add_0_l.
    change (V (S754_finite sb mb eb)) with (V (S754_finite false mb eb)). rewrite cap_rn_V; [lia|exact Bb].
  - split; [exact (proj1 Ha)|]. change (V (S754_zero sb)) with 0. rewrite Z.add_0_r.
    change (V (S754_finite sa ma ea)) with (V (S754_finite false ma ea)). rewrite cap_rn_V; [lia|exact Ba].
  - destruct (bounded_spec ma ea Ba) as (Ea & _). destruct (bounded_spec mb eb Bb) as (Eb & _). set (ez := Z.min ea eb) in *.
    set (x := fst (shl_align ma ea ez)). set (y := fst (shl_align mb eb ez)).
    match goal with |- context [binary_normalize _ _ ?z ez false] => destruct (normalize_V z ez ltac:(lia)) as [N E]; split; [exact N|rewrite E; clear N E] end.
    apply cap_mono, rn_mono; [pose proof (pow149 ez ltac:(lia)); nia|]. cbn [V]. rewrite <- (align_V ma ea ez), <- (align_V mb eb ez) by lia. fold x y.
    rewrite <- Z.mul_add_distr_r. apply Z.mul_le_mono_nonneg_r; [pose proof (pow149 ez ltac:(lia)); lia|]. destruct sa, sb; cbn [cond_Zopp]; lia.
Qed.
Lemma fsub_opp : forall a b, fsub a b = fadd a (SFopp b) \/ (exists s t, a = S754_zero s /\ b = S754_zero t).
Proof.
  intros a b. unfold fsub, fadd. destruct a as [sa|sa| |sa ma ea], b as [sb|sb| |sb mb eb]; cbn [SFsub SFadd SFopp]; eauto; left; try reflexivity.
  destruct sa, sb; cbn [cond_Zopp negb Z.opp]; reflexivity.
Qed.
Lemma fin_opp : forall a, fin a -> fin (SFopp a).
Proof. intros a [H L]. split; [now apply num_opp|now rewrite V_opp]. Qed.
Lemma fsub_fin : forall a b, fin a -> fin b -> num (fsub a b) /\ V (fsub a b) <= cap (rn (V a + V b)).
Proof.
  intros a b Ha Hb. destruct (fsub_opp a b) as [E|(s & t & -> & ->)].
  - rewrite E. rewrite <- (V_opp b). apply fadd_fin; [exact Ha|now apply fin_opp].
  - unfold fsub. cbn [SFsub]. destruct (Bool.eqb s (negb t)); split; try exact I; cbn [V]; vm_compute; discriminate.
Qed.
Lemma fadd_mag : forall k a b, 0 <= k < 276 -> mag k a -> mag k b -> mag (k + 1) (fadd a b).
Proof.
  intros k a b Hk Ha Hb. destruct (fadd_fin a b) as [N L]; [apply (mag_fin k); [lia|auto]|apply (mag_fin k); [lia|auto]|]. split; [exact N|].
  etransitivity; [exact L|]. pose proof (num_V a (proj1 Ha)). pose proof (num_V b (proj1 Hb)). destruct Ha, Hb.
  apply cap_rn_pow; [|lia]. rewrite Z.pow_add_r by lia. lia.
Qed.
Lemma fsub_mag : forall k a b, 0 <= k < 276 -> mag k a -> mag k b -> mag (k + 1) (fsub a b).
Proof.
  intros k a b Hk Ha Hb. destruct (fsub_fin a b) as [N L]; [apply (mag_fin k); [lia|auto]|apply (mag_fin k); [lia|auto]|]. split; [exact N|].
  etransitivity; [exact L|]. pose proof (num_V a (proj1 Ha)). pose proof (num_V b (proj1 Hb)). destruct Ha, Hb.
  apply cap_rn_pow; [|lia]. rewrite Z.pow_add_r by lia. lia.
Qed.

(** Products. *)
Lemma fx_mul : forall m1 e1 m2 e2, bounded fprec femax m1 e1 = true -> bounded fprec femax m2 e2 = true ->
  e1 + e2 <= fx (Zpos m1 * Zpos m2) (e1 + e2).
Proof.
  intros m1 e1 m2 e2 B1 B2. destruct (bounded_spec m1 e1 B1) as (E1 & M1 & N1). destruct (bounded_spec m2 e2 B2) as (E2 & M2 & N2).
  unfold fx. destruct (Z.le_gt_cases (e1 + e2) (-149)); [lia|]. assert (2 ^ 23 <= Zpos m1 * Zpos m2).
  { destruct (Z.eq_dec e1 (-149)) as [->|]; [specialize (N2 ltac:(lia)); nia|]. specialize (N1 ltac:(lia)). nia. }
  assert (23 <= Z.log2 (Zpos m1 * Zpos m2)) by (apply Z.log2_le_pow2; lia). lia.
Qed.
Lemma fmul_finite : forall s1 m1 e1 s2 m2 e2, bounded fprec femax m1 e1 = true -> bounded fprec femax m2 e2 = true ->
  let R := finish false (rne (Zpos m1 * Zpos m2) (fx (Zpos m1 * Zpos m2) (e1 + e2) - (e1 + e2))) (fx (Zpos m1 * Zpos m2) (e1 + e2)) in
  fmul (S754_finite s1 m1 e1) (S754_finite s2 m2 e2) = if xorb s1 s2 then SFopp R else R.
Proof.
  intros s1 m1 e1 s2 m2 e2 B1 B2. cbv zeta. unfold fmul. cbn [SFmul]. rewrite Pos2Z.inj_mul. pose proof (fx_mul m1 e1 m2 e2 B1 B2) as F.
  destruct (xorb s1 s2); [rewrite round_aux_opp; f_equal|]; apply round_aux_eq; lia.
Qed.
Lemma fmul_num : forall a b, num a -> num b -> (V a <> INF \/ V b <> 0) -> (V b <> INF \/ V a <> 0) -> num (fmul a b).
Proof.
  intros [sa|sa| |sa ma ea] [sb|sb| |sb mb eb] Ha Hb H1 H2; try contradiction; try exact I; cbn [V] in *; try (exfalso; lia).
  cbn [num fabs SFabs nn] in Ha, Hb. rewrite fmul_finite by assumption. cbv zeta.
  destruct (finish_nn (Zpos ma * Zpos mb) (ea + eb) ltac:(lia) (fx_mul _ _ _ _ Ha Hb)) as [N _].
  destruct (xorb sa sb); [apply num_opp|]; now apply nn_num.
Qed.
Lemma fmul_nn : forall a b, nn a -> nn b -> (V a <> INF \/ V b <> 0) -> (V b <> INF \/ V a <> 0) -> nn (fmul a b).
Proof.
  intros [sa|sa| |sa ma ea] [sb|sb| |sb mb eb] Ha Hb H1 H2; try contradiction; try (destruct sa; try contradiction); try (destruct sb; try contradiction); try exact I; cbn [V] in *; try (exfalso; lia).
  cbn [nn] in Ha, Hb. rewrite fmul_finite by assumption. cbv zeta. cbn [xorb].
  apply (finish_nn (Zpos ma * Zpos mb) (ea + eb) ltac:(lia) (fx_mul _ _ _ _ Ha Hb)).
Qed.
Lemma fsqr_nn : forall a, num a -> nn (fmul a a).
Proof.
  intros [s|s| |s m e] H; try contradiction; try exact I; try (destruct s; exact I). cbn [num fabs SFabs nn] in H.
  rewrite fmul_finite by assumption. cbv zeta. rewrite xorb_nilpotent.
  apply (finish_nn (Zpos m * Zpos m) (e + e) ltac:(lia) (fx_mul _ _ _ _ H H)).
Qed.
Lemma rne_pow_le : forall m n P, 0 <= n -> 0 <= P -> 0 <= m <= 2 ^ P -> rne m n <= 2 ^ (Z.max (P - n) 0).
Proof.
  intros m n P Hn HP Hm. etransitivity; [apply (rne_mono m (2 ^ P) n Hn); lia|].
  destruct (Z.le_gt_cases n P) as [L|L].
  - replace (2 ^ P) with (2 ^ (P - n) * 2 ^ n) by (rewrite <- Z.pow_add_r by lia; f_equal; lia). rewrite rne_exact by lia. apply Z.pow_le_mono_r; lia.
  - pose proof (rne_bounds (2 ^ P) n ltac:(apply Z.pow_nonneg; lia) Hn) as B.
    rewrite Z.div_small in B by (split; [apply Z.pow_nonneg; lia|apply Z.pow_lt_mono_r; lia]). rewrite Z.max_r by lia. cbn. lia.
Qed.
Lemma fmul_mag : forall ka kb a b, 0 <= ka -> 0 <= kb -> ka + kb - 149 < 277 -> ka < 300 -> kb < 300 -> mag ka a -> mag kb b -> mag (Z.max (ka + kb - 149) 0) (fmul a b).
Proof.
  intros ka kb a b H1 H2 H3 H4 H5 Ha Hb. pose proof (mag_fin ka a H4 Ha) as Fa. pose proof (mag_fin kb b H5 Hb) as Fb.
  assert (P0 : 0 < 2 ^ Z.max (ka + kb - 149) 0) by (apply Z.pow_pos_nonneg; lia).
  destruct (fin_cases a Fa) as [(sa & ->)|(sa & ma & ea & -> & Ba)], (fin_cases b Fb) as [(sb & ->)|(sb & mb & eb & -> & Bb)]; try (split; [exact I|cbn [V fmul SFmul]; lia]).
  rewrite fmul_finite by assumption. cbv zeta. set (m := Zpos ma * Zpos mb). set (e := ea + eb).
  pose proof (fx_mul _ _ _ _ Ba Bb) as Fx. fold m e in Fx. destruct (finish_nn m e ltac:(unfold m; lia) Fx) as [N E]. set (f := fx m e) in *.
  assert (G : mag (Z.max (ka + kb - 149) 0) (finish false (rne m (f - e)) f)).
  2:{ destruct (xorb sa sb); [|exact G]. destruct G as [G1 G2]. split; [now apply num_opp|now rewrite V_opp]. }
  split; [now apply nn_num|]. rewrite E. clear N E.
  destruct Ha as [_ La], Hb as [_ Lb]. cbn [V] in La, Lb.
  destruct (bounded_spec ma ea Ba) as (Ea & Ma & _). destruct (bounded_spec mb eb Bb) as (Eb & Mb & _).
  assert (K : forall (q : positive) x k, -149 <= x -> 0 <= k -> Zpos q * 2 ^ (x + 149) <= 2 ^ k -> Zpos q <= 2 ^ (k - (x + 149)) /\ x + 149 <= k).
  { intros q x k Hx Hk L. assert (x + 149 <= k).
    { apply (Z.pow_le_mono_r_iff 2); [lia|lia|]. pose proof (pow149 x Hx). nia. }
    split; [|assumption]. apply (Z.mul_le_mono_pos_r _ _ (2 ^ (x + 149))); [apply pow149; lia|]. rewrite <- Z.pow_add_r by lia.
    replace (k - (x + 149) + (x + 149)) with k by lia. exact L. }
  destruct (K ma ea ka ltac:(lia) H1 La) as [Ka Ga]. destruct (K mb eb kb ltac:(lia) H2 Lb) as [Kb Gb].
  set (P := ka - (ea + 149) + (kb - (eb + 149))). assert (HP : 0 <= P) by (unfold P; lia).
  assert (Hm : 0 < m <= 2 ^ P) by (unfold m, P; rewrite Z.pow_add_r by lia; split; [lia|]; apply Z.mul_le_mono_nonneg; lia).
  pose proof (rne_pow_le m (f - e) P ltac:(lia) HP ltac:(lia)) as R.
  assert (F149 : -149 <= f) by (unfold f, fx; lia). pose proof (pow149 f F149) as Pf.
  assert (R2 : rne m (f - e) * 2 ^ (f + 149) <= 2 ^ Z.max (ka + kb - 149) 0).
  { transitivity (2 ^ Z.max (P - (f - e)) 0 * 2 ^ (f + 149)); [apply Z.mul_le_mono_nonneg_r; lia|]. rewrite <- Z.pow_add_r by lia. apply Z.pow_le_mono_r; [lia|].
    destruct (Z.le_gt_cases (f - e) P) as [L|L]; [unfold P, e in *; lia|]. rewrite (Z.max_r (P - (f - e))) by lia.
    assert (Z.log2 m <= P) by (rewrite <- (Z.log2_pow2 P HP); apply Z.log2_le_mono; lia). assert (f = -149) by (unfold f, fx in *; lia). lia. }
  unfold cap. destruct (Z.ltb_spec (rne m (f - e) * 2 ^ (f + 149)) OVER) as [L|L]; [exact R2|].
  exfalso. assert (2 ^ Z.max (ka + kb - 149) 0 < OVER) by (apply Z.pow_lt_mono_r; lia). lia.
Qed.

(** Rounding with a remainder. *)
Lemma iter_shr_m : forall n r, 0 <= shr_m r -> shr_m (Nat.iter n shr_1 r) = shr_m r / 2 ^ Z.of_nat n.
Proof.
  induction n as [|n IH]; intros r H; [cbn [Nat.iter]; now rewrite Z.div_1_r|].
  change (Nat.iter (S n) shr_1 r) with (shr_1 (Nat.iter n shr_1 r)). specialize (IH r H).
  destruct (Nat.iter n shr_1 r) as [m g t]. cbn [shr_m] in IH. rewrite IH. pose proof (pow2_pos n).
  rewrite shr_1_eq by (apply Z.div_pos; lia). cbn [shr_m]. rewrite pow2_S, Z.div_div by lia. f_equal. lia.
Qed.
Lemma round_aux_nn : forall m e l, 0 < m -> e <= fx m e -> nn (binary_round_aux fprec femax false m e l).
Proof.
  intros m e l Hm He. unfold binary_round_aux, shr_fexp. rewrite Zdigits2_eq by assumption. rewrite fexp_eq. fold (fx m e).
  set (n := fx m e - e) in *. assert (Hn : 0 <= n) by (unfold n; lia).
  assert (F : -149 <= fx m e) by (unfold fx; lia).
  assert (S1 : exists r, shr (shr_record_of_loc m l) e n = (r, fx m e) /\ shr_m r = m / 2 ^ n).
  { assert (M0 : shr_m (shr_record_of_loc m l) = m) by (destruct l as [|[ | | ]]; reflexivity).
    destruct n as [|p|p] eqn:En; [|cbn [shr]|lia].
    - exists (shr_record_of_loc m l). cbn [shr]. split; [f_equal; lia|]. rewrite M0. cbn. now rewrite Z.div_1_r.
    - eexists. split; [f_equal; lia|]. rewrite iter_pos_nat, iter_shr_m by (rewrite M0; lia). rewrite M0, positive_nat_Z. reflexivity. }
  destruct S1 as (r1 & -> & Er). set (r := round_nearest_even (shr_m r1) (loc_of_shr_record r1)).
  assert (Br : m / 2 ^ n <= r <= m / 2 ^ n + 1) by (unfold r; rewrite Er; unfold round_nearest_even; destruct (loc_of_shr_record r1) as [|[ | | ]]; try destruct (Z.even (m / 2 ^ n)); lia).
  clearbody r. clear r1 Er. pose proof (Z.log2_nonneg m) as Lg. pose proof (Z.log2_spec m Hm) as [Lo Up]. assert (Pn : 0 < 2 ^ n) by (apply Z.pow_pos_nonneg; lia).
  assert (Q : 0 <= m / 2 ^ n < 2 ^ 24).
  { split; [apply Z.div_pos; lia|]. apply Z.div_lt_upper_bound; [lia|]. eapply Z.lt_le_trans; [exact Up|]. rewrite <- Z.pow_add_r by lia. apply Z.pow_le_mono_r; [lia|]. unfold n, fx. lia. }
  assert (Nr : -149 < fx m e -> 2 ^ 23 <= r).
  { intros X. assert (2 ^ 23 <= m / 2 ^ n); [|lia]. apply Z.div_le_lower_bound; [lia|]. etransitivity; [|exact Lo]. rewrite <- Z.pow_add_r by lia. apply Z.pow_le_mono_r; [lia|]. unfold n, fx in *. lia. }
  set (f := fx m e) in *. clearbody f n. cbn [shr_record_of_loc]. destruct (Z.eq_dec r 0) as [->|N0].
  - cbn [Zdigits2]. rewrite shr_none by (rewrite fexp_eq; lia). exact I.
  - rewrite Zdigits2_eq by lia. destruct (Z.eq_dec r (2 ^ 24)) as [->|N1].
    + change (Z.log2 (2 ^ 24) + 1) with 25. replace (fexp fprec femax (25 + f) - f) with 1 by (rewrite fexp_eq; lia).
      rewrite shr_eq by lia. change (2 ^ 24 / 2 ^ 1) with 8388608. cbn [shr_m]. destruct (Z.leb_spec (f + 1) (femax - fprec)) as [L|L]; [|exact I].
      change (femax - fprec) with 104 in L. cbn [nn]. apply bounded_intro; lia.
    + assert (Z.log2 r < 24) by (apply Z.log2_lt_pow2; lia). rewrite shr_none by (rewrite fexp_eq; lia).
      cbn [shr_m]. destruct r as [|p|p]; try lia. destruct (Z.leb_spec f (femax - fprec)) as [L|L]; [|exact I].
      change (femax - fprec) with 104 in L. cbn [nn]. apply bounded_intro; lia.
Qed.

Lemma fsqrt_nn : forall a, nn a -> nn (fsqrt a).
Proof.
  intros [s|s| |s m e] H; try contradiction; try exact I; [destruct s; [contradiction|exact I]|]. destruct s; [contradiction|]. cbn [nn] in H.
  destruct (bounded_spec m e H) as (Ee & M & _). unfold fsqrt. cbn [SFsqrt]. unfold SFsqrt_core_binary. rewrite Zdigits2_eq by lia.
  rewrite !Z.div2_div, fexp_eq. set (d := Z.log2 (Zpos m) + 1). set (e' := Z.min (Z.max ((d + e + 1) / 2 - 24) (-149)) (e / 2)).
  assert (E2 : 2 * e' <= e) by (pose proof (Z.mul_div_le e 2 ltac:(lia)); unfold e'; lia).
  set (s := e - 2 * e'). assert (Hs : 0 <= s) by (unfold s; lia).
  assert (Em : (match s with Zpos _ => Z.shiftl (Zpos m) s | Z0 => Zpos m | Zneg _ => 0 end) = Zpos m * 2 ^ s).
  { destruct s as [|p|p]; [now rewrite Z.mul_1_r|now rewrite Z.shiftl_mul_pow2 by lia|lia]. }
  rewrite Em. clear Em. set (M' := Zpos m * 2 ^ s). assert (PM : 0 < M') by (unfold M'; assert (0 < 2 ^ s) by (apply Z.pow_pos_nonneg; lia); nia).
  pose proof (Z.sqrtrem_spec M' ltac:(lia)) as SR. destruct (Z.sqrtrem M') as [q r]. destruct SR as [Eq Rr].
  assert (Lm : Z.log2 M' = s + (d - 1)) by (unfold M', d; rewrite Z.log2_mul_pow2 by lia; lia).
  pose proof (Z.log2_spec M' PM) as [Lo Up]. rewrite Lm in Lo, Up. pose proof (Z.log2_nonneg (Zpos m)) as Ld.
  assert (Hq : 0 < q) by nia.
  apply round_aux_nn; [exact Hq|].
  (* digits of the root *)
  assert (Lq : Z.log2 q = (s + (d - 1)) / 2).
  { set (h := (s + (d - 1)) / 2). assert (Hh : 2 * h <= s + (d - 1) <= 2 * h + 1) by (pose proof (Z.div_mod (s + (d - 1)) 2 ltac:(lia)); pose proof (Z.mod_pos_bound (s + (d - 1)) 2 ltac:(lia)); unfold h; lia).
    assert (H0 : 0 <= h) by (unfold h; apply Z.div_pos; unfold d; lia).
    apply Z.log2_unique; [exact H0|]. assert (P1 : 2 ^ h * 2 ^ h <= M') by (rewrite <- Z.pow_add_r by lia; etransitivity; [|exact Lo]; apply Z.pow_le_mono_r; lia).
    assert (P2 : M' < 2 ^ Z.succ h * 2 ^ Z.succ h) by (rewrite <- Z.pow_add_r by lia; eapply Z.lt_le_trans; [exact Up|]; apply Z.pow_le_mono_r; lia).
    assert (0 < 2 ^ h) by (apply Z.pow_pos_nonneg; lia). assert (0 < 2 ^ Z.succ h) by (apply Z.pow_pos_nonneg; lia). nia. }
  unfold fx. rewrite Lq. assert (X : (s + (d - 1)) / 2 + 1 + e' = (d + e + 1) / 2).
  { replace (d + e + 1) with (s + (d - 1) + (e' + 1) * 2) by (unfold s; lia). rewrite Z.div_add by lia. lia. }
  rewrite X. unfold e'. lia.
Qed.
