(** Addition of non-negative float32 values: the result is the exact sum rounded to nearest even,
    hence monotone. Values are measured in units of the smallest float32, 2^-149. *)
From Coq Require Import ZArith Bool Lia List.
From Verif.Base Require Import F32.
Open Scope Z_scope.

(** * Digits *)
Lemma digits_log2 : forall p, Zpos (digits2_pos p) = Z.log2 (Zpos p) + 1.
Proof.
  induction p as [p IH|p IH|]; cbn [digits2_pos].
  - rewrite Pos2Z.inj_succ, IH. change (Zpos p~1) with (2 * Zpos p + 1). rewrite Z.log2_succ_double by lia. lia.
  - rewrite Pos2Z.inj_succ, IH. change (Zpos p~0) with (2 * Zpos p). rewrite Z.log2_double by lia. lia.
  - reflexivity.
Qed.

(** * Shifting with guard and sticky bits *)
Lemma iter_pos_nat : forall {A} (f : A -> A) p x, iter_pos f p x = Nat.iter (Pos.to_nat p) f x.
Proof.
  intros A f. assert (S : forall n m x, Nat.iter (n + m) f x = Nat.iter n f (Nat.iter m f x)).
  { induction n as [|n IH]; intros m x; [reflexivity|]. change (f (Nat.iter (n + m) f x) = f (Nat.iter n f (Nat.iter m f x))). now rewrite IH. }
  induction p as [p IH|p IH|]; intros x; cbn [iter_pos].
  - rewrite !IH, <- S. rewrite Pos2Nat.inj_xI.
    replace (Datatypes.S (2 * Pos.to_nat p)) with ((Pos.to_nat p + Pos.to_nat p) + 1)%nat by lia. rewrite (S (Pos.to_nat p + Pos.to_nat p)%nat 1%nat). reflexivity.
  - rewrite !IH, <- S. f_equal. rewrite Pos2Nat.inj_xO. lia.
  - reflexivity.
Qed.

Definition guard (m : Z) (n : nat) : bool := match n with O => false | S k => Z.odd (m / 2 ^ Z.of_nat k) end.
Definition sticky (m : Z) (n : nat) : bool := match n with O => false | S k => negb (m mod 2 ^ Z.of_nat k =? 0) end.

Lemma shr_1_eq : forall m r s, 0 <= m -> shr_1 (Build_shr_record m r s) = Build_shr_record (m / 2) (Z.odd m) (r || s).
Proof.
  intros m r s H. rewrite <- Z.div2_div. destruct m as [|p|p]; [reflexivity| |lia]. destruct p; reflexivity.
Qed.

Lemma pow2_S : forall k, 2 ^ Z.of_nat (S k) = 2 * 2 ^ Z.of_nat k.
Proof. intros. rewrite Nat2Z.inj_succ, Z.pow_succ_r by lia. reflexivity. Qed.
Lemma pow2_pos : forall k, 0 < 2 ^ Z.of_nat k.
Proof. intros. apply Z.pow_pos_nonneg; lia. Qed.

(** Remainder by 2^(k+1): one bit and the remainder by 2^k. *)
Lemma mod_split : forall m k, 0 <= m ->
  m mod 2 ^ Z.of_nat (S k) = (if Z.odd (m / 2 ^ Z.of_nat k) then 2 ^ Z.of_nat k else 0) + m mod 2 ^ Z.of_nat k /\
  m / 2 ^ Z.of_nat (S k) = m / 2 ^ Z.of_nat k / 2.
Proof.
  intros m k H. pose proof (pow2_pos k) as P. rewrite pow2_S. set (w := 2 ^ Z.of_nat k) in *.
  assert (D : m / (2 * w) = m / w / 2) by (rewrite Z.mul_comm, Z.div_div by lia; reflexivity).
  split; [|exact D]. pose proof (Z.div_mod m w ltac:(lia)). pose proof (Z.div_mod m (2 * w) ltac:(lia)).
  pose proof (Z.div_mod (m / w) 2 ltac:(lia)). rewrite D in *. rewrite Zmod_odd in *. destruct (Z.odd (m / w)); nia.
Qed.

Lemma iter_shr : forall n m, 0 <= m ->
  Nat.iter n shr_1 (Build_shr_record m false false) = Build_shr_record (m / 2 ^ Z.of_nat n) (guard m n) (sticky m n).
Proof.
  induction n as [|n IH]; intros m H.
  - cbn. now rewrite Z.div_1_r.
  - change (Nat.iter (S n) shr_1 (Build_shr_record m false false)) with (shr_1 (Nat.iter n shr_1 (Build_shr_record m false false))).
    rewrite IH by assumption. pose proof (pow2_pos n) as P.
    rewrite shr_1_eq by (apply Z.div_pos; lia).
    destruct (mod_split m n H) as [_ D]. rewrite D. f_equal. cbn [guard sticky].
    destruct n as [|k].
    + cbn. rewrite Z.mod_1_r. reflexivity.
    + cbn [guard sticky]. destruct (mod_split m k H) as [M _]. rewrite M. pose proof (pow2_pos k) as Pk.
      pose proof (Z.mod_pos_bound m (2 ^ Z.of_nat k) Pk).
      destruct (Z.odd (m / 2 ^ Z.of_nat k)); cbn [orb].
      * symmetry. apply negb_true_iff, Z.eqb_neq. lia.
      * now rewrite Z.add_0_l.
Qed.

(** * Rounding to nearest even *)

(** m / 2^n rounded. *)
Definition rne (m n : Z) : Z :=
  let q := m / 2 ^ n in
  let r := m mod 2 ^ n in
  if 2 * r <? 2 ^ n then q else if 2 ^ n <? 2 * r then q + 1 else if Z.even q then q else q + 1.

Lemma round_shr : forall m n, 0 <= m ->
  round_nearest_even (m / 2 ^ Z.of_nat n) (loc_of_shr_record (Build_shr_record (m / 2 ^ Z.of_nat n) (guard m n) (sticky m n))) = rne m (Z.of_nat n).
Proof.
  intros m n H. unfold rne. pose proof (pow2_pos n) as P. destruct n as [|k].
  - cbn. rewrite Z.mod_1_r. reflexivity.
  - destruct (mod_split m k H) as [M _]. rewrite M, pow2_S. cbn [guard sticky]. pose proof (pow2_pos k) as Pk.
    pose proof (Z.mod_pos_bound m (2 ^ Z.of_nat k) Pk) as B. set (w := 2 ^ Z.of_nat k) in *. set (r := m mod w) in *.
    destruct (Z.odd (m / w)); destruct (Z.eqb_spec r 0) as [E|E]; cbn [negb loc_of_shr_record round_nearest_even].
    + rewrite (proj2 (Z.ltb_ge _ _)) by lia. rewrite (proj2 (Z.ltb_ge _ _)) by lia. reflexivity.
    + rewrite (proj2 (Z.ltb_ge _ _)) by lia. rewrite (proj2 (Z.ltb_lt _ _)) by lia. reflexivity.
    + rewrite (proj2 (Z.ltb_lt _ _)) by lia. reflexivity.
    + rewrite (proj2 (Z.ltb_lt _ _)) by lia. reflexivity.
Qed.

Lemma rne_bounds : forall m n, 0 <= m -> 0 <= n -> m / 2 ^ n <= rne m n <= m / 2 ^ n + 1.
Proof. intros m n H Hn. unfold rne. repeat match goal with |- context [if ?b then _ else _] => destruct b end; lia. Qed.
Lemma rne_exact : forall q n, 0 <= n -> rne (q * 2 ^ n) n = q.
Proof.
  intros q n H. unfold rne. assert (0 < 2 ^ n) by (apply Z.pow_pos_nonneg; lia).
  rewrite Z.mod_mul, Z.div_mul by lia. rewrite (proj2 (Z.ltb_lt _ _)) by lia. reflexivity.
Qed.
Lemma rne_le_pow : forall m n d, 0 <= n <= d -> 0 <= m -> m < 2 ^ d -> rne m n <= 2 ^ (d - n).
Proof.
  intros m n d Hn H L. pose proof (rne_bounds m n H ltac:(lia)).
  assert (0 < 2 ^ n) by (apply Z.pow_pos_nonneg; lia).
  assert (m / 2 ^ n < 2 ^ (d - n)); [|lia]. apply Z.div_lt_upper_bound; [assumption|].
  rewrite <- Z.pow_add_r by lia. replace (n + (d - n)) with d by lia. assumption.
Qed.
Lemma rne_ge_pow : forall m n d, 0 <= n <= d -> 2 ^ d <= m -> 2 ^ (d - n) <= rne m n.
Proof.
  intros m n d Hn L. assert (0 < 2 ^ n) by (apply Z.pow_pos_nonneg; lia). assert (0 < 2 ^ d) by (apply Z.pow_pos_nonneg; lia).
  pose proof (rne_bounds m n ltac:(lia) ltac:(lia)). assert (2 ^ (d - n) <= m / 2 ^ n); [|lia].
  apply Z.div_le_lower_bound; [assumption|]. rewrite <- Z.pow_add_r by lia. replace (n + (d - n)) with d by lia. assumption.
Qed.
(** Rounding by the same power of two is monotone. *)
Lemma rne_mono : forall a b n, 0 <= n -> a <= b -> rne a n <= rne b n.
Proof.
  intros a b n Hn L. unfold rne. assert (P : 0 < 2 ^ n) by (apply Z.pow_pos_nonneg; lia). set (w := 2 ^ n) in *.
  assert (D : a / w <= b / w) by (apply Z.div_le_mono; lia).
  pose proof (Z.div_mod a w ltac:(lia)) as Ea. pose proof (Z.div_mod b w ltac:(lia)) as Eb.
  destruct (Z.eq_dec (a / w) (b / w)) as [E|E].
  - assert (a mod w <= b mod w) by (rewrite E in Ea; lia). rewrite E.
    destruct (Z.ltb_spec (2 * (a mod w)) w), (Z.ltb_spec (2 * (b mod w)) w), (Z.ltb_spec w (2 * (a mod w))), (Z.ltb_spec w (2 * (b mod w)));
      destruct (Z.even (b / w)); lia.
  - repeat match goal with |- context [if ?b then _ else _] => destruct b end; lia.
Qed.
Lemma rne_scale : forall m n j, 0 <= n -> 0 <= j -> rne (m * 2 ^ j) (n + j) = rne m n.
Proof.
  intros m n j Hn Hj. unfold rne. assert (P : 0 < 2 ^ n) by (apply Z.pow_pos_nonneg; lia).
  assert (Pj : 0 < 2 ^ j) by (apply Z.pow_pos_nonneg; lia). rewrite Z.pow_add_r by lia.
  rewrite Z.div_mul_cancel_r, Z.mul_mod_distr_r by lia.
  replace (2 * (m mod 2 ^ n * 2 ^ j) <? 2 ^ n * 2 ^ j) with (2 * (m mod 2 ^ n) <? 2 ^ n).
  - replace (2 ^ n * 2 ^ j <? 2 * (m mod 2 ^ n * 2 ^ j)) with (2 ^ n <? 2 * (m mod 2 ^ n)); [reflexivity|].
    destruct (Z.ltb_spec (2 ^ n) (2 * (m mod 2 ^ n))), (Z.ltb_spec (2 ^ n * 2 ^ j) (2 * (m mod 2 ^ n * 2 ^ j))); auto; nia.
  - destruct (Z.ltb_spec (2 * (m mod 2 ^ n)) (2 ^ n)), (Z.ltb_spec (2 * (m mod 2 ^ n * 2 ^ j)) (2 ^ n * 2 ^ j)); auto; nia.
Qed.

(** An integer rounded to 24 significant bits. *)
Definition drop (v : Z) : Z := Z.max 0 (Z.log2 v - 23).
Definition rn (v : Z) : Z := rne v (drop v) * 2 ^ drop v.

Lemma rn_nonneg : forall v, 0 <= v -> 0 <= rn v.
Proof.
  intros v H. unfold rn. pose proof (rne_bounds v (drop v) H ltac:(unfold drop; lia)).
  assert (0 < 2 ^ drop v) by (apply Z.pow_pos_nonneg; unfold drop; lia).
  assert (0 <= v / 2 ^ drop v) by (apply Z.div_pos; lia). nia.
Qed.
Lemma rn_exact : forall m j, 0 <= m < 2 ^ 24 -> 0 <= j -> rn (m * 2 ^ j) = m * 2 ^ j.
Proof.
  intros m j Hm Hj. unfold rn. destruct (Z.eq_dec m 0) as [->|N]; [reflexivity|].
  assert (L : Z.log2 (m * 2 ^ j) = j + Z.log2 m) by (rewrite <- Z.log2_mul_pow2 by lia; reflexivity).
  assert (Lm : Z.log2 m <= 23) by (assert (Z.log2 m < 24) by (apply Z.log2_lt_pow2; lia); lia).
  pose proof (Z.log2_nonneg m). assert (D : 0 <= drop (m * 2 ^ j) <= j) by (unfold drop; lia).
  set (k := drop (m * 2 ^ j)) in *. replace (m * 2 ^ j) with (m * 2 ^ (j - k) * 2 ^ k).
  - rewrite rne_exact by lia. reflexivity.
  - rewrite <- Z.mul_assoc, <- Z.pow_add_r by lia. do 2 f_equal. lia.
Qed.
Lemma rn_mono : forall a b, 0 <= a -> a <= b -> rn a <= rn b.
Proof.
  intros a b Ha L. unfold rn. assert (D : drop a <= drop b) by (unfold drop; pose proof (Z.log2_le_mono a b L); lia).
  assert (Da : 0 <= drop a) by (unfold drop; lia).
  destruct (Z.eq_dec (drop a) (drop b)) as [E|E].
  - rewrite E. apply Z.mul_le_mono_nonneg_r; [apply Z.pow_nonneg; lia|]. apply rne_mono; lia.
  - assert (Hb : drop b = Z.log2 b - 23) by (unfold drop in *; lia).
    assert (Pb : 0 < b) by (destruct (Z.eq_dec b 0) as [->|]; [unfold drop in *; cbn in *; lia|lia]).
    transitivity (2 ^ (24 + drop a)).
    + rewrite Z.pow_add_r by lia. apply Z.mul_le_mono_nonneg_r; [apply Z.pow_nonneg; lia|].
      replace 24 with (24 + drop a - drop a) by lia. apply rne_le_pow; [lia|lia|].
      destruct (Z.eq_dec a 0) as [->|]; [apply Z.pow_pos_nonneg; lia|].
      pose proof (Z.log2_spec a ltac:(lia)) as [_ U]. eapply Z.lt_le_trans; [exact U|]. apply Z.pow_le_mono_r; unfold drop in *; lia.
    + transitivity (2 ^ 23 * 2 ^ drop b).
      * rewrite <- Z.pow_add_r by lia. apply Z.pow_le_mono_r; lia.
      * apply Z.mul_le_mono_nonneg_r; [apply Z.pow_nonneg; lia|].
        replace 23 with (Z.log2 b - drop b) by lia. apply rne_ge_pow; [unfold drop in *; lia|]. apply Z.log2_spec. lia.
Qed.

(** * The rounding functions of SpecFloat *)
Definition fx (m e : Z) : Z := Z.max (Z.log2 m + 1 + e - 24) (-149).
Lemma fexp_eq : forall e, fexp fprec femax e = Z.max (e - 24) (-149).
Proof. reflexivity. Qed.
Lemma Zdigits2_eq : forall m, 0 < m -> Zdigits2 m = Z.log2 m + 1.
Proof. intros [|p|p] H; try lia. apply digits_log2. Qed.

Lemma shr_eq : forall m e n, 0 <= m -> 0 <= n ->
  shr (Build_shr_record m false false) e n = (Build_shr_record (m / 2 ^ n) (guard m (Z.to_nat n)) (sticky m (Z.to_nat n)), e + n).
Proof.
  intros m e n Hm Hn. destruct n as [|p|p]; [|cbn [shr]|lia].
  - cbn. now rewrite Z.div_1_r, Z.add_0_r.
  - rewrite iter_pos_nat, iter_shr by assumption. rewrite Z2Nat.inj_pos.
    now rewrite positive_nat_Z.
Qed.
Lemma shr_none : forall r e n, n <= 0 -> shr r e n = (r, e).
Proof. intros r e [|p|p] H; try reflexivity. lia. Qed.

Definition finish (s : bool) (r f : Z) : f32 :=
  if r =? 0 then S754_zero s
  else if r =? 2 ^ 24 then (if f + 1 <=? 104 then S754_finite s 8388608 (f + 1) else S754_infinity s)
  else if f <=? 104 then S754_finite s (Z.to_pos r) f else S754_infinity s.

Lemma rne_small : forall m e, 0 < m -> e <= fx m e -> 0 <= rne m (fx m e - e) <= 2 ^ 24.
Proof.
  intros m e Hm He. pose proof (Z.log2_nonneg m) as Lg. pose proof (Z.log2_spec m Hm) as [_ U].
  set (n := fx m e - e). assert (Hn : 0 <= n) by (unfold n; lia). pose proof (rne_bounds m n ltac:(lia) Hn) as B.
  assert (P : 0 < 2 ^ n) by (apply Z.pow_pos_nonneg; lia).
  split; [assert (0 <= m / 2 ^ n) by (apply Z.div_pos; lia); lia|].
  destruct (Z.le_gt_cases n (Z.log2 m + 1)) as [L|L].
  - etransitivity; [apply (rne_le_pow m n (Z.succ (Z.log2 m))); [lia|lia|exact U]|].
    apply Z.pow_le_mono_r; [lia|]. unfold n, fx. lia.
  - assert (m / 2 ^ n = 0); [|lia]. apply Z.div_small. split; [lia|]. eapply Z.lt_le_trans; [exact U|].
    apply Z.pow_le_mono_r; lia.
Qed.

Lemma round_aux_eq : forall s m e, 0 < m -> e <= fx m e ->
  binary_round_aux fprec femax s m e loc_Exact = finish s (rne m (fx m e - e)) (fx m e).
Proof.
  intros s m e Hm He. unfold binary_round_aux, shr_fexp. rewrite Zdigits2_eq by assumption. rewrite fexp_eq.
  fold (fx m e). cbn [shr_record_of_loc]. set (n := fx m e - e) in *. assert (Hn : 0 <= n) by (unfold n; lia).
  rewrite shr_eq by lia. cbn [shr_m]. pose proof (round_shr m (Z.to_nat n) ltac:(lia)) as RS. rewrite Z2Nat.id in RS by lia. rewrite !RS. clear RS.
  replace (e + n) with (fx m e) by (unfold n; lia).
  pose proof (rne_small m e Hm He) as B. fold n in B. set (r := rne m n) in *. clearbody r.
  assert (F : -149 <= fx m e) by (unfold fx; lia). set (f := fx m e) in *. clearbody f. clear n Hn He.
  unfold finish. destruct (Z.eqb_spec r 0) as [->|N0].
  - cbn [Zdigits2]. rewrite shr_none by (rewrite fexp_eq; lia). reflexivity.
  - rewrite Zdigits2_eq by lia. destruct (Z.eqb_spec r (2 ^ 24)) as [->|N1].
    + change (Z.log2 (2 ^ 24) + 1) with 25. replace (fexp fprec femax (25 + f) - f) with 1 by (rewrite fexp_eq; lia).
      rewrite shr_eq by lia. reflexivity.
    + assert (Z.log2 r < 24) by (apply Z.log2_lt_pow2; lia). rewrite shr_none by (rewrite fexp_eq; lia).
      cbn [shr_m]. destruct r as [|p|p]; try lia. reflexivity.
Qed.

Lemma shr_m_nonneg : forall r e n, 0 <= shr_m r -> 0 <= shr_m (fst (shr r e n)).
Proof.
  intros r e n H. destruct n as [|p|p]; try exact H. cbn [shr fst]. rewrite iter_pos_nat.
  induction (Pos.to_nat p) as [|k IH]; [exact H|].
  change (Nat.iter (S k) shr_1 r) with (shr_1 (Nat.iter k shr_1 r)).
  destruct (Nat.iter k shr_1 r) as [m g t]. cbn [shr_m] in *. rewrite shr_1_eq by assumption. cbn [shr_m]. apply Z.div_pos; lia.
Qed.
(** A non-negative mantissa is never rounded to NaN nor to the other sign. *)
Lemma round_aux_sign : forall s m e l, 0 <= m ->
  let r := binary_round_aux fprec femax s m e l in
  r = S754_zero s \/ r = S754_infinity s \/ exists m' e', r = S754_finite s m' e'.
Proof.
  intros s m e l H. cbv zeta. unfold binary_round_aux, shr_fexp.
  match goal with |- context [shr ?r ?e ?n] => pose proof (shr_m_nonneg r e n) as K; destruct (shr r e n) as [r1 e1] end.
  cbn [fst] in K. assert (R0 : 0 <= shr_m (shr_record_of_loc m l)) by (destruct l as [|[ | | ]]; exact H).
  specialize (K R0). set (r2 := round_nearest_even _ _).
  assert (R2 : 0 <= r2) by (unfold r2, round_nearest_even; destruct (loc_of_shr_record r1) as [|[ | | ]]; [| destruct (Z.even (shr_m r1)) | |]; lia).
  clearbody r2. cbn [shr_record_of_loc].
  match goal with |- context [shr ?r ?e ?n] => pose proof (shr_m_nonneg r e n R2) as K2; destruct (shr r e n) as [r3 e3] end.
  cbn [fst] in K2. destruct (shr_m r3) as [|p|p]; [auto| |lia].
  destruct (Z.leb e3 (femax - fprec)); eauto.
Qed.

(** * Non-negative float32 values *)
Definition OVER : Z := 2 ^ 277.
Definition INF : Z := 2 ^ 300.
Lemma OVER_INF : 0 < OVER < INF.
Proof. unfold OVER, INF. split; [apply Z.pow_pos_nonneg; lia|apply Z.pow_lt_mono_r; lia]. Qed.
Definition cap (v : Z) : Z := if v <? OVER then v else INF.
(** Valid float32 representations of values >= 0. *)
Definition nn (a : f32) : Prop :=
  match a with
  | S754_zero _ | S754_infinity false => True
  | S754_finite false m e => bounded fprec femax m e = true
  | _ => False
  end.
(** The value in units of 2^-149. *)
Definition V (a : f32) : Z :=
  match a with S754_finite _ m e => Zpos m * 2 ^ (e + 149) | S754_infinity _ => INF | _ => 0 end.

Lemma bounded_spec : forall m e, bounded fprec femax m e = true ->
  -149 <= e <= 104 /\ 1 <= Zpos m < 2 ^ 24 /\ (-149 < e -> 2 ^ 23 <= Zpos m).
Proof.
  intros m e H. unfold bounded in H. apply andb_true_iff in H as [C L]. unfold canonical_mantissa in C.
  apply Zeq_bool_eq in C. rewrite fexp_eq, digits_log2 in C. apply Z.leb_le in L. change (femax - fprec) with 104 in L.
  pose proof (Z.log2_spec (Zpos m) ltac:(lia)) as [L1 L2]. split; [lia|]. split.
  - split; [lia|]. eapply Z.lt_le_trans; [exact L2|]. apply Z.pow_le_mono_r; lia.
  - intros He. etransitivity; [|exact L1]. apply Z.pow_le_mono_r; lia.
Qed.
Lemma bounded_intro : forall m e, -149 <= e <= 104 -> Zpos m < 2 ^ 24 -> (-149 < e -> 2 ^ 23 <= Zpos m) ->
  bounded fprec femax m e = true.
Proof.
  intros m e He Hm Hn. unfold bounded. apply andb_true_iff. split; [|apply Z.leb_le; change (femax - fprec) with 104; lia].
  unfold canonical_mantissa. rewrite fexp_eq, digits_log2. apply Zeq_is_eq_bool.
  assert (Z.log2 (Zpos m) < 24) by (apply Z.log2_lt_pow2; lia).
  destruct (Z.eq_dec e (-149)) as [->|N]; [lia|].
  assert (23 <= Z.log2 (Zpos m)) by (apply Z.log2_le_pow2; [lia|]; apply Hn; lia). lia.
Qed.

Lemma pow149 : forall e, -149 <= e -> 0 < 2 ^ (e + 149).
Proof. intros. apply Z.pow_pos_nonneg; lia. Qed.
Lemma V_nonneg : forall a, nn a -> 0 <= V a <= INF.
Proof.
  intros [s|s| |s m e] H; pose proof OVER_INF; cbn [V]; try lia.
  destruct s; [destruct H|]. destruct (bounded_spec m e H) as (E & M & _). pose proof (pow149 e ltac:(lia)). split; [nia|].
  transitivity (2 ^ 24 * 2 ^ (104 + 149)).
  - apply Z.mul_le_mono_nonneg; try lia. apply Z.pow_le_mono_r; lia.
  - rewrite <- Z.pow_add_r by lia. apply Z.pow_le_mono_r; lia.
Qed.
Lemma V_finite : forall m e, bounded fprec femax m e = true -> Zpos m * 2 ^ (e + 149) < OVER.
Proof.
  intros m e H. destruct (bounded_spec m e H) as (E & M & _). pose proof (pow149 e ltac:(lia)).
  apply Z.lt_le_trans with (2 ^ 24 * 2 ^ (e + 149)); [nia|]. rewrite <- Z.pow_add_r by lia. apply Z.pow_le_mono_r; lia.
Qed.
Lemma cap_rn_V : forall a, nn a -> cap (rn (V a)) = V a.
Proof.
  intros [s|s| |s m e] H; cbn [V].
  - reflexivity.
  - unfold cap. replace (rn INF) with INF; [|symmetry; apply (rn_exact 1 300); lia].
    rewrite (proj2 (Z.ltb_ge _ _)); [reflexivity|]. pose proof OVER_INF. lia.
  - destruct H.
  - destruct s; [destruct H|]. destruct (bounded_spec m e H) as (E & M & _). rewrite rn_exact by lia.
    unfold cap. rewrite (proj2 (Z.ltb_lt _ _)) by (now apply V_finite). reflexivity.
Qed.

(** Comparison is comparison of the values. *)
Lemma compare_V : forall a b, nn a -> nn b -> SFcompare a b = Some (V a ?= V b).
Proof.
  assert (P : forall m e, bounded fprec femax m e = true -> 0 < Zpos m * 2 ^ (e + 149)).
  { intros m e H. destruct (bounded_spec m e H) as (E & M & _). pose proof (pow149 e ltac:(lia)). nia. }
  pose proof OVER_INF as OI.
  intros [sa|sa| |sa ma ea] [sb|sb| |sb mb eb] Ha Hb; cbn [nn] in Ha, Hb; try destruct sa; try destruct sb; try contradiction;
    cbn [SFcompare V]; f_equal; symmetry; rewrite ?Z.compare_eq_iff, ?Z.compare_lt_iff, ?Z.compare_gt_iff; try lia; try (now apply P).
  - pose proof (V_finite _ _ Hb). lia.
  - pose proof (V_finite _ _ Ha). lia.
  - destruct (bounded_spec ma ea Ha) as (Ea & Ma & Na). destruct (bounded_spec mb eb Hb) as (Eb & Mb & Nb).
    pose proof (pow149 ea ltac:(lia)). pose proof (pow149 eb ltac:(lia)).
    assert (K : forall m1 e1 m2 e2, -149 <= e1 -> e1 < e2 -> Zpos m1 < 2 ^ 24 -> 2 ^ 23 <= Zpos m2 ->
                Zpos m1 * 2 ^ (e1 + 149) < Zpos m2 * 2 ^ (e2 + 149)).
    { intros m1 e1 m2 e2 H1 L M1 M2. pose proof (pow149 e1 H1).
      apply Z.lt_le_trans with (2 ^ 24 * 2 ^ (e1 + 149)); [nia|].
      transitivity (2 ^ 23 * 2 ^ (e2 + 149)); [|apply Z.mul_le_mono_nonneg_r; [apply Z.pow_nonneg; lia|lia]].
      rewrite <- !Z.pow_add_r by lia. apply Z.pow_le_mono_r; lia. }
    destruct (Z.compare_spec ea eb) as [->|L|L].
    + change (Pcompare ma mb Eq) with (Zpos ma ?= Zpos mb).
      destruct (Z.compare_spec (Zpos ma) (Zpos mb)) as [E|E|E]; [apply Z.compare_eq_iff; now rewrite E|apply Z.compare_lt_iff; nia|apply Z.compare_gt_iff; nia].
    + apply Z.compare_lt_iff. apply K; lia.
    + apply Z.compare_gt_iff. apply K; lia.
Qed.
Lemma fle_V : forall a b, nn a -> nn b -> fle a b = (V a <=? V b).
Proof. intros a b Ha Hb. unfold fle, SFleb. rewrite compare_V by assumption. unfold Z.leb. destruct (V a ?= V b); reflexivity. Qed.
Lemma flt_V : forall a b, nn a -> nn b -> flt a b = (V a <? V b).
Proof. intros a b Ha Hb. unfold flt, SFltb. rewrite compare_V by assumption. unfold Z.ltb. destruct (V a ?= V b); reflexivity. Qed.
Lemma nn_nonnan : forall a, nn a -> nonnan a.
Proof. intros [s|s| |s m e] H; cbn in H; try contradiction; discriminate. Qed.

(** * Rounded results *)
Lemma fx_normal : forall m e, 0 < m -> e <= fx m e -> -149 < fx m e -> 2 ^ 23 <= rne m (fx m e - e).
Proof.
  intros m e Hm He Hf. assert (E : fx m e = Z.log2 m + 1 + e - 24) by (unfold fx in *; lia).
  pose proof (Z.log2_spec m Hm) as [L _]. pose proof (Z.log2_nonneg m).
  replace 23 with (Z.log2 m - (fx m e - e)) by lia. apply rne_ge_pow; lia.
Qed.
Lemma finish_nn : forall m e, 0 < m -> e <= fx m e ->
  let R := finish false (rne m (fx m e - e)) (fx m e) in
  nn R /\ V R = cap (rne m (fx m e - e) * 2 ^ (fx m e + 149)).
Proof.
  intros m e Hm He. cbv zeta. pose proof (rne_small m e Hm He) as B. pose proof (fx_normal m e Hm He) as N.
  assert (F : -149 <= fx m e) by (unfold fx; lia). set (r := rne m (fx m e - e)) in *. set (f := fx m e) in *.
  clearbody r f. unfold finish, cap. pose proof OVER_INF as OI. pose proof (pow149 f F) as Pf.
  destruct (Z.eqb_spec r 0) as [->|N0]; [split; [exact I|]; cbn [V]; rewrite Z.mul_0_l, (proj2 (Z.ltb_lt _ _)) by lia; reflexivity|].
  destruct (Z.eqb_spec r (2 ^ 24)) as [->|N1].
  - destruct (Z.leb_spec (f + 1) 104) as [L|L].
    + split; [cbn [nn]; apply bounded_intro; lia|]. cbn [V].
      rewrite (proj2 (Z.ltb_lt _ _)).
      * change 8388608 with (2 ^ 23). rewrite <- !Z.pow_add_r by lia. f_equal. lia.
      * rewrite <- Z.pow_add_r by lia. apply Z.pow_lt_mono_r; lia.
    + split; [exact I|]. cbn [V]. rewrite (proj2 (Z.ltb_ge _ _)); [reflexivity|].
      rewrite <- Z.pow_add_r by lia. apply Z.pow_le_mono_r; lia.
  - destruct (Z.leb_spec f 104) as [L|L].
    + assert (Bd : bounded fprec femax (Z.to_pos r) f = true) by (apply bounded_intro; rewrite ?Z2Pos.id by lia; try lia; exact N).
      split; [exact Bd|]. cbn [V]. pose proof (V_finite _ _ Bd) as Vf. rewrite Z2Pos.id in * by lia.
      rewrite (proj2 (Z.ltb_lt _ _)) by exact Vf. reflexivity.
    + split; [exact I|]. cbn [V]. rewrite (proj2 (Z.ltb_ge _ _)); [reflexivity|].
      specialize (N ltac:(lia)). transitivity (2 ^ 23 * 2 ^ (f + 149)); [|nia].
      rewrite <- Z.pow_add_r by lia. apply Z.pow_le_mono_r; lia.
Qed.

Lemma binary_round_V : forall m e, -149 <= e ->
  nn (binary_round fprec femax false m e) /\ V (binary_round fprec femax false m e) = cap (rn (Zpos m * 2 ^ (e + 149))).
Proof.
  intros m e He. unfold binary_round. rewrite digits_log2, fexp_eq. fold (fx (Zpos m) e).
  assert (Lv : Z.log2 (Zpos m * 2 ^ (e + 149)) = e + 149 + Z.log2 (Zpos m)) by (apply Z.log2_mul_pow2; lia).
  assert (Dr : drop (Zpos m * 2 ^ (e + 149)) = fx (Zpos m) e + 149) by (unfold drop, fx; lia).
  unfold rn. rewrite Dr. unfold shl_align. set (f := fx (Zpos m) e) in *.
  assert (F : -149 <= f) by (unfold f, fx; lia).
  destruct (Z.le_gt_cases e f) as [L|L].
  - assert (A : (match f - e with Zneg d => (shift_pos d m, f) | _ => (m, e) end) = (m, e)) by (destruct (f - e) eqn:E; try reflexivity; lia).
    rewrite A. rewrite round_aux_eq by (fold f; lia). fold f.
    destruct (finish_nn (Zpos m) e ltac:(lia) L) as [N Vr]. fold f in N, Vr. split; [exact N|]. rewrite Vr. do 2 f_equal.
    rewrite <- (rne_scale (Zpos m) (f - e) (e + 149)) by lia. f_equal. lia.
  - destruct (f - e) as [|d|d] eqn:E; try lia.
    assert (Sh : Zpos (shift_pos d m) = Zpos m * 2 ^ (e - f)) by (rewrite shift_pos_correct, Zpower_pos_nat; rewrite Z.mul_comm; f_equal; rewrite <- Zpower_pos_nat; change (Zpos d) with (- Zneg d); replace (e - f) with (Zpos d) by lia; reflexivity).
    assert (Fx : fx (Zpos (shift_pos d m)) f = f).
    { rewrite Sh. unfold fx at 1. rewrite Z.log2_mul_pow2 by lia. unfold f, fx. lia. }
    rewrite round_aux_eq by (rewrite ?Fx; lia). rewrite Fx.
    destruct (finish_nn (Zpos (shift_pos d m)) f ltac:(lia)) as [N Vr]; [rewrite Fx; lia|]. rewrite Fx in N, Vr.
    split; [exact N|]. rewrite Vr. do 2 f_equal. rewrite Z.sub_diag.
    replace (rne (Zpos (shift_pos d m)) 0) with (Zpos (shift_pos d m)) by (symmetry; replace (Zpos (shift_pos d m)) with (Zpos (shift_pos d m) * 2 ^ 0) at 1 by lia; apply rne_exact; lia).
    rewrite Sh. replace (Zpos m * 2 ^ (e + 149)) with (Zpos m * 2 ^ (e - f) * 2 ^ (f + 149)).
    + now rewrite rne_exact by lia.
    + rewrite <- Z.mul_assoc, <- Z.pow_add_r by lia. do 2 f_equal. lia.
Qed.

(** The sum of two non-negative values is the exact sum, rounded. *)
Lemma align_V : forall m e ez, -149 <= ez -> ez <= e -> Zpos (fst (shl_align m e ez)) * 2 ^ (ez + 149) = Zpos m * 2 ^ (e + 149).
Proof.
  intros m e ez Hz L. unfold shl_align. destruct (ez - e) as [|d|d] eqn:E; cbn [fst].
  - do 2 f_equal. lia.
  - lia.
  - rewrite shift_pos_correct, Z.mul_comm, (Z.mul_comm _ (Zpos m)), Z.mul_assoc, (Z.mul_comm _ (Zpos m)), <- Z.mul_assoc.
    f_equal. change (Z.pow_pos 2 d) with (2 ^ Zpos d). rewrite <- Z.pow_add_r by lia. f_equal. lia.
Qed.
Theorem fadd_V : forall a b, nn a -> nn b -> nn (fadd a b) /\ V (fadd a b) = cap (rn (V a + V b)).
Proof.
  intros a b Ha Hb. pose proof (V_nonneg a Ha) as Pa. pose proof (V_nonneg b Hb) as Pb. pose proof OVER_INF as OI.
  assert (Cinf : forall v, INF <= v -> cap (rn v) = INF).
  { intros v Hv. unfold cap. rewrite (proj2 (Z.ltb_ge _ _)); [reflexivity|].
    pose proof (rn_mono INF v ltac:(lia) Hv) as M. rewrite (rn_exact 1 300 ltac:(lia) ltac:(lia) : rn INF = INF) in M. lia. }
  unfold fadd. destruct a as [sa|sa| |sa ma ea], b as [sb|sb| |sb mb eb]; cbn [nn] in Ha, Hb; try contradiction;
    try destruct sa; try destruct sb; try contradiction; cbn [SFadd Bool.eqb];
    try (split; [exact I|]; cbn [V]; rewrite ?Z.add_0_l, ?Z.add_0_r; first [reflexivity|symmetry; apply Cinf; cbn [V] in *; lia]).
  - split; [exact Hb|]. change (V (S754_zero true)) with 0. rewrite Z.add_0_l. symmetry. apply (cap_rn_V (S754_finite false mb eb)). exact Hb.
  - split; [exact Hb|]. change (V (S754_zero false)) with 0. rewrite Z.add_0_l. symmetry. apply (cap_rn_V (S754_finite false mb eb)). exact Hb.
  - split; [exact Ha|]. change (V (S754_zero true)) with 0. rewrite Z.add_0_r. symmetry. apply (cap_rn_V (S754_finite false ma ea)). exact Ha.
  - split; [exact Ha|]. change (V (S754_zero false)) with 0. rewrite Z.add_0_r. symmetry. apply (cap_rn_V (S754_finite false ma ea)). exact Ha.
  - destruct (bounded_spec ma ea Ha) as (Ea & _). destruct (bounded_spec mb eb Hb) as (Eb & _).
    cbn [cond_Zopp V]. set (ez := Z.min ea eb) in *.
    rewrite <- (align_V ma ea ez), <- (align_V mb eb ez) by lia.
    set (x := fst (shl_align ma ea ez)). set (y := fst (shl_align mb eb ez)).
    rewrite <- Z.mul_add_distr_r. change (Zpos x + Zpos y) with (Zpos (x + y)). cbn [binary_normalize].
    apply binary_round_V. lia.
Qed.

Lemma cap_mono : forall a b, a <= b -> cap a <= cap b.
Proof.
  intros a b H. pose proof OVER_INF. unfold cap. destruct (Z.ltb_spec a OVER), (Z.ltb_spec b OVER); lia.
Qed.
(** Adding a non-negative value does not decrease, and addition is monotone. *)
Theorem fadd_ge : forall a b, nn a -> nn b -> V a <= V (fadd a b).
Proof.
  intros a b Ha Hb. destruct (fadd_V a b Ha Hb) as [_ E]. rewrite E, <- (cap_rn_V a Ha) at 1.
  pose proof (V_nonneg a Ha). pose proof (V_nonneg b Hb). apply cap_mono, rn_mono; lia.
Qed.
Theorem fadd_mono : forall a b c, nn a -> nn b -> nn c -> V a <= V b -> V (fadd a c) <= V (fadd b c).
Proof.
  intros a b c Ha Hb Hc H. destruct (fadd_V a c Ha Hc) as [_ E1]. destruct (fadd_V b c Hb Hc) as [_ E2]. rewrite E1, E2.
  pose proof (V_nonneg a Ha). pose proof (V_nonneg c Hc). apply cap_mono, rn_mono; lia.
Qed.
