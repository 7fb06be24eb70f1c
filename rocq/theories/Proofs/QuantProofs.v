(** Quantization of boxes: the integer boxes of the tree and of the query overlap whenever the
    boxes themselves do. *)
From Coq Require Import ZArith List Lia Bool.
From Verif.Base Require Import Res GoNum F32 Num Bits.
From Verif.Model Require Import MeshTypes Geom MeshLinks BvTree TileQuery.
From Verif.Proofs Require Import FloatAdd FloatMag FloatMono.
Import ListNotations.
Open Scope Z_scope.

Lemma fin_between : forall a b v, fin a -> fin b -> num v -> SV a <= SV v <= SV b -> fin v.
Proof.
  intros a b v [Na La] [Nb Lb] Nv H. split; [exact Nv|]. pose proof (num_V a Na). pose proof (num_V b Nb). pose proof (num_V v Nv).
  unfold SV, sgn in H. destruct (neg a), (neg b), (neg v); lia.
Qed.

Section Axis.
Variables mn mx qf : f32.
Hypothesis Fmn : fin mn.
Hypothesis Fmx : fin mx.
Hypothesis Fq : fin qf.
Hypothesis Nq : nn qf.
Hypothesis LE : SV mn <= SV mx.
Hypothesis TOP : flt (fadd (fmul qf (fsub mx mn)) f1) (f_of_Z 65536) = true.

Lemma f1_nn : nn f1 /\ V f1 = 2 ^ 149.
Proof. split; vm_compute; reflexivity. Qed.
Lemma f64k : nn (f_of_Z 65536) /\ V (f_of_Z 65536) = 2 ^ 165.
Proof. split; vm_compute; reflexivity. Qed.

Lemma f2g : nn (f_of_Z 2147483648) /\ V (f_of_Z 2147483648) = 2 ^ 180.
Proof. split; vm_compute; reflexivity. Qed.

Lemma ext_fin : fin (fsub mx mn).
Proof using Fmn Fmx Fq Nq LE TOP.
  destruct (fsub_SV mx mn Fmx Fmn LE) as [N E]. split; [now apply nn_num|]. clear E.
  destruct (fsub mx mn) as [s|s| |s m e]; cbn [V] in *; pose proof OVER_INF as OI.
  - lia.
  - exfalso. destruct s; [contradiction|]. destruct (fin_cases qf Fq) as [(t & ->)|(t & m & e & -> & B)]; [discriminate TOP|]. destruct t; [contradiction|discriminate TOP].
  - contradiction.
  - destruct s; [contradiction|]. pose proof (V_finite _ _ N). lia.
Qed.
(** the scaled coordinate of a point between mn and mx *)
Lemma scaled : forall u, fin u -> SV mn <= SV u <= SV mx ->
  nn (fmul qf (fsub u mn)) /\ nn (fsub u mn) /\ fin (fsub u mn) /\ V (fmul qf (fsub u mn)) + 2 ^ 149 < 2 ^ 165 + 2 ^ 149 /\
  nn (fadd (fmul qf (fsub u mn)) f1) /\ V (fadd (fmul qf (fsub u mn)) f1) < 2 ^ 165 /\
  V (fmul qf (fsub u mn)) <= V (fadd (fmul qf (fsub u mn)) f1).
Proof using Fmn Fmx Fq Nq LE TOP.
  intros u Fu Hu. pose proof ext_fin as Fx. destruct (fsub_SV mx mn Fmx Fmn LE) as [Nx _].
  destruct (fsub_SV u mn Fu Fmn ltac:(lia)) as [Nu _]. pose proof (fsub_mono u mx mn Fu Fmx Fmn ltac:(lia) ltac:(lia)) as M.
  assert (Fu' : fin (fsub u mn)) by (split; [now apply nn_num|]; destruct Fx; lia).
  destruct (fmul_V qf (fsub u mn) Nq Nu Fq Fu') as [P1 _]. destruct (fmul_V qf (fsub mx mn) Nq Nx Fq Fx) as [P2 _].
  assert (L : V (fmul qf (fsub u mn)) <= V (fmul qf (fsub mx mn))).
  { rewrite (fmul_comm_V qf (fsub u mn)), (fmul_comm_V qf (fsub mx mn)) by assumption. now apply fmul_mono. }
  destruct f1_nn as [N1 V1]. destruct f64k as [N2 V2].
  destruct (fadd_V (fmul qf (fsub mx mn)) f1 P2 N1) as [P3 _]. destruct (fadd_V (fmul qf (fsub u mn)) f1 P1 N1) as [P4 _].
  pose proof (fadd_mono _ _ f1 P1 P2 N1 L) as L2. pose proof (fadd_ge (fmul qf (fsub u mn)) f1 P1 N1) as L3.
  pose proof TOP as T. rewrite flt_V in T by assumption. apply Z.ltb_lt in T. rewrite V2 in T.
  split; [exact P1|]. split; [exact Nu|]. split; [exact Fu'|]. split; [lia|]. split; [exact P4|]. split; lia.
Qed.
Lemma clamp_range : forall q, num q -> let c := fclamp q mn mx in fin c /\ SV mn <= SV c <= SV mx /\
  (forall v, SV mn <= SV v -> SV q <= SV v -> SV c <= SV v) /\ (forall v, SV v <= SV mx -> SV v <= SV q -> SV v <= SV c).
Proof using Fmn Fmx LE.
  intros q Nq'. cbv zeta. unfold fclamp, fgt. fold (flt mx q). rewrite (flt_SV q mn Nq' (proj1 Fmn)), (flt_SV mx q (proj1 Fmx) Nq').
  destruct (Z.ltb_spec (SV q) (SV mn)); [|destruct (Z.ltb_spec (SV mx) (SV q))].
  - split; [exact Fmn|]. split; [lia|]. split; intros; lia.
  - split; [exact Fmx|]. split; [lia|]. split; intros; lia.
  - split; [apply (fin_between mn mx); auto|]. split; [lia|]. split; intros; lia.
Qed.
(** the scaled coordinate of a point above mn *)
Lemma quant_item_V : forall v, fin v -> SV mn <= SV v -> flt (fmul (fsub v mn) qf) (f_of_Z 2147483648) = true ->
  nn (fsub v mn) /\ fin (fsub v mn) /\
  quant_item v mn qf = Z.min 65535 (V (fmul qf (fsub v mn)) / 2 ^ 149) /\ 0 <= V (fmul qf (fsub v mn)) / 2 ^ 149.
Proof using Fmn Fq Nq.
  intros v Fv Hv T. destruct (fsub_SV v mn Fv Fmn Hv) as [P2 _].
  assert (P3 : fin (fsub v mn)).
  { split; [now apply nn_num|]. destruct (fsub v mn) as [s|s| |s m e]; cbn [V] in *; pose proof OVER_INF as OI; try lia; try contradiction.
    - exfalso. clear TOP. destruct s; [contradiction|]. destruct (fin_cases qf Fq) as [(t & Eq)|(t & m & e & Eq & B)]; rewrite Eq in T, Nq; [discriminate T|]. destruct t; [contradiction|discriminate T].
    - destruct s; [contradiction|]. pose proof (V_finite _ _ P2). lia. }
  split; [exact P2|]. split; [exact P3|]. unfold quant_item.
  destruct (fmul_V (fsub v mn) qf P2 Nq P3 Fq) as [P5 _]. assert (E : V (fmul (fsub v mn) qf) = V (fmul qf (fsub v mn))) by (now apply fmul_comm_V).
  destruct f2g as [N2 V2]. rewrite flt_V, V2 in T by assumption. apply Z.ltb_lt in T.
  rewrite to_i32_V by assumption. rewrite E. rewrite E in T.
  pose proof (V_nonneg _ P5) as P6. rewrite E in P6. assert (0 <= V (fmul qf (fsub v mn)) / 2 ^ 149) by (apply Z.div_pos; lia).
  split; [|lia]. unfold int32Clamp. rewrite (proj2 (Z.ltb_ge _ _)), Z.gtb_ltb by lia.
  destruct (Z.ltb_spec 65535 (V (fmul qf (fsub v mn)) / 2 ^ 149)).
  - rewrite Z.min_l by lia. reflexivity.
  - rewrite Z.min_r by lia. apply u16_id. unfold is_u16. lia.
Qed.
Lemma quant_item_low : forall v, fin v -> SV v <= SV mn -> quant_item v mn qf = 0.
Proof using Fmn Nq.
  intros v Fv Hv. unfold quant_item. pose proof (to_i32_neg (fsub v mn) qf (fsub_neg v mn Fv Fmn Hv) Nq) as L. unfold int32Clamp.
  destruct (Z.ltb_spec (f_to_i32 (fmul (fsub v mn) qf)) 0); [reflexivity|]. replace (f_to_i32 (fmul (fsub v mn) qf)) with 0 by lia. reflexivity.
Qed.
Lemma land_le0 : forall x y, 0 <= x -> Z.land x y <= x.
Proof.
  intros x y H. pose proof (Z.lor_ldiff_and x y) as E. rewrite lor_disjoint_add in E.
  - assert (0 <= Z.ldiff x y) by (apply Z.ldiff_nonneg; lia). lia.
  - apply Z.bits_inj'. intros n Hn. rewrite !Z.land_spec, Z.ldiff_spec, Z.bits_0. destruct (Z.testbit x n), (Z.testbit y n); reflexivity.
Qed.
Lemma land_le : forall x, 0 <= x < 65536 -> Z.land x 65534 <= x.
Proof. intros x H. apply land_le0. lia. Qed.
Lemma lor_ge : forall x, 0 <= x -> x <= Z.lor x 1.
Proof.
  intros x H. assert (E : Z.land (Z.lor x 1) x = x) by (apply Z.bits_inj'; intros n Hn; rewrite Z.land_spec, Z.lor_spec; destruct (Z.testbit x n), (Z.testbit 1 n); reflexivity).
  rewrite <- E at 1. apply land_le0. apply Z.lor_nonneg. lia.
Qed.

Lemma q_min_le : forall q v, num q -> fin v -> flt (fmul (fsub v mn) qf) (f_of_Z 2147483648) = true ->
  SV q <= SV v -> q_min q mn mx qf <= quant_item v mn qf.
Proof using Fmn Fmx Fq Nq LE TOP.
  intros q v Hq Fv Tv L.
  destruct (clamp_range q Hq) as (Fc & Bc & Lc & _). destruct (scaled _ Fc Bc) as (P1 & P2 & P3 & P4 & _). unfold q_min, f_to_u16.
  set (c := fclamp q mn mx) in *.
  rewrite to_i32_V; [|exact P1|assert (2 ^ 165 < 2 ^ 180) by (vm_compute; reflexivity); lia].
  pose proof (V_nonneg _ P1). assert (Z0 : 0 <= V (fmul qf (fsub c mn)) / 2 ^ 149) by (apply Z.div_pos; lia).
  assert (Z1 : V (fmul qf (fsub c mn)) / 2 ^ 149 < 65536) by (apply Z.div_lt_upper_bound; [lia|]; change (2 ^ 149 * 65536) with (2 ^ 165); lia).
  rewrite u16_id by (unfold is_u16; lia). etransitivity; [apply land_le; lia|].
  destruct (Z.le_ge_cases (SV mn) (SV v)) as [B|B].
  - specialize (Lc v B L). destruct (quant_item_V v Fv B Tv) as (Q1 & Q2 & E & R). rewrite E.
    assert (M : V (fmul qf (fsub c mn)) <= V (fmul qf (fsub v mn))).
    { rewrite (fmul_comm_V qf (fsub c mn)), (fmul_comm_V qf (fsub v mn)) by assumption. apply fmul_mono; try assumption. apply fsub_mono; try assumption; lia. }
    assert (D : V (fmul qf (fsub c mn)) / 2 ^ 149 <= V (fmul qf (fsub v mn)) / 2 ^ 149) by (apply Z.div_le_mono; lia). lia.
  - rewrite quant_item_low by assumption. specialize (Lc mn ltac:(lia) ltac:(lia)). assert (Ec : SV c = SV mn) by lia.
    destruct (fsub_SV c mn Fc Fmn ltac:(lia)) as [_ E]. rewrite Ec, Z.sub_diag in E. change (cap (rn 0)) with 0 in E.
    destruct (fmul_V qf (fsub c mn) Nq P2 Fq P3) as [_ E2]. rewrite E, Z.mul_0_r in E2. change (cap (rn2 0)) with 0 in E2. rewrite E2. reflexivity.
Qed.
Lemma q_max_ge : forall q v, num q -> fin v -> SV v <= SV mx -> SV v <= SV q -> quant_item v mn qf <= q_max q mn mx qf.
Proof using Fmn Fmx Fq Nq LE TOP.
  intros q v Hq Fv B L.
  destruct (clamp_range q Hq) as (Fc & Bc & _ & Lc). specialize (Lc v B L). destruct (scaled _ Fc Bc) as (P1 & P2 & P3 & P4 & P5 & P6 & P7).
  unfold q_max, f_to_u16. set (c := fclamp q mn mx) in *.
  rewrite to_i32_V; [|exact P5|assert (2 ^ 165 < 2 ^ 180) by (vm_compute; reflexivity); lia].
  set (y := V (fadd (fmul qf (fsub c mn)) f1)) in *. pose proof (V_nonneg _ P1) as V0.
  assert (0 <= y / 2 ^ 149) by (apply Z.div_pos; lia).
  assert (y / 2 ^ 149 < 65536) by (apply Z.div_lt_upper_bound; [lia|]; change (2 ^ 149 * 65536) with (2 ^ 165); lia).
  rewrite u16_id by (unfold is_u16; lia). etransitivity; [|apply lor_ge; lia].
  destruct (Z.le_ge_cases (SV mn) (SV v)) as [B'|B']; [|rewrite quant_item_low by assumption; lia].
  destruct (scaled v Fv ltac:(lia)) as (Q1 & Q2 & Q3 & Q4 & _).
  destruct (quant_item_V v Fv B') as (_ & _ & E & R).
  { destruct f2g as [N2 V2]. destruct (fmul_V (fsub v mn) qf Q2 Nq Q3 Fq) as [P8 _]. rewrite flt_V, V2 by assumption. apply Z.ltb_lt.
    rewrite fmul_comm_V by assumption. assert (2 ^ 165 < 2 ^ 180) by (vm_compute; reflexivity); lia. }
  rewrite E.
  assert (M : V (fmul qf (fsub v mn)) <= V (fmul qf (fsub c mn))).
  { rewrite (fmul_comm_V qf (fsub c mn)), (fmul_comm_V qf (fsub v mn)) by assumption. apply fmul_mono; try assumption. apply fsub_mono; try assumption; lia. }
  assert (D : V (fmul qf (fsub v mn)) / 2 ^ 149 <= y / 2 ^ 149) by (apply Z.div_le_mono; lia). lia.
Qed.
End Axis.
