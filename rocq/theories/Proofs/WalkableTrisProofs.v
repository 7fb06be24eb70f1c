(** Walkable triangles. *)
From Coq Require Import ZArith List Bool Lia SpecFloat.
From Verif.Base Require Import Res GoNum F32 Num Grid.
From Verif.Model Require Import Geom Raster Heightfield Delaunay Raycast WalkableTris.
From Verif.Spec Require Import PolyDetailSpec WalkableTrisSpec.
From Verif.Proofs Require Import FloatAdd PolyDetailEdge.
Import ListNotations.
Open Scope Z_scope.

Lemma normal_up : forall v0 v1 v2, vy (calcTriNormal v0 v1 v2) = up v0 v1 v2.
Proof. intros [[x0 y0] z0] [[x1 y1] z1] [[x2 y2] z2]. reflexivity. Qed.

Lemma tri_ok_eq : forall verts tris nt i, tris_ok verts tris nt -> 0 <= i < nt ->
  exists n, triNormal verts tris i = Ok n /\ vy n = tri_up verts tris i.
Proof.
  intros verts tris nt i (Hn & Ht & Hv) Hi. unfold triNormal. rewrite i32_id by (unfold is_i32; lia).
  rewrite (get_nth _ (i * 3) 0), (get_nth _ (i * 3 + 1) 0), (get_nth _ (i * 3 + 2) 0) by lia. cbn [bind].
  assert (B : forall k, 0 <= k < 3 -> 0 <= nth (Z.to_nat (i * 3 + k)) tris 0 < 600000000 /\ 3 * nth (Z.to_nat (i * 3 + k)) tris 0 + 3 <= zlen verts).
  { intros k Hk. apply Hv, nth_In. unfold zlen in Ht. lia. }
  pose proof (B 0 ltac:(lia)) as B0. rewrite Z.add_0_r in B0.
  rewrite !vert_pos by (try (apply B; lia); try apply B0; try (specialize (B 1); lia); try (specialize (B 2); lia); lia). cbn [bind].
  eexists. split; [reflexivity|]. rewrite normal_up. unfold tri_up, tri_corner. rewrite Z.add_0_r, (Z.mul_comm 3 i). reflexivity.
Qed.

Lemma mark_loop : forall (f : f32 -> bool) (a : Z) verts tris nt areas, tris_ok verts tris nt -> nt <= zlen areas ->
  exists areas', foldM (fun areas i => let* n := triNormal verts tris i in if f (vy n) then set areas i a else Ok areas) (zseq (Z.to_nat nt)) areas = Ok areas' /\
    zlen areas' = zlen areas /\ forall i, 0 <= i -> nth (Z.to_nat i) areas' 0 = if (i <? nt) && f (tri_up verts tris i) then a else nth (Z.to_nat i) areas 0.
Proof.
  intros f a verts tris nt areas Ok_ Hl.
  match goal with |- context [foldM ?g ?l0 ?s0] =>
    destruct (foldM_inv g (fun pre q => zlen q = zlen areas /\
      forall i, 0 <= i -> nth (Z.to_nat i) q 0 = if (i <? zlen pre) && f (tri_up verts tris i) then a else nth (Z.to_nat i) areas 0) l0 s0) as (q & E & L & K) end.
  - split; [reflexivity|]. intros i Hi. change (zlen (@nil Z)) with 0. destruct (Z.ltb_spec i 0); [lia|reflexivity].
  - intros pre k post q Es (L & K). apply zseq_split in Es as [-> Hp]. pose proof (zlen_nonneg pre). assert (zlen pre < nt) by (unfold zlen; lia).
    destruct (tri_ok_eq verts tris nt (zlen pre) Ok_ ltac:(lia)) as (n & -> & En). cbn [bind]. rewrite En.
    destruct (f (tri_up verts tris (zlen pre))) eqn:Ef.
    + rewrite set_in_range by lia. eexists. split; [reflexivity|]. split; [rewrite zlen_upd; exact L|]. intros i Hi. rewrite zlen_snoc.
      destruct (Z.eq_dec i (zlen pre)) as [->|Hne].
      * destruct (Z.ltb_spec (zlen pre) (zlen pre + 1)); [|lia]. rewrite Ef. cbn [andb].
        apply nth_error_nth. apply nth_error_upd_eq. unfold zlen in *. lia.
      * transitivity (nth (Z.to_nat i) q 0).
        { rewrite nth_upd. destruct (Nat.eqb_spec (Z.to_nat i) (Z.to_nat (zlen pre))); [lia|reflexivity]. }
        rewrite K by lia. destruct (Z.ltb_spec i (zlen pre)), (Z.ltb_spec i (zlen pre + 1)); reflexivity || lia.
    + exists q. split; [reflexivity|]. split; [exact L|]. intros i Hi. rewrite zlen_snoc, K by lia.
      destruct (Z.eq_dec i (zlen pre)) as [->|Hne]; [rewrite Ef, !andb_false_r; reflexivity|].
      destruct (Z.ltb_spec i (zlen pre)), (Z.ltb_spec i (zlen pre + 1)); reflexivity || lia.
  - exists q. split; [exact E|]. split; [exact L|]. assert (Q : zlen (zseq (Z.to_nat nt)) = nt) by (destruct Ok_; unfold zlen; rewrite zseq_length; lia).
    rewrite Q in K. exact K.
Qed.

(** ** Degenerate triangles *)
Definition zn (a : f32) : Prop := match a with S754_zero _ | S754_nan => True | _ => False end.
Lemma sub_self : forall a, zn (fsub a a).
Proof.
  intros [s|s| |s m e]; unfold fsub; cbn [SFsub]; try exact I.
  - destruct (Bool.eqb s (negb s)); exact I.
  - destruct s; exact I.
  - rewrite Z.sub_diag. exact I.
Qed.
Lemma mul_zn_l : forall a b, zn a -> zn (fmul a b).
Proof. intros [s|s| |s m e] [t|t| |t n f] Z; try contradiction; exact I. Qed.
Lemma mul_comm : forall a b, fmul a b = fmul b a.
Proof.
  intros [s|s| |s m e] [t|t| |t n f]; unfold fmul; cbn [SFmul]; try reflexivity; try (now rewrite xorb_comm).
  now rewrite xorb_comm, Pos.mul_comm, Z.add_comm.
Qed.
Lemma mul_zn_r : forall a b, zn b -> zn (fmul a b).
Proof. intros a b Z. rewrite mul_comm. now apply mul_zn_l. Qed.
Lemma sub_zn : forall a b, zn a -> zn b -> zn (fsub a b).
Proof. intros [s|s| |s m e] [t|t| |t n f] Z Z'; try contradiction; try exact I. unfold fsub. cbn [SFsub]. destruct (Bool.eqb s (negb t)); exact I. Qed.
Lemma add_zn : forall a b, zn a -> zn b -> zn (fadd a b).
Proof. intros [s|s| |s m e] [t|t| |t n f] Z Z'; try contradiction; try exact I. unfold fadd. cbn [SFadd]. destruct (Bool.eqb s t); exact I. Qed.
Lemma unit_zn : forall a q, zn a -> zn q -> fmul a (fdiv f1 (fsqrt q)) = S754_nan.
Proof. intros [s|s| |s m e] [t|t| |t n f] Z Z'; try contradiction; try reflexivity; destruct s, t; reflexivity. Qed.
Lemma up_zn : forall v0 v1 v2,
  (let d := fun c : vec f32 -> f32 => fun v : vec f32 => fsub (c v) (c v0) in
   zn (fsub (fmul (d vy v1) (d vz v2)) (fmul (d vz v1) (d vy v2))) /\
   zn (fsub (fmul (d vz v1) (d vx v2)) (fmul (d vx v1) (d vz v2))) /\
   zn (fsub (fmul (d vx v1) (d vy v2)) (fmul (d vy v1) (d vx v2)))) -> up v0 v1 v2 = S754_nan.
Proof. intros v0 v1 v2 (X & Y & Z). unfold up. cbv zeta in *. apply unit_zn; [exact Y|]. repeat apply add_zn; now apply mul_zn_l. Qed.
Lemma up_degenerate : forall a b, up a a b = S754_nan /\ up a b a = S754_nan /\ up a b b = S754_nan.
Proof.
  intros a b. split; [|split]; apply up_zn; cbv zeta.
  - repeat split; apply sub_zn; apply mul_zn_l, sub_self.
  - repeat split; apply sub_zn; apply mul_zn_r, sub_self.
  - repeat split.
    + rewrite (mul_comm (fsub (vz b) (vz a))). apply sub_self.
    + rewrite (mul_comm (fsub (vx b) (vx a))). apply sub_self.
    + rewrite (mul_comm (fsub (vy b) (vy a))). apply sub_self.
Qed.

(** ** Orientation *)
Definition flip (a b : f32) : Prop := b = SFopp a \/ (exists s t, a = S754_zero s /\ b = S754_zero t).
Lemma round_opp : forall m e l, binary_round_aux fprec femax true m e l = SFopp (binary_round_aux fprec femax false m e l).
Proof.
  intros m e l. unfold binary_round_aux. destruct (shr_fexp fprec femax m e l) as [mrs e'].
  destruct (shr_fexp fprec femax _ e' loc_Exact) as [mrs'' e'']. destruct (shr_m mrs''); try reflexivity.
  destruct (e'' <=? femax - fprec); reflexivity.
Qed.
Lemma opp2 : forall a : f32, SFopp (SFopp a) = a.
Proof. intros [s|s| |s m e]; cbn; now rewrite ?negb_involutive. Qed.
Lemma normalize_flip : forall z e, flip (binary_normalize fprec femax z e false) (binary_normalize fprec femax (- z) e false).
Proof.
  intros [|p|p] e; cbn [Z.opp binary_normalize].
  - right. exists false, false. now split.
  - left. unfold binary_round. destruct (shl_align p e (fexp fprec femax (Z.pos (digits2_pos p) + e))). apply round_opp.
  - left. unfold binary_round. destruct (shl_align p e (fexp fprec femax (Z.pos (digits2_pos p) + e))). now rewrite round_opp, opp2.
Qed.
Lemma sub_flip : forall x y, flip (fsub x y) (fsub y x).
Proof.
  intros x y. unfold fsub.
  destruct x as [[]|[]| |[] mx ex], y as [[]|[]| |[] my ey]; cbn [SFsub Bool.eqb negb]; try (left; reflexivity); try (right; do 2 eexists; split; reflexivity);
    rewrite (Z.min_comm ey ex);
    match goal with |- flip (binary_normalize _ _ ?z ?e _) (binary_normalize _ _ ?z' _ _) => replace z' with (- z) by lia; apply normalize_flip end.
Qed.
Lemma flip_sq : forall a b, flip a b -> fmul b b = fmul a a.
Proof.
  intros a b [->|(s & t & -> & ->)].
  - destruct a as [s|s| |s m e]; cbn [SFopp]; try reflexivity; unfold fmul; cbn [SFmul]; now rewrite !xorb_nilpotent.
  - unfold fmul. cbn [SFmul]. now rewrite !xorb_nilpotent.
Qed.
Lemma opp_mul : forall a d, fmul (SFopp a) d = SFopp (fmul a d).
Proof.
  intros [s|s| |s m e] [t|t| |t n f]; unfold fmul; cbn [SFopp SFmul]; try reflexivity; try (now destruct s, t).
  destruct s, t; cbn [negb xorb]; rewrite ?round_opp, ?opp2; reflexivity.
Qed.
Lemma flip_mul : forall a b d, flip a b -> fmul b d = SFopp (fmul a d) \/ (zn (fmul a d) /\ zn (fmul b d)).
Proof.
  intros a b d [->|(s & t & -> & ->)]; [left; apply opp_mul|]. right. split; apply mul_zn_l; exact I.
Qed.
Lemma not_both : forall a b thr, fle f0 thr = true -> b = SFopp a \/ (zn a /\ zn b) -> fgt a thr = true -> fgt b thr = true -> False.
Proof.
  intros a b thr T R A B. pose proof (fle_flt_trans _ _ _ T A) as A0. pose proof (fle_flt_trans _ _ _ T B) as B0. clear A B T.
  destruct R as [->|[Za Zb]].
  - destruct a as [s|s| |s m e]; try destruct s; discriminate.
  - destruct a as [s|s| |s m e]; try contradiction; discriminate.
Qed.
Lemma up_flip : forall v0 v1 v2, up v0 v2 v1 = SFopp (up v0 v1 v2) \/ (zn (up v0 v1 v2) /\ zn (up v0 v2 v1)).
Proof.
  intros v0 v1 v2. unfold up. cbv zeta.
  set (x1 := fsub (vx v1) (vx v0)). set (y1 := fsub (vy v1) (vy v0)). set (z1 := fsub (vz v1) (vz v0)).
  set (x2 := fsub (vx v2) (vx v0)). set (y2 := fsub (vy v2) (vy v0)). set (z2 := fsub (vz v2) (vz v0)).
  rewrite (mul_comm y2 z1), (mul_comm z2 y1), (mul_comm z2 x1), (mul_comm x2 z1), (mul_comm x2 y1), (mul_comm y2 x1).
  rewrite (flip_sq _ _ (sub_flip (fmul y1 z2) (fmul z1 y2))), (flip_sq _ _ (sub_flip (fmul z1 x2) (fmul x1 z2))), (flip_sq _ _ (sub_flip (fmul x1 y2) (fmul y1 x2))).
  apply flip_mul, sub_flip.
Qed.

(** ** Bounds *)
Lemma min_le : forall a b, nonnan a -> nonnan b -> nonnan (fminf a b) /\ fle (fminf a b) a = true /\ fle (fminf a b) b = true /\ (fminf a b = a \/ fminf a b = b).
Proof.
  intros a b Na Nb. unfold fminf. destruct (flt a b) eqn:E.
  - split; [exact Na|]. split; [now apply fle_refl|]. split; [now apply flt_fle|now left].
  - split; [exact Nb|]. split; [now apply not_flt_fle|]. split; [now apply fle_refl|now right].
Qed.
Lemma max_ge : forall a b, nonnan a -> nonnan b -> nonnan (fmaxf a b) /\ fle a (fmaxf a b) = true /\ fle b (fmaxf a b) = true /\ (fmaxf a b = a \/ fmaxf a b = b).
Proof.
  intros a b Na Nb. unfold fmaxf, fgt. destruct (SFltb b a) eqn:E.
  - split; [exact Na|]. split; [now apply fle_refl|]. split; [now apply flt_fle|now left].
  - split; [exact Nb|]. split; [apply not_flt_fle; assumption|]. split; [now apply fle_refl|now right].
Qed.

(** ** Sizes *)
Definition nonneg32 (a : f32) : Prop := match a with S754_zero _ | S754_infinity false | S754_finite false _ _ => True | _ => False end.
Lemma nonneg_div : forall a b, nonneg32 a -> (exists m e, b = S754_finite false m e) -> nonneg32 (fdiv a b).
Proof.
  intros a b A (n & f & ->). destruct a as [s|[]| |[] m e]; try contradiction; unfold fdiv; cbn [SFdiv xorb]; try exact I.
  destruct (SFdiv_core_binary fprec femax (Z.pos m) e (Z.pos n) f) as [[q e'] l] eqn:E.
  assert (Q : 0 <= q).
  { unfold SFdiv_core_binary in E.
    match type of E with context [Z.div_eucl ?x ?y] => assert (X : 0 <= x); [|assert (Y : 0 < y) by lia; pose proof (Z_div_mod x y ltac:(lia)) as D; destruct (Z.div_eucl x y) as [q0 r0]] end.
    - match goal with |- 0 <= (match ?s with _ => _ end) => destruct s end; try lia; apply Z.shiftl_nonneg; lia.
    - assert (q = q0) by congruence. subst. nia. }
  destruct (round_aux_sign false q e' l Q) as [->|[->|(m' & e'' & ->)]]; exact I.
Qed.
Lemma nonneg_add : forall a b, nonneg32 a -> (exists m e, b = S754_finite false m e) -> nonneg32 (fadd a b).
Proof.
  intros a b A (n & f & ->). destruct a as [s|[]| |[] m e]; try contradiction; unfold fadd; cbn [SFadd]; try exact I.
  cbn [cond_Zopp]. 
  match goal with |- nonneg32 (binary_normalize _ _ ?z _ _) => assert (Q : 0 < z) by lia; destruct z as [|p|p]; try lia end.
  cbn [binary_normalize]. unfold binary_round. destruct (shl_align p _ _) as [m' e'].
  destruct (round_aux_sign false (Z.pos m') e' loc_Exact ltac:(lia)) as [->|[->|(m2 & e'' & ->)]]; exact I.
Qed.
Lemma nonneg_i32 : forall a, nonneg32 a -> 0 <= f_to_i32 a \/ f_to_i32 a = -2147483648 /\ (forall z, f_trunc a = Some z -> 2147483648 <= z).
Proof.
  intros a A. unfold f_to_i32. destruct (f_trunc a) as [z|] eqn:E; [|right; split; [reflexivity|discriminate]].
  assert (0 <= z).
  { destruct a as [s|[]| |[] m e]; try contradiction; cbn [f_trunc] in E; try discriminate.
    - assert (z = 0) by congruence. lia.
    - assert (z = if 0 <=? e then Z.pos m * 2 ^ e else Z.pos m / 2 ^ (- e)) as -> by congruence.
      destruct (Z.leb_spec 0 e); [apply Z.mul_nonneg_nonneg; [lia|apply Z.pow_nonneg; lia]|apply Z.div_pos; [lia|apply Z.pow_pos_nonneg; lia]]. }
  destruct (Z.leb_spec (-2147483648) z); [|lia]. destruct (Z.ltb_spec z 2147483648); cbn [andb]; [left; lia|].
  right. split; [reflexivity|]. intros z' E'. congruence.
Qed.
