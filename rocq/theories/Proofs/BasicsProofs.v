(** Proofs for C01-C04, C17, C61. *)
From Coq Require Import ZArith Bool List Lia Btauto.
From Verif.Base Require Import Res GoNum Bits F32.
From Verif.Model Require Import Status Poly Bounds.
Import ListNotations.
Open Scope Z_scope.

(** * Status *)
Lemma land_pow2_small : forall d k, 0 <= d < 2 ^ 24 -> 24 <= k -> Z.land d (Z.shiftl 1 k) = 0.
Proof.
  intros d k Hd Hk. apply land_zero_iff. intros i Hi.
  rewrite Z.shiftl_1_l, Z.pow2_bits_eqb by lia.
  destruct (Z.eqb_spec k i) as [->|N].
  - rewrite (testbit_high 24 d i) by lia. reflexivity.
  - apply andb_false_r.
Qed.

Lemma detail_keeps : forall s d k, 0 <= d <= StatusDetailMask -> 24 <= k ->
  Z.land (Z.lor s d) (Z.shiftl 1 k) = Z.land s (Z.shiftl 1 k).
Proof.
  intros s d k Hd Hk. unfold StatusDetailMask in Hd.
  rewrite Z.land_lor_distr_l, (land_pow2_small d k) by lia. apply Z.lor_0_r.
Qed.

Lemma status_detail_neutral : forall s d, 0 <= d <= StatusDetailMask ->
  StatusSucceed (Z.lor s d) = StatusSucceed s /\
  StatusFailed (Z.lor s d) = StatusFailed s /\
  StatusInProgress (Z.lor s d) = StatusInProgress s.
Proof.
  intros s d Hd. unfold StatusSucceed, StatusFailed, StatusInProgress, Success, Failure, InProgress.
  rewrite !detail_keeps by (assumption || lia). auto.
Qed.

Lemma status_base : forall base d,
  In base [Failure; Success; InProgress] -> 0 <= d <= StatusDetailMask ->
  (StatusSucceed (Z.lor base d) = true <-> base = Success) /\
  (StatusFailed (Z.lor base d) = true <-> base = Failure) /\
  (StatusInProgress (Z.lor base d) = true <-> base = InProgress).
Proof.
  intros base d Hb Hd.
  destruct (status_detail_neutral base d Hd) as (-> & -> & ->).
  destruct Hb as [<-|[<-|[<-|[]]]]; repeat split; intros H;
    try reflexivity; try discriminate H.
Qed.

Lemma base_no_detail : forall base q, In base [Failure; Success; InProgress] ->
  0 <= q <= StatusDetailMask -> Z.land base q = 0.
Proof.
  intros base q Hb Hq. unfold StatusDetailMask in Hq.
  rewrite Z.land_comm. destruct Hb as [<-|[<-|[<-|[]]]]; apply land_pow2_small; lia.
Qed.

Lemma status_detail : forall base d q,
  In base [Failure; Success; InProgress] ->
  0 <= d <= StatusDetailMask -> 0 <= q <= StatusDetailMask ->
  (StatusDetail (Z.lor base d) q = true <->
   exists i, 0 <= i /\ Z.testbit d i = true /\ Z.testbit q i = true).
Proof.
  intros base d q Hb Hd Hq. unfold StatusDetail.
  rewrite Z.land_lor_distr_l, (base_no_detail base q Hb Hq), Z.lor_0_l.
  rewrite <- land_nonzero_iff.
  destruct (Z.eqb_spec (Z.land d q) 0); simpl; split; intros; congruence.
Qed.

(** * Area and type *)
Lemma area_set_area : forall p a, Area (SetArea p a) = a mod 64.
Proof.
  intros p a. unfold Area, SetArea; cbn [pAreaAndType with_AreaAndType].
  rewrite Z.land_lor_distr_l, <- !Z.land_assoc. change (Z.land 192 63) with 0.
  rewrite Z.land_0_r, Z.lor_0_l, Z.land_diag. change 63 with (Z.ones 6).
  now rewrite Z.land_ones by lia.
Qed.

Lemma type_set_area : forall p a, is_u8 (pAreaAndType p) -> Type_ (SetArea p a) = Type_ p.
Proof.
  intros p a Hp. unfold Type_, SetArea; cbn [pAreaAndType with_AreaAndType].
  apply Z.bits_inj'. intros i Hi. rewrite !Z.shiftr_spec, Z.lor_spec, !Z.land_spec by lia.
  destruct (Z_lt_ge_dec i 2).
  - assert (i = 0 \/ i = 1) as [-> | ->] by lia; simpl; rewrite ?andb_false_r, ?orb_false_r, ?andb_true_r; reflexivity.
  - rewrite (u8_bits _ Hp) by lia.
    rewrite (testbit_high 6 63) by lia. now rewrite andb_false_r.
Qed.

Lemma type_set_type : forall p t, Type_ (SetType p t) = t mod 4.
Proof.
  intros p t. unfold Type_, SetType; cbn [pAreaAndType with_AreaAndType]. change 4 with (2 ^ 2).
  apply Z.bits_inj'. intros i Hi. rewrite Z.shiftr_spec, Z.lor_spec, Z.land_spec, testbit_u8 by lia.
  rewrite (testbit_high 6 63) by lia. rewrite andb_false_r, orb_false_l.
  rewrite Z.shiftl_spec by lia. replace (i + 6 - 6) with i by lia.
  destruct (Z.ltb_spec (i + 6) 8).
  - rewrite Z.mod_pow2_bits_low by lia. reflexivity.
  - rewrite Z.mod_pow2_bits_high by lia. reflexivity.
Qed.

Lemma area_set_type : forall p t, Area (SetType p t) = Area p.
Proof.
  intros p t. unfold Area, SetType; cbn [pAreaAndType with_AreaAndType].
  apply Z.bits_inj'. intros i Hi. rewrite !Z.land_spec, Z.lor_spec, Z.land_spec, testbit_u8 by lia.
  destruct (Z_lt_ge_dec i 6).
  - rewrite Z.shiftl_spec_low by lia. btauto.
  - rewrite (testbit_high 6 63) by lia. btauto.
Qed.

Lemma set_area_byte : forall p a, is_u8 (pAreaAndType p) -> is_u8 (pAreaAndType (SetArea p a)).
Proof.
  intros p a Hp. unfold SetArea; cbn [pAreaAndType with_AreaAndType]. unfold is_u8.
  assert (0 <= Z.lor (Z.land (pAreaAndType p) 192) (Z.land a 63)).
  { apply Z.lor_nonneg. split; apply Z.land_nonneg; right; lia. }
  split; [assumption|].
  destruct (Z.lt_ge_cases (Z.lor (Z.land (pAreaAndType p) 192) (Z.land a 63)) 256); auto.
  exfalso.
  set (v := Z.lor (Z.land (pAreaAndType p) 192) (Z.land a 63)) in *.
  assert (8 <= Z.log2 v) by (apply Z.log2_le_pow2; lia).
  assert (Z.testbit v (Z.log2 v) = true) as B by (apply Z.bit_log2; lia).
  unfold v in B at 1. rewrite Z.lor_spec, !Z.land_spec in B.
  rewrite (testbit_high 8 192), (testbit_high 6 63) in B by lia.
  rewrite !andb_false_r in B. discriminate.
Qed.

Lemma set_type_byte : forall p t, is_u8 (pAreaAndType p) -> is_u8 (pAreaAndType (SetType p t)).
Proof.
  intros p t Hp. unfold SetType; cbn [pAreaAndType with_AreaAndType]. unfold is_u8.
  assert (0 <= Z.lor (Z.land (pAreaAndType p) 63) (u8 (Z.shiftl t 6))).
  { apply Z.lor_nonneg. split. apply Z.land_nonneg; right; lia. apply u8_range. }
  split; [assumption|].
  destruct (Z.lt_ge_cases (Z.lor (Z.land (pAreaAndType p) 63) (u8 (Z.shiftl t 6))) 256); auto.
  exfalso.
  set (v := Z.lor (Z.land (pAreaAndType p) 63) (u8 (Z.shiftl t 6))) in *.
  assert (8 <= Z.log2 v) by (apply Z.log2_le_pow2; lia).
  assert (Z.testbit v (Z.log2 v) = true) as B by (apply Z.bit_log2; lia).
  unfold v in B at 1. rewrite Z.lor_spec, !Z.land_spec in B.
  rewrite (testbit_high 6 63), (u8_bits _ (u8_range _)) in B by lia.
  rewrite !andb_false_r in B. discriminate.
Qed.

(** Histories of setter calls. *)
Inductive setter := SArea (a : Z) | SType (t : Z).
Definition apply_setter (p : Poly) (s : setter) : Poly :=
  match s with SArea a => SetArea p a | SType t => SetType p t end.
Definition run_setters (p : Poly) (l : list setter) : Poly := fold_left apply_setter l p.
(** The area / type last asked for in a history (default: what the polygon had). *)
Definition last_area (d : Z) (l : list setter) : Z :=
  fold_left (fun acc s => match s with SArea a => a mod 64 | _ => acc end) l d.
Definition last_type (d : Z) (l : list setter) : Z :=
  fold_left (fun acc s => match s with SType t => t mod 4 | _ => acc end) l d.

Lemma setters_history : forall l p, is_u8 (pAreaAndType p) ->
  Area (run_setters p l) = last_area (Area p) l /\
  Type_ (run_setters p l) = last_type (Type_ p) l.
Proof.
  unfold run_setters, last_area, last_type.
  induction l as [|[a|t] l IH]; intros p Hp; simpl.
  - auto.
  - destruct (IH (SetArea p a) (set_area_byte p a Hp)) as [-> ->].
    rewrite area_set_area, type_set_area by assumption. auto.
  - destruct (IH (SetType p t) (set_type_byte p t Hp)) as [-> ->].
    rewrite type_set_type, area_set_type by assumption. auto.
Qed.

(** * Filter *)
Lemma pass_filter_iff : forall qf p,
  PassFilter qf p = true <->
  (exists i, 0 <= i /\ Z.testbit (pFlags p) i = true /\ Z.testbit (includeFlags qf) i = true) /\
  ~ (exists i, 0 <= i /\ Z.testbit (pFlags p) i = true /\ Z.testbit (excludeFlags qf) i = true).
Proof.
  intros qf p. unfold PassFilter. rewrite andb_true_iff, negb_true_iff.
  rewrite <- !land_nonzero_iff.
  destruct (Z.eqb_spec (Z.land (pFlags p) (includeFlags qf)) 0);
    destruct (Z.eqb_spec (Z.land (pFlags p) (excludeFlags qf)) 0);
    simpl; intuition congruence.
Qed.

Lemma area_cost_set : forall qf i j c qf', SetAreaCost qf i c = Ok qf' ->
  AreaCost qf' j = if j =? i then Ok c else AreaCost qf j.
Proof.
  intros qf i j c qf' H. unfold SetAreaCost in H. bind_inv H.
  apply set_ok in E. destruct E as [Hr ->]. apply Ok_inj in H0. subst qf'.
  unfold AreaCost; simpl. destruct (Z.lt_ge_cases j 0) as [N|P].
  - rewrite !get_panic by (unfold zlen; lia). destruct (Z.eqb_spec j i); [lia|reflexivity].
  - rewrite get_upd by lia. destruct (Z.eqb_spec j i) as [->|]; simpl; auto.
    destruct (Z.ltb_spec i (zlen (areaCost qf))); [reflexivity|lia].
Qed.

(** * Overlap *)
Lemma overlap_quant_iff : forall an0 an1 an2 ax0 ax1 ax2 bn0 bn1 bn2 bx0 bx1 bx2,
  an0 <= ax0 -> an1 <= ax1 -> an2 <= ax2 -> bn0 <= bx0 -> bn1 <= bx1 -> bn2 <= bx2 ->
  OverlapQuantBounds (an0,an1,an2) (ax0,ax1,ax2) (bn0,bn1,bn2) (bx0,bx1,bx2) = true <->
  exists x y z, (an0 <= x <= ax0 /\ an1 <= y <= ax1 /\ an2 <= z <= ax2) /\
                (bn0 <= x <= bx0 /\ bn1 <= y <= bx1 /\ bn2 <= z <= bx2).
Proof.
  intros. unfold OverlapQuantBounds.
  rewrite !Z.gtb_ltb. split.
  - intros T.
    destruct (Z.ltb_spec bx0 an0), (Z.ltb_spec ax0 bn0), (Z.ltb_spec bx1 an1), (Z.ltb_spec ax1 bn1),
      (Z.ltb_spec bx2 an2), (Z.ltb_spec ax2 bn2); simpl in T; try discriminate.
    exists (Z.max an0 bn0), (Z.max an1 bn1), (Z.max an2 bn2). lia.
  - intros (x & y & z & A & B).
    destruct (Z.ltb_spec bx0 an0), (Z.ltb_spec ax0 bn0), (Z.ltb_spec bx1 an1), (Z.ltb_spec ax1 bn1),
      (Z.ltb_spec bx2 an2), (Z.ltb_spec ax2 bn2); simpl; try lia; reflexivity.
Qed.

Lemma axis_overlap : forall an ax bn bx,
  fle an ax = true -> fle bn bx = true ->
  (fgt an bx || flt ax bn = false <->
   exists x, fle an x = true /\ fle x ax = true /\ fle bn x = true /\ fle x bx = true).
Proof.
  intros an ax bn bx Ha Hb.
  destruct (fle_nonnan _ _ Ha) as [Nan Nax]. destruct (fle_nonnan _ _ Hb) as [Nbn Nbx].
  unfold fgt. change (SFltb bx an) with (flt bx an). rewrite orb_false_iff. split.
  - intros [H1 H2].
    apply not_flt_fle in H1; auto. apply not_flt_fle in H2; auto.
    destruct (fle_total an bn Nan Nbn) as [L|L].
    + exists bn. repeat split; auto. now apply fle_refl.
    + exists an. repeat split; auto. now apply fle_refl.
  - intros (x & H1 & H2 & H3 & H4). split.
    + rewrite flt_not_fle by assumption. rewrite (fle_trans an x bx) by assumption. reflexivity.
    + rewrite flt_not_fle by assumption. rewrite (fle_trans bn x ax) by assumption. reflexivity.
Qed.

(** A point (no NaN) in a closed float box. *)
Definition in_box (p mn mx : f32 * f32 * f32) : Prop :=
  let '(x, y, z) := p in let '(n0, n1, n2) := mn in let '(m0, m1, m2) := mx in
  fle n0 x = true /\ fle x m0 = true /\ fle n1 y = true /\ fle y m1 = true /\
  fle n2 z = true /\ fle z m2 = true.
Definition box_wf (mn mx : f32 * f32 * f32) : Prop :=
  let '(n0, n1, n2) := mn in let '(m0, m1, m2) := mx in
  fle n0 m0 = true /\ fle n1 m1 = true /\ fle n2 m2 = true.

Lemma overlap_bounds_iff : forall amin amax bmin bmax, box_wf amin amax -> box_wf bmin bmax ->
  (OverlapBounds amin amax bmin bmax = true <->
   exists p, in_box p amin amax /\ in_box p bmin bmax).
Proof.
  intros [[an0 an1] an2] [[ax0 ax1] ax2] [[bn0 bn1] bn2] [[bx0 bx1] bx2] (A0 & A1 & A2) (B0 & B1 & B2).
  pose proof (axis_overlap _ _ _ _ A0 B0) as X0.
  pose proof (axis_overlap _ _ _ _ A1 B1) as X1.
  pose proof (axis_overlap _ _ _ _ A2 B2) as X2.
  unfold OverlapBounds. split.
  - intros T.
    destruct (fgt an0 bx0 || flt ax0 bn0); [discriminate|].
    destruct (fgt an1 bx1 || flt ax1 bn1); [discriminate|].
    destruct (fgt an2 bx2 || flt ax2 bn2); [discriminate|].
    destruct (proj1 X0 eq_refl) as (x & ? & ? & ? & ?).
    destruct (proj1 X1 eq_refl) as (y & ? & ? & ? & ?).
    destruct (proj1 X2 eq_refl) as (z & ? & ? & ? & ?).
    exists (x, y, z). simpl. tauto.
  - intros ([[x y] z] & P & Q). simpl in P, Q.
    rewrite (proj2 X0) by (exists x; tauto).
    rewrite (proj2 X1) by (exists y; tauto).
    rewrite (proj2 X2) by (exists z; tauto). reflexivity.
Qed.

Lemma overlap_rect_iff : forall an0 an1 ax0 ax1 bn0 bn1 bx0 bx1,
  fle an0 ax0 = true -> fle an1 ax1 = true -> fle bn0 bx0 = true -> fle bn1 bx1 = true ->
  (checkOverlapRect (an0,an1) (ax0,ax1) (bn0,bn1) (bx0,bx1) = true <->
   exists x y, fle an0 x = true /\ fle x ax0 = true /\ fle an1 y = true /\ fle y ax1 = true /\
               fle bn0 x = true /\ fle x bx0 = true /\ fle bn1 y = true /\ fle y bx1 = true).
Proof.
  intros an0 an1 ax0 ax1 bn0 bn1 bx0 bx1 A0 A1 B0 B1.
  pose proof (axis_overlap _ _ _ _ A0 B0) as X0.
  pose proof (axis_overlap _ _ _ _ A1 B1) as X1.
  unfold checkOverlapRect. split.
  - intros T.
    destruct (fgt an0 bx0 || flt ax0 bn0); [discriminate|].
    destruct (fgt an1 bx1 || flt ax1 bn1); [discriminate|].
    destruct (proj1 X0 eq_refl) as (x & ? & ? & ? & ?).
    destruct (proj1 X1 eq_refl) as (y & ? & ? & ? & ?).
    exists x, y. tauto.
  - intros (x & y & P).
    rewrite (proj2 X0) by (exists x; tauto).
    rewrite (proj2 X1) by (exists y; tauto). reflexivity.
Qed.

(** * Sides *)
Lemma opposite_cases : forall s, 0 <= s < 8 ->
  oppositeTile s = (if s <? 4 then s + 4 else s - 4).
Proof.
  intros s H.
  assert (s = 0 \/ s = 1 \/ s = 2 \/ s = 3 \/ s = 4 \/ s = 5 \/ s = 6 \/ s = 7)
    as [->|[->|[->|[->|[->|[->|[->| ->]]]]]]] by lia; reflexivity.
Qed.

Lemma i32_succ_pred : forall x, is_i32 x -> i32 (i32 (x + 1) - 1) = x.
Proof.
  intros x H. unfold i32, is_i32 in *.
  destruct (Z.eq_dec x 2147483647) as [->|N]; [reflexivity|].
  rewrite (Z.mod_small (x + 1 + 2147483648)) by lia.
  rewrite Z.mod_small by lia. lia.
Qed.
Lemma i32_pred_succ : forall x, is_i32 x -> i32 (i32 (x - 1) + 1) = x.
Proof.
  intros x H. unfold i32, is_i32 in *.
  destruct (Z.eq_dec x (-2147483648)) as [->|N]; [reflexivity|].
  rewrite (Z.mod_small (x - 1 + 2147483648)) by lia.
  rewrite Z.mod_small by lia. lia.
Qed.

Lemma neighbour_back : forall x y s x' y', is_i32 x -> is_i32 y -> 0 <= s < 8 ->
  neighbourLoc x y s = (x', y') -> neighbourLoc x' y' (oppositeTile s) = (x, y).
Proof.
  intros x y s x' y' Hx Hy Hs H.
  assert (s = 0 \/ s = 1 \/ s = 2 \/ s = 3 \/ s = 4 \/ s = 5 \/ s = 6 \/ s = 7)
    as [->|[->|[->|[->|[->|[->|[->| ->]]]]]]] by lia;
    unfold neighbourLoc in H; simpl in H; inversion H; subst;
    unfold neighbourLoc, oppositeTile; simpl;
    now rewrite ?i32_succ_pred, ?i32_pred_succ by assumption.
Qed.
