(** Proofs about the height search (C56). *)
From Coq Require Import ZArith List Bool Lia.
From Verif.Base Require Import Res GoNum F32 Num Grid.
From Verif.Model Require Import HeightSearch.
From Verif.Spec Require Import SpiralSpec.
Import ListNotations.
Open Scope Z_scope.

(** Cell number [t] of ring [k], with the direction on arrival. *)
Definition st (k t : Z) : Z * Z * Z * Z :=
  if t =? 0 then (k, 1 - k, 1, 0)
  else if t <? 2 * k then (k, 1 - k + t, 0, 1)
  else if t <? 4 * k then (k - 1 - (t - 2 * k), k, -1, 0)
  else if t <? 6 * k then (-k, k - 1 - (t - 4 * k), 0, -1)
  else (-k + 1 + (t - 6 * k), -k, 1, 0).

Ltac zcase := repeat match goal with
  | |- context [?a =? ?b] => destruct (Z.eqb_spec a b)
  | |- context [?a <? ?b] => destruct (Z.ltb_spec a b)
  end.

Lemma move_in : forall k t, 1 <= k <= 1000000000 -> 0 <= t -> t + 1 < 8 * k -> spiralMove (st k t) = st k (t + 1).
Proof.
  intros k t Hk Ht Hl. unfold st.
  destruct (Z.eqb_spec t 0); [|destruct (Z.ltb_spec t (2 * k)); [|destruct (Z.ltb_spec t (4 * k)); [|destruct (Z.ltb_spec t (6 * k))]]];
    (destruct (Z.eqb_spec (t + 1) 0); [lia|]);
    (destruct (Z.ltb_spec (t + 1) (2 * k)); [|destruct (Z.ltb_spec (t + 1) (4 * k)); [|destruct (Z.ltb_spec (t + 1) (6 * k))]]); try lia;
    unfold spiralMove; rewrite ?(i32_id (- _)), ?(i32_id (1 - _)) by (unfold is_i32; lia); zcase; cbn [orb andb]; try lia;
    rewrite ?i32_id by (unfold is_i32; lia); repeat (f_equal; try lia).
Qed.
Lemma move_out : forall k, 1 <= k <= 1000000000 -> spiralMove (st k (8 * k - 1)) = st (k + 1) 0.
Proof.
  intros k Hk. unfold st.
  destruct (Z.eqb_spec (8 * k - 1) 0); [lia|]. destruct (Z.ltb_spec (8 * k - 1) (2 * k)); [lia|].
  destruct (Z.ltb_spec (8 * k - 1) (4 * k)); [lia|]. destruct (Z.ltb_spec (8 * k - 1) (6 * k)); [lia|].
  unfold spiralMove; rewrite ?(i32_id (- _)), ?(i32_id (1 - _)) by (unfold is_i32; lia); zcase; cbn [orb andb]; try lia;
    rewrite ?i32_id by (unfold is_i32; lia); repeat (f_equal; try lia).
Qed.

Definition px (p : Z * Z * Z * Z) : Z := let '(x, _, _, _) := p in x.
Definition pz (p : Z * Z * Z * Z) : Z := let '(_, z, _, _) := p in z.

Lemma st_ring : forall k t, 1 <= k -> 0 <= t < 8 * k -> ring (px (st k t)) (pz (st k t)) = k.
Proof. intros k t Hk Ht. unfold st, ring. zcase; cbn [px pz]; lia. Qed.
Lemma st_onto : forall x z k, 1 <= k -> ring x z = k -> exists t, 0 <= t < 8 * k /\ px (st k t) = x /\ pz (st k t) = z.
Proof.
  intros x z k Hk Hr. unfold ring in Hr.
  destruct (Z.eq_dec x k) as [->|]; [destruct (Z.eq_dec z (-k)) as [->|]; [exists (8 * k - 1)|exists (z + k - 1)]|
    destruct (Z.eq_dec z k) as [->|]; [exists (3 * k - 1 - x)|
    destruct (Z.eq_dec x (-k)) as [->|]; [exists (5 * k - 1 - z)|exists (7 * k - 1 + x)]]];
  unfold st; zcase; cbn [px pz]; lia.
Qed.
Lemma st_inj : forall k t t', 1 <= k -> 0 <= t < 8 * k -> 0 <= t' < 8 * k ->
  px (st k t) = px (st k t') -> pz (st k t) = pz (st k t') -> t = t'.
Proof. intros k t t' Hk Ht Ht'. unfold st. zcase; cbn [px pz]; lia. Qed.

(** ** The walk *)
Definition place (i : nat) : Z * Z := let '(x, z, _, _) := Nat.iter i spiralMove (1, 0, 1, 0) in (x, z).

Lemma iter_st : forall i k t, 1 <= k <= 1000000000 -> 0 <= t < 8 * k -> Z.of_nat i = 4 * k * (k - 1) + t ->
  Nat.iter i spiralMove (1, 0, 1, 0) = st k t.
Proof.
  induction i as [|i IH]; intros k t Hk Ht Hi.
  - assert (k = 1) by nia. subst k. assert (t = 0) by lia. subst t. reflexivity.
  - change (Nat.iter (Datatypes.S i) spiralMove (1, 0, 1, 0)) with (spiralMove (Nat.iter i spiralMove (1, 0, 1, 0))).
    destruct (Z.eq_dec t 0) as [->|N].
    + assert (1 < k) by nia. rewrite (IH (k - 1) (8 * (k - 1) - 1)) by nia. rewrite move_out by lia. f_equal; lia.
    + rewrite (IH k (t - 1)) by lia. rewrite move_in by lia. f_equal; lia.
Qed.
Lemma decompose : forall i, 0 <= i -> exists k t, 1 <= k /\ 0 <= t < 8 * k /\ i = 4 * k * (k - 1) + t.
Proof.
  intros i Hi. pattern i. apply natlike_ind; [|intros x Hx (k & t & Hk & Ht & E)|exact Hi].
  - exists 1, 0. lia.
  - destruct (Z.eq_dec (t + 1) (8 * k)).
    + exists (k + 1), 0. nia.
    + exists k, (t + 1). nia.
Qed.
Lemma place_ring : forall r i, 0 <= r <= 1000000000 -> Z.of_nat i < (2 * r + 1) * (2 * r + 1) - 1 ->
  exists k t, 1 <= k <= r /\ 0 <= t < 8 * k /\ Z.of_nat i = 4 * k * (k - 1) + t /\ place i = (px (st k t), pz (st k t)).
Proof.
  intros r i Hr Hi. destruct (decompose (Z.of_nat i)) as (k & t & Hk & Ht & E); [lia|]. exists k, t.
  assert (k <= r) by nia. split; [lia|]. split; [exact Ht|]. split; [exact E|].
  unfold place. rewrite (iter_st i k t) by lia. destruct (st k t) as [[[? ?] ?] ?]. reflexivity.
Qed.

(** ** The search *)
Section Search.
  Variables (hp : HeightPatch) (fy ch : f32) (ix iz r : Z).
  Hypothesis Hr : 0 <= r <= 23169.
  Hypothesis Hw : 0 < hpWidth hp.
  Hypothesis Hh : 0 < hpHeight hp.
  Hypothesis Hsz : hpWidth hp * hpHeight hp <= 1073741824.
  Hypothesis Hdata : hpWidth hp * hpHeight hp <= zlen (hpData hp).
  Hypothesis Hx : 0 <= ix < hpWidth hp.
  Hypothesis Hz : 0 <= iz < hpHeight hp.

  Definition cand (x z h : Z) : Prop := has_height hp x z h /\ flt (dist fy ch h) maxFloat32 = true.
  Definition atr (k t h : Z) : Prop := cand (ix + px (st k t)) (iz + pz (st k t)) h.

  (** State after [t] cells of ring [k]. *)
  Definition sInv (k t h : Z) (dmin : f32) : Prop :=
    (forall k' t' h', 1 <= k' < k -> 0 <= t' < 8 * k' -> ~ atr k' t' h') /\
    ((h = 65535 /\ dmin = maxFloat32 /\ forall t' h', 0 <= t' < t -> ~ atr k t' h') \/
     (dmin = dist fy ch h /\ (exists t', 0 <= t' < t /\ atr k t' h) /\
      forall t' h', 0 <= t' < t -> atr k t' h' -> flt (dist fy ch h') dmin = false)).

  Lemma has_height_fun : forall x z h h', has_height hp x z h -> has_height hp x z h' -> h = h'.
  Proof. intros x z h h' (_ & _ & E & _) (_ & _ & E' & _). congruence. Qed.

  Lemma lookAt_ok : forall k t h dmin, 1 <= k <= r -> 0 <= t < 8 * k -> sInv k t h dmin ->
    exists h' dmin', lookAt hp fy ch (i32 (ix + px (st k t))) (i32 (iz + pz (st k t))) h dmin = Ok (h', dmin') /\ sInv k (t + 1) h' dmin'.
  Proof.
    intros k t h dmin Hk Ht [HB HI]. pose proof (st_ring k t ltac:(lia) Ht) as R. unfold ring in R.
    assert (hpWidth hp <= 1073741824 /\ hpHeight hp <= 1073741824) as [Bw Bh] by nia.
    rewrite !i32_id by (unfold is_i32; lia).
    set (nx := ix + px (st k t)). set (nz := iz + pz (st k t)). unfold lookAt.
    assert ((forall h', ~ atr k t h') -> sInv k (t + 1) h dmin) as Skip.
    { intros N. split; [exact HB|]. destruct HI as [(E1 & E2 & E3)|(E1 & (t' & Ht' & E2) & E3)].
      - left. split; [exact E1|]. split; [exact E2|]. intros t' h' Ht'. destruct (Z.eq_dec t' t) as [->|]; [apply N|apply E3; lia].
      - right. split; [exact E1|]. split; [exists t'; split; [lia|exact E2]|]. intros t2 h2 Ht2 A.
        destruct (Z.eq_dec t2 t) as [->|]; [destruct (N h2 A)|apply (E3 t2); [lia|exact A]]. }
    destruct (Z.leb_spec 0 nx); [|exists h, dmin; split; [reflexivity|apply Skip; intros h' (A & _); unfold has_height in A; fold nx nz in A; lia]].
    destruct (Z.leb_spec 0 nz); [|exists h, dmin; split; [reflexivity|apply Skip; intros h' (A & _); unfold has_height in A; fold nx nz in A; lia]].
    destruct (Z.ltb_spec nx (hpWidth hp)); [|exists h, dmin; split; [reflexivity|apply Skip; intros h' (A & _); unfold has_height in A; fold nx nz in A; lia]].
    destruct (Z.ltb_spec nz (hpHeight hp)); [|exists h, dmin; split; [reflexivity|apply Skip; intros h' (A & _); unfold has_height in A; fold nx nz in A; lia]].
    cbn [andb].
    pose proof (cidx_range (hpWidth hp) (hpHeight hp) nx nz ltac:(lia) ltac:(lia)) as B. unfold cidx in B.
    assert (0 <= nz * hpWidth hp) by (apply Z.mul_nonneg_nonneg; lia).
    assert (is_i32 (nz * hpWidth hp)) by (unfold is_i32; lia).
    rewrite (i32_id (nz * hpWidth hp)) by assumption. rewrite i32_id by (unfold is_i32; lia).
    destruct (get_in_range (hpData hp) (nx + nz * hpWidth hp)) as (nh & E); [lia|]. rewrite E. cbn [bind].
    apply get_ok in E. destruct E as [_ E].
    destruct (Z.eqb_spec nh unsetHeight) as [->|N].
    { exists h, dmin. split; [reflexivity|]. apply Skip. intros h' ((_ & _ & A & B') & _). fold nx nz in A. unfold unsetHeight in E. congruence. }
    assert (has_height hp nx nz nh) as HH by (unfold has_height; split; [lia|]; split; [lia|]; split; [exact E|exact N]).
    fold (dist fy ch nh).
    destruct (flt (dist fy ch nh) dmin) eqn:F.
    - exists nh, (dist fy ch nh). split; [reflexivity|]. split; [exact HB|]. right. split; [reflexivity|].
      assert (flt (dist fy ch nh) maxFloat32 = true) as FM.
      { destruct HI as [(_ & -> & _)|(-> & (t' & _ & (_ & E2)) & _)]; [exact F|]. eapply flt_trans; [exact F|exact E2]. }
      split; [exists t; split; [lia|]; split; assumption|].
      intros t' h' Ht' A. destruct (Z.eq_dec t' t) as [->|].
      { destruct A as [A _]. rewrite (has_height_fun _ _ _ _ A HH). apply flt_irrefl. }
      destruct HI as [(_ & _ & E3)|(-> & _ & E3)]; [destruct (E3 t' h' ltac:(lia) A)|].
      destruct (flt (dist fy ch h') (dist fy ch nh)) eqn:G; [|reflexivity].
      pose proof (E3 t' h' ltac:(lia) A) as C. pose proof (flt_trans _ _ _ G F) as C'. congruence.
    - exists h, dmin. split; [reflexivity|]. split; [exact HB|]. destruct HI as [(E1 & E2 & E3)|(E1 & (t' & Ht' & E2) & E3)].
      + left. split; [exact E1|]. split; [exact E2|]. intros t' h' Ht' A. destruct (Z.eq_dec t' t) as [->|]; [|apply (E3 t' h' ltac:(lia) A)].
        destruct A as [A A']. rewrite (has_height_fun _ _ _ _ A HH) in A'. subst dmin. congruence.
      + right. split; [exact E1|]. split; [exists t'; split; [lia|exact E2]|]. intros t2 h2 Ht2 A.
        destruct (Z.eq_dec t2 t) as [->|]; [|apply (E3 t2); [lia|exact A]].
        destruct A as [A _]. rewrite (has_height_fun _ _ _ _ A HH). exact F.
  Qed.

  (** The answer: nothing to be found, or a best height of the first ring that has one. *)
  Definition answer (h : Z) : Prop :=
    (h = 65535 /\ forall k t h', 1 <= k <= r -> 0 <= t < 8 * k -> ~ atr k t h') \/
    (exists k t, 1 <= k <= r /\ 0 <= t < 8 * k /\ atr k t h /\
      (forall k' t' h', 1 <= k' < k -> 0 <= t' < 8 * k' -> ~ atr k' t' h') /\
      forall t' h', 0 <= t' < 8 * k -> atr k t' h' -> flt (dist fy ch h') (dist fy ch h) = false).

  Lemma sInv_end : forall k h dmin, 1 <= k <= r -> sInv k (8 * k) h dmin -> h <> 65535 -> answer h.
  Proof.
    intros k h dmin Hk [HB [(E & _)|(-> & (t' & Ht' & A) & E3)]] N; [congruence|]. right. exists k, t'. auto.
  Qed.
  Lemma sInv_next : forall k dmin, 1 <= k -> sInv k (8 * k) 65535 dmin -> sInv (k + 1) 0 65535 dmin.
  Proof.
    intros k dmin Hk [HB H]. destruct H as [(_ & -> & E3)|(_ & (t' & _ & ((_ & _ & _ & N) & _)) & _)]; [|congruence].
    split; [|left; split; [reflexivity|]; split; [reflexivity|]; intros; lia].
    intros k' t' h' Hk' Ht'. destruct (Z.eq_dec k' k) as [->|]; [apply E3; lia|apply HB; lia].
  Qed.

  Lemma search_ok : forall n k t h dmin, 1 <= k -> 0 <= t < 8 * k -> sInv k t h dmin ->
    Z.of_nat n + (4 * k * (k - 1) + t) = 4 * r * (r + 1) ->
    exists h', searchHeight n hp fy ch ix iz (4 * k * (k - 1) + t) (i32 (4 * k * (k + 1))) (i32 (8 * (k + 1))) (st k t) h dmin = Ok h' /\ answer h'.
  Proof.
    induction n as [|n IH]; intros k t h dmin Hk Ht HI Hn.
    - exists h. split; [reflexivity|]. assert (k = r + 1) by nia. assert (t = 0) by nia. subst k t.
      destruct HI as [HB H]. left. destruct H as [(-> & _ & _)|(_ & (t' & Ht' & _) & _)]; [|lia].
      split; [reflexivity|]. intros k t h' Hk' Ht'. apply HB; lia.
    - assert (k <= r) as Kr by nia.
      cbn [searchHeight].
      destruct (lookAt_ok k t h dmin ltac:(lia) Ht HI) as (h' & dmin' & E & HI').
      destruct (st k t) as [[[x z] dx] dz] eqn:Est. cbn [px pz] in E. rewrite E. cbn [bind].
      rewrite <- Est. clear E Est x z dx dz.
      assert (4 * r * (r + 1) <= 2147400000) as Bn by (clear - Hr; pose proof (Z.mul_le_mono_nonneg r 23169 (r + 1) 23170 ltac:(lia) ltac:(lia) ltac:(lia) ltac:(lia)); lia).
      assert (4 * k * (k + 1) <= 4 * r * (r + 1)) by nia.
      rewrite (i32_id (4 * k * (k - 1) + t + 1)) by (unfold is_i32; nia).
      rewrite (i32_id (4 * k * (k + 1))) by (unfold is_i32; nia).
      rewrite (i32_id (8 * (k + 1))) by (unfold is_i32; nia).
      destruct (Z.eqb_spec (4 * k * (k - 1) + t + 1) (4 * k * (k + 1))) as [Eq|Ne].
      + assert (t = 8 * k - 1) by nia. subst t. replace (8 * k - 1 + 1) with (8 * k) in HI' by lia.
        unfold unsetHeight. destruct (Z.eqb_spec h' 65535) as [->|N].
        * rewrite move_out by lia.
          replace (4 * k * (k + 1) + 8 * (k + 1)) with (4 * (k + 1) * (k + 1 + 1)) by lia.
          replace (8 * (k + 1) + 8) with (8 * (k + 1 + 1)) by lia.
          replace (4 * k * (k - 1) + (8 * k - 1) + 1) with (4 * (k + 1) * (k + 1 - 1) + 0) by lia.
          apply IH; [lia|lia|apply sInv_next; [lia|exact HI']|nia].
        * exists h'. split; [reflexivity|]. apply (sInv_end k h' dmin'); [lia|exact HI'|exact N].
      + rewrite move_in by nia.
        destruct (IH k (t + 1) h' dmin' Hk ltac:(nia) HI' ltac:(nia)) as (h2 & E2 & A2).
        rewrite (i32_id (4 * k * (k + 1))) in E2 by (unfold is_i32; nia).
        rewrite (i32_id (8 * (k + 1))) in E2 by (unfold is_i32; nia).
        exists h2. split; [|exact A2]. rewrite <- E2. f_equal; lia.
  Qed.

  Lemma answer_cells : forall h, answer h ->
    (h = 65535 /\ forall x z h', 1 <= ring (x - ix) (z - iz) <= r -> ~ cand x z h') \/
    (exists x z, 1 <= ring (x - ix) (z - iz) <= r /\ cand x z h /\
       forall x' z' h', 1 <= ring (x' - ix) (z' - iz) -> cand x' z' h' ->
         ring (x - ix) (z - iz) <= ring (x' - ix) (z' - iz) /\
         (ring (x' - ix) (z' - iz) = ring (x - ix) (z - iz) -> flt (dist fy ch h') (dist fy ch h) = false)).
  Proof.
    assert (forall x z h, 1 <= ring (x - ix) (z - iz) -> cand x z h -> exists t, 0 <= t < 8 * ring (x - ix) (z - iz) /\ atr (ring (x - ix) (z - iz)) t h) as C.
    { intros x z h R A. destruct (st_onto (x - ix) (z - iz) _ R eq_refl) as (t & Ht & E1 & E2). exists t. split; [exact Ht|].
      unfold atr. rewrite E1, E2. replace (ix + (x - ix)) with x by lia. replace (iz + (z - iz)) with z by lia. exact A. }
    intros h [[-> H]|(k & t & Hk & Ht & A & H1 & H2)].
    - left. split; [reflexivity|]. intros x z h' R A. destruct (C x z h' ltac:(lia) A) as (t & Ht & A'). exact (H (ring (x - ix) (z - iz)) t h' R Ht A').
    - right. exists (ix + px (st k t)), (iz + pz (st k t)).
      replace (ix + px (st k t) - ix) with (px (st k t)) by lia. replace (iz + pz (st k t) - iz) with (pz (st k t)) by lia.
      rewrite st_ring by lia. split; [exact Hk|]. split; [exact A|].
      intros x' z' h' R A'. destruct (C x' z' h' R A') as (t' & Ht' & A2). split.
      + destruct (Z.le_gt_cases k (ring (x' - ix) (z' - iz))); [assumption|]. exfalso. apply (H1 (ring (x' - ix) (z' - iz)) t' h'); [lia|exact Ht'|exact A2].
      + intros E. rewrite E in *. exact (H2 t' h' Ht' A2).
  Qed.
End Search.
