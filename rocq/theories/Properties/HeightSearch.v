(** C56: the search for a height around a cell. *)
From Coq Require Import ZArith List Bool Lia.
From Verif.Base Require Import Res GoNum F32 Num Grid.
From Verif.Model Require Import HeightSearch.
From Verif.Spec Require Import SpiralSpec.
From Verif.Proofs Require Import SpiralProofs.
Import ListNotations.
Open Scope Z_scope.

(** Cell number [i] of the walk, relative to the centre: the start of the loop in getHeight,
    moved on [i] times. *)
Definition cell (i : nat) : Z * Z := let '(x, z, _, _) := Nat.iter i spiralMove (1, 0, 1, 0) in (x, z).

(** The first (2r+1)^2-1 cells of the walk are exactly the cells of the square of radius r
    except the centre, each once. Being true for every r this also says that the rings are
    visited one after the other. *)
Theorem C56_walk : forall r, 0 <= r <= 1000000000 ->
  let n := Z.to_nat ((2 * r + 1) * (2 * r + 1) - 1) in
  NoDup (map cell (seq 0 n)) /\
  forall x z, In (x, z) (map cell (seq 0 n)) <-> 1 <= ring x z <= r.
Proof.
  intros r Hr n. change cell with place.
  assert (forall i, In i (seq 0 n) -> Z.of_nat i < (2 * r + 1) * (2 * r + 1) - 1) as Hn.
  { intros i Hi. apply in_seq in Hi. unfold n in Hi. lia. }
  split.
  - assert (forall l, NoDup l -> (forall i, In i l -> In i (seq 0 n)) -> NoDup (map place l)) as G.
    { induction l as [|i l IH]; intros Hd Hl; [constructor|]. inversion Hd; subst. cbn [map]. constructor.
      - intros Hin. apply in_map_iff in Hin. destruct Hin as (i' & E & Hi').
        destruct (place_ring r i Hr (Hn i (Hl i (or_introl eq_refl)))) as (k & t & Hk & Ht & Ei & P).
        destruct (place_ring r i' Hr (Hn i' (Hl i' (or_intror Hi')))) as (k' & t' & Hk' & Ht' & Ei' & P').
        rewrite P, P' in E. inversion E as [[E1 E2]].
        assert (k = k') by (rewrite <- (st_ring k t), <- (st_ring k' t') by lia; congruence). subst k'.
        assert (t = t') by (apply (st_inj k); (lia || congruence)). subst t'. assert (i = i') by lia. subst i'. contradiction.
      - apply IH; [assumption|]. intros j Hj. apply Hl. right. exact Hj. }
    apply G; [apply seq_NoDup|auto].
  - intros x z. rewrite in_map_iff. split.
    + intros (i & E & Hi). destruct (place_ring r i Hr (Hn i Hi)) as (k & t & Hk & Ht & Ei & P). rewrite P in E. inversion E; subst.
      rewrite st_ring by lia. lia.
    + intros R. destruct (st_onto x z (ring x z) ltac:(lia) eq_refl) as (t & Ht & E1 & E2).
      remember (ring x z) as k. assert (4 * k * (k - 1) + t < (2 * r + 1) * (2 * r + 1) - 1) as B by nia.
      assert (0 <= 4 * k * (k - 1) + t) by nia.
      exists (Z.to_nat (4 * k * (k - 1) + t)). split.
      * unfold place. rewrite (iter_st _ k t) by lia. destruct (st k t) as [[[? ?] ?] ?]. cbn [px pz] in *. congruence.
      * apply in_seq. unfold n. lia.
Qed.

Example C56_walk_example : map cell (seq 0 9) = [(1,0); (1,1); (0,1); (-1,1); (-1,0); (-1,-1); (0,-1); (1,-1); (2,-1)].
Proof. reflexivity. Qed.

(** getHeight never fails on an index. It returns the height of the cell that the position
    falls in (limited to the patch) if it is set. Otherwise, with a usable height being one
    with a finite distance to fy: 0xffff if no cell of the square has a usable height;
    otherwise a usable height of a cell such that no ring further in has one, and no cell
    of the same ring has one closer to fy. *)
Theorem C56_height : forall fx fy fz ics ch r hp,
  0 <= r <= 23169 -> 0 < hpWidth hp -> 0 < hpHeight hp ->
  hpWidth hp * hpHeight hp <= 1073741824 -> hpWidth hp * hpHeight hp <= zlen (hpData hp) ->
  let ix := Z.max 0 (Z.min (hpWidth hp - 1) (i32 (f_floor_i32 (fadd (fmul fx ics) (f_ratio 1 100)) - hpXmin hp))) in
  let iz := Z.max 0 (Z.min (hpHeight hp - 1) (i32 (f_floor_i32 (fadd (fmul fz ics) (f_ratio 1 100)) - hpYmin hp))) in
  let usable := fun x z h => has_height hp x z h /\ flt (dist fy ch h) maxFloat32 = true in
  let far := fun x z => ring (x - ix) (z - iz) in
  exists h, getHeight fx fy fz ics ch r hp = Ok h /\
    (has_height hp ix iz h \/
     ((forall h', ~ has_height hp ix iz h') /\
      ((h = 65535 /\ forall x z h', far x z <= r -> ~ usable x z h') \/
       (exists x z, far x z <= r /\ usable x z h /\
          forall x' z' h', usable x' z' h' ->
            far x z <= far x' z' /\ (far x' z' = far x z -> flt (dist fy ch h') (dist fy ch h) = false))))).
Proof.
  intros fx fy fz ics ch r hp Hr Hw Hh Hsz Hd ix iz usable far.
  assert (hpWidth hp <= 1073741824 /\ hpHeight hp <= 1073741824) as [Bw Bh] by nia.
  unfold getHeight. cbv zeta.
  replace (int32Clamp (i32 (f_floor_i32 (fadd (fmul fx ics) (f_ratio 1 100)) - hpXmin hp)) 0 (i32 (hpWidth hp - 1))) with ix
    by (unfold ix, int32Clamp; rewrite (i32_id (hpWidth hp - 1)) by (unfold is_i32; lia); zcase; lia).
  replace (int32Clamp (i32 (f_floor_i32 (fadd (fmul fz ics) (f_ratio 1 100)) - hpYmin hp)) 0 (i32 (hpHeight hp - 1))) with iz
    by (unfold iz, int32Clamp; rewrite (i32_id (hpHeight hp - 1)) by (unfold is_i32; lia); zcase; lia).
  assert (0 <= ix < hpWidth hp) as Hx by (unfold ix; lia). assert (0 <= iz < hpHeight hp) as Hz by (unfold iz; lia).
  clearbody ix iz.
  pose proof (cidx_range (hpWidth hp) (hpHeight hp) ix iz Hx Hz) as B. unfold cidx in B.
  assert (0 <= iz * hpWidth hp) by (apply Z.mul_nonneg_nonneg; lia).
  assert (is_i32 (iz * hpWidth hp)) by (unfold is_i32; lia).
  rewrite (i32_id (iz * hpWidth hp)) by assumption. rewrite (i32_id (ix + iz * hpWidth hp)) by (unfold is_i32; lia).
  destruct (get_in_range (hpData hp) (ix + iz * hpWidth hp)) as (h & E); [lia|]. rewrite E. cbn [bind].
  apply get_ok in E. destruct E as [_ E]. unfold unsetHeight at 1.
  destruct (Z.eqb_spec h 65535) as [->|N].
  2: { exists h. split; [reflexivity|]. left. split; [exact Hx|]. split; [exact Hz|]. auto. }
  assert (forall h', ~ has_height hp ix iz h') as HC by (intros h' (_ & _ & A & A'); congruence).
  assert (0 <= (2 * r + 1) * (2 * r + 1) <= 46339 * 46339) as Bn
    by (pose proof (Z.mul_le_mono_nonneg (2 * r + 1) 46339 (2 * r + 1) 46339 ltac:(lia) ltac:(lia) ltac:(lia) ltac:(lia)); lia).
  rewrite (i32_id (r * 2)) by (unfold is_i32; lia). rewrite (i32_id (r * 2 + 1)) by (unfold is_i32; lia).
  rewrite (i32_id ((r * 2 + 1) * (r * 2 + 1))) by (unfold is_i32; lia). rewrite i32_id by (unfold is_i32; lia).
  destruct (search_ok hp fy ch ix iz r Hr Hw Hh Hsz Hd Hx Hz (Z.to_nat ((r * 2 + 1) * (r * 2 + 1) - 1)) 1 0 65535 maxFloat32) as (h & Es & A).
  { lia. } { lia. } { split; [intros; lia|]. left. split; [reflexivity|]. split; [reflexivity|]. intros; lia. } { lia. }
  exists h. split; [exact Es|]. right. split; [exact HC|].
  assert (forall x z h', usable x z h' -> 1 <= far x z) as One.
  { intros x z h' [U _]. unfold far, ring. destruct (Z.eq_dec x ix) as [->|]; [|lia]. destruct (Z.eq_dec z iz) as [->|]; [|lia]. destruct (HC h' U). }
  destruct (answer_cells hp fy ch ix iz r h A) as [[-> H1]|(x & z & H1 & H2 & H3)].
  - left. split; [reflexivity|]. intros x z h' R U. apply (H1 x z h'); [|exact U]. pose proof (One x z h' U). fold (far x z). lia.
  - right. exists x, z. split; [apply H1|]. split; [exact H2|]. intros x' z' h' U. apply H3; [|exact U]. apply (One x' z' h' U).
Qed.

(** A patch of 5x5 cells, centre (2, 2) unset; the first ring has heights 7 and 9, the second
    ring has the wanted height 8, which is not looked at. *)
Definition ex_patch : HeightPatch :=
  mkPatch [8; 65535; 65535; 65535; 65535;
           65535; 65535; 65535; 65535; 65535;
           65535; 7; 65535; 9; 65535;
           65535; 65535; 65535; 65535; 65535;
           65535; 65535; 65535; 65535; 65535] 0 0 5 5.
Example C56_example :
  getHeight (f_of_Z 2) (f_of_Z 8) (f_of_Z 2) f1 f1 3 ex_patch = Ok 9 /\
  getHeight (f_of_Z 2) (f_of_Z 7) (f_of_Z 2) f1 f1 3 ex_patch = Ok 7 /\
  getHeight (f_of_Z 2) (f_of_Z 7) (f_of_Z 2) f1 f1 0 ex_patch = Ok 65535 /\
  getHeight (f_of_Z (-9)) (f_of_Z 7) (f_of_Z (-3)) f1 f1 0 ex_patch = Ok 8.
Proof. vm_compute. auto. Qed.

Print Assumptions C56_walk.
Print Assumptions C56_height.
