(** Renumbering the regions (C49). *)
From Coq Require Import ZArith List Bool Lia Relations.
From Verif.Base Require Import Res GoNum Grid.
From Verif.Model Require Import Heightfield Dirs Compact Erode Region RegionMerge.
From Verif.Proofs Require Import ErodeProofs RegionBase MergeBase MergeFilter.
Import ListNotations.
Open Scope Z_scope.

Section Compress.
Variable nreg : Z.
Hypothesis Hn : 1 <= nreg <= 32768.
Variable Rj : list Rgn.
Notation id R k := (rID (rg R k)).
Hypothesis Lj : zlen Rj = nreg.
Hypothesis Ij : forall k, 0 <= k < nreg -> id Rj k = 0 \/ (0 < id Rj k < nreg /\ id Rj (id Rj k) = id Rj k).
Hypothesis I0 : id Rj 0 = 0.
Notation o k := (id Rj k).

Lemma markRemap_ok : exists R, foldM markRemap (zseq (Z.to_nat nreg)) Rj = Ok R /\ zlen R = nreg /\
  forall k, 0 <= k < nreg -> id R k = o k /\ rRemap (rg R k) = negb (o k =? 0) /\ rOverlap (rg R k) = rOverlap (rg Rj k).
Proof.
  destruct (loop_each markRemap (fun _ a b => b = withRemap (negb (skipID (rID a))) a) nreg (zseq (Z.to_nat nreg)) Rj) as (R & E & L & H & _).
  - apply NoDup_zseq.
  - intros j Hj. apply in_zseq in Hj. lia.
  - exact Lj.
  - intros R j Hj L. apply in_zseq in Hj. unfold markRemap. rewrite update_rg by lia. eexists. split; reflexivity.
  - exists R. split; [exact E|]. split; [exact L|]. intros k Hk. rewrite (H k) by (apply in_zseq; lia). cbn [rID rRemap rOverlap withRemap]. split; [reflexivity|]. split; [|reflexivity].
    f_equal. unfold skipID. destruct (Ij k Hk) as [-> |[B _]]; [reflexivity|]. rewrite isBorder_lo by lia. apply orb_false_r.
Qed.

Definition proc (n k : Z) : Prop := o k <> 0 /\ exists k', 0 <= k' < n /\ o k' = o k.
Record compressed (n : Z) (R : list Rgn) (gen : Z) : Prop := {
  z_len : zlen R = nreg;
  z_zero : forall k, 0 <= k < nreg -> o k = 0 -> id R k = 0 /\ rRemap (rg R k) = false;
  z_done : forall k, 0 <= k < nreg -> proc n k -> 1 <= id R k <= gen /\ rRemap (rg R k) = false;
  z_todo : forall k, 0 <= k < nreg -> o k <> 0 -> ~ proc n k -> id R k = o k /\ rRemap (rg R k) = true;
  z_eq : forall k l, 0 <= k < nreg -> 0 <= l < nreg -> proc n k -> proc n l -> (id R k = id R l <-> o k = o l);
  z_all : forall g, 1 <= g <= gen -> exists k, 0 <= k < nreg /\ proc n k /\ id R k = g;
  z_gen : 0 <= gen <= Z.max 0 (n - 1) }.

Lemma proc_dec : forall n k, 0 <= n -> proc n k \/ ~ proc n k.
Proof.
  intros n k Hn0. unfold proc. destruct (Z.eq_dec (o k) 0) as [E|E]; [right; tauto|].
  destruct (existsb (fun k' => o k' =? o k) (zseq (Z.to_nat n))) eqn:X.
  - left. split; [exact E|]. apply existsb_exists in X. destruct X as (k' & Hk' & X). apply in_zseq in Hk'. apply Z.eqb_eq in X. exists k'. split; [lia|exact X].
  - right. intros (_ & k' & Hk' & Q). assert (existsb (fun k' => o k' =? o k) (zseq (Z.to_nat n)) = true) as Y; [|congruence].
    apply existsb_exists. exists k'. split; [apply in_zseq; lia|]. now apply Z.eqb_eq.
Qed.
Lemma proc_S : forall n k, 0 <= n -> (proc (n + 1) k <-> proc n k \/ (o k <> 0 /\ o n = o k)).
Proof.
  intros n k Hn0. unfold proc. split.
  - intros (E & k' & Hk' & Q). destruct (Z.eq_dec k' n) as [->|]; [right; auto|]. left. split; [exact E|]. exists k'. split; [lia|exact Q].
  - intros [(E & k' & Hk' & Q)|[E Q]]; (split; [exact E|]); [exists k'; split; [lia|exact Q]|exists n; split; [lia|exact Q]].
Qed.

Lemma compressOne_ok : forall n R gen, 0 <= n < nreg -> compressed n R gen -> exists R' gen', compressOne nreg (R, gen) n = Ok (R', gen') /\ compressed (n + 1) R' gen'.
Proof.
  intros n R gen Bn [Z1 Z2 Z3 Z4 Z5 Z6 Z7]. unfold compressOne. rewrite get_rg by lia. cbn [bind].
  destruct (rRemap (rg R n)) eqn:ER; cbn [negb].
  - assert (o n <> 0) as ON. { intros Q. destruct (Z2 n Bn Q). congruence. }
    assert (~ proc n n) as NP. { intros Q. destruct (Z3 n Bn Q). congruence. }
    destruct (Z4 n Bn ON NP) as [EN _]. rewrite EN. set (r := o n) in *.
    assert (0 < r < nreg /\ o r = r) as [Br Er]. { destruct (Ij n Bn) as [|X]; [contradiction|exact X]. }
    assert (n <= r) as NR. { destruct (Z.le_gt_cases n r) as [|Q]; [assumption|]. exfalso. apply NP. split; [exact ON|]. exists r. split; [lia|exact Er]. }
    assert (1 <= n) as N1. { destruct (Z.eq_dec n 0) as [->|]; [contradiction|lia]. }
    rewrite u16_id by (unfold is_u16; lia).
    destruct (loop_each (renameOne r (gen + 1)) (fun _ a b => b = if rID a =? r then withRemap false (withID (gen + 1) a) else a) nreg (krange n (nreg - n)) R) as (R' & E & L & H1 & H2).
    { apply NoDup_krange. }
    { intros j Hj. apply in_krange in Hj. lia. }
    { exact Z1. }
    { intros R2 j Hj L2. apply in_krange in Hj. unfold renameOne. rewrite update_rg by lia. eexists. split; reflexivity. }
    rewrite E. cbn [bind]. exists R', (gen + 1). split; [reflexivity|].
    assert (forall k, 0 <= k < nreg -> o k = r -> n <= k /\ ~ proc n k) as CR.
    { intros k Hk Q. assert (~ proc n k) as X. { intros (_ & k' & Hk' & X). apply NP. split; [exact ON|]. exists k'. split; [exact Hk'|]. fold r. congruence. }
      split; [|exact X]. destruct (Z.le_gt_cases n k) as [|Y]; [assumption|]. exfalso. apply X. split; [congruence|]. exists k. split; [lia|reflexivity]. }
    assert (forall k, 0 <= k < nreg -> o k = r -> id R' k = gen + 1 /\ rRemap (rg R' k) = false) as NEW.
    { intros k Hk Q. destruct (CR k Hk Q) as [Lk Pk]. rewrite (H1 k) by (apply in_krange; lia). destruct (Z4 k Hk) as [X _]; [congruence|exact Pk|].
      rewrite X, Q, Z.eqb_refl. split; reflexivity. }
    assert (forall k, 0 <= k < nreg -> o k <> r -> rg R' k = rg R k) as OLD.
    { intros k Hk Q. destruct (Z.le_gt_cases n k) as [Lk|Lk].
      - rewrite (H1 k) by (apply in_krange; lia). destruct (Z.eqb_spec (id R k) r) as [X|]; [|reflexivity]. exfalso.
        destruct (Z.eq_dec (o k) 0) as [Y|Y]; [destruct (Z2 k Hk Y); lia|].
        destruct (proc_dec n k) as [P|P]; [lia| |destruct (Z4 k Hk Y P); congruence]. destruct (Z3 k Hk P). lia.
      - apply H2; [lia|]. intros X. apply in_krange in X. lia. }
    assert (forall k, 0 <= k < nreg -> (proc (n + 1) k <-> proc n k \/ o k = r)) as PS.
    { intros k Hk. rewrite proc_S by lia. fold r. split; [intros [X|[_ X]]; [now left|right; congruence]|intros [X|X]; [now left|right; split; congruence]]. }
    assert (forall k, 0 <= k < nreg -> proc n k -> o k <> r) as PN. { intros k Hk P Q. destruct (CR k Hk Q). contradiction. }
    split.
    + exact L.
    + intros k Hk Q. rewrite OLD by (lia || congruence). now apply Z2.
    + intros k Hk P. apply PS in P; [|exact Hk]. destruct P as [P|P]; [rewrite OLD by (exact Hk || now apply PN); destruct (Z3 k Hk P); split; [lia|assumption]|].
      destruct (NEW k Hk P). split; [lia|assumption].
    + intros k Hk Q P. rewrite PS in P by exact Hk. rewrite OLD by (exact Hk || tauto). apply Z4; tauto.
    + intros k l Hk Hl Pk Pl. apply PS in Pk; [|exact Hk]. apply PS in Pl; [|exact Hl]. destruct Pk as [Pk|Pk], Pl as [Pl|Pl].
      * rewrite !OLD by (assumption || now apply PN). now apply Z5.
      * rewrite (OLD k) by (assumption || now apply PN). destruct (NEW l Hl Pl) as [-> _]. destruct (Z3 k Hk Pk). pose proof (PN k Hk Pk). split; intros; [lia|congruence].
      * rewrite (OLD l) by (assumption || now apply PN). destruct (NEW k Hk Pk) as [-> _]. destruct (Z3 l Hl Pl). pose proof (PN l Hl Pl). split; intros; [lia|congruence].
      * destruct (NEW k Hk Pk) as [-> _]. destruct (NEW l Hl Pl) as [-> _]. split; intros; congruence.
    + intros g Hg. destruct (Z.eq_dec g (gen + 1)) as [->|].
      * exists n. split; [exact Bn|]. split; [apply PS; [exact Bn|now right]|]. apply NEW; [exact Bn|reflexivity].
      * destruct (Z6 g) as (k & Hk & P & Q); [lia|]. exists k. split; [exact Hk|]. split; [apply PS; [exact Hk|now left]|]. rewrite OLD by (exact Hk || now apply PN). exact Q.
    + lia.
  - exists R, gen. split; [reflexivity|].
    assert (forall k, proc (n + 1) k <-> proc n k) as PS.
    { intros k. rewrite proc_S by lia. split; [|now left]. intros [X|[X1 X2]]; [exact X|]. assert (o n <> 0) as ON by congruence.
      destruct (proc_dec n n) as [P|P]; [lia| |destruct (Z4 n Bn ON P); congruence]. destruct P as (_ & k' & Hk' & Y). split; [exact X1|]. exists k'. split; [exact Hk'|congruence]. }
    split; auto.
    + intros k Hk P. apply Z3; [exact Hk|now apply PS].
    + intros k Hk Q P. apply Z4; auto. now rewrite <- PS.
    + intros k l Hk Hl Pk Pl. apply Z5; auto; now apply PS.
    + intros g Hg. destruct (Z6 g Hg) as (k & Hk & P & Q). exists k. split; [exact Hk|]. split; [now apply PS|exact Q].
    + lia.
Qed.

(** The new numbers: zero stays zero, equal numbers stay equal, and all numbers up to the
    last are in use. *)
Theorem compress_ok : exists Rm R gen, foldM markRemap (zseq (Z.to_nat nreg)) Rj = Ok Rm /\ foldM (compressOne nreg) (zseq (Z.to_nat nreg)) (Rm, 0) = Ok (R, gen) /\
  zlen R = nreg /\ 0 <= gen < nreg /\
  (forall k, 0 <= k < nreg -> 0 <= id R k <= gen /\ (id R k = 0 <-> o k = 0)) /\
  (forall k l, 0 <= k < nreg -> 0 <= l < nreg -> (id R k = id R l <-> o k = o l)) /\
  (forall g, 1 <= g <= gen -> exists k, 0 < k < nreg /\ id R k = g).
Proof.
  destruct markRemap_ok as (Rm & Em & Lm & Hm). exists Rm.
  destruct (foldM_inv (compressOne nreg) (fun pre st => compressed (zlen pre) (fst st) (snd st)) (zseq (Z.to_nat nreg)) (Rm, 0)) as ([R gen] & E & H).
  - cbn [fst snd]. change (zlen []) with 0.
    assert (forall k, ~ proc 0 k) as NP by (intros k (_ & k' & Hk' & _); lia). split.
    + exact Lm.
    + intros k Hk Q. destruct (Hm k Hk) as (X & Y & _). rewrite X, Y, Q. auto.
    + intros k _ P. now apply NP in P.
    + intros k Hk Q _. destruct (Hm k Hk) as (X & Y & _). rewrite X, Y. split; [reflexivity|]. destruct (Z.eqb_spec (o k) 0); [contradiction|reflexivity].
    + intros k l _ _ P. now apply NP in P.
    + intros g Hg. lia.
    + lia.
  - intros pre i post [R gen] El H. cbn [fst snd] in *. assert (i = zlen pre /\ 0 <= i < nreg) as [Ei Bi].
    { assert (In i (zseq (Z.to_nat nreg))) as Q by (rewrite El; apply in_app_iff; right; now left). apply in_zseq in Q. split; [|lia]. now apply zseq_split in El. }
    rewrite <- Ei in H. destruct (compressOne_ok i R gen Bi H) as (R' & gen' & E & H'). exists (R', gen'). split; [exact E|]. cbn [fst snd]. rewrite zlen_snoc, <- Ei. exact H'.
  - cbn [fst snd] in H. replace (zlen (zseq (Z.to_nat nreg))) with nreg in H by (unfold zlen; rewrite zseq_length; lia).
    exists R, gen. split; [exact Em|]. split; [exact E|]. destruct H as [Z1 Z2 Z3 Z4 Z5 Z6 Z7]. split; [exact Z1|]. split; [lia|].
    assert (forall k, 0 <= k < nreg -> o k <> 0 -> proc nreg k) as P. { intros k Hk Q. split; [exact Q|]. exists k. auto. }
    split; [|split].
    + intros k Hk. destruct (Z.eq_dec (o k) 0) as [Q|Q].
      * destruct (Z2 k Hk Q) as [-> _]. split; [lia|]. tauto.
      * destruct (Z3 k Hk (P k Hk Q)). split; [lia|]. split; [lia|contradiction].
    + intros k l Hk Hl. destruct (Z.eq_dec (o k) 0) as [Q|Q], (Z.eq_dec (o l) 0) as [Q'|Q'].
      * destruct (Z2 k Hk Q) as [-> _], (Z2 l Hl Q') as [-> _]. rewrite Q, Q'. tauto.
      * destruct (Z2 k Hk Q) as [-> _], (Z3 l Hl (P l Hl Q')). split; intros; [lia|congruence].
      * destruct (Z3 k Hk (P k Hk Q)), (Z2 l Hl Q') as [-> _]. split; intros; [lia|congruence].
      * apply Z5; auto.
    + intros g Hg. destruct (Z6 g Hg) as (k & Hk & (Q & _) & X). exists k. split; [|exact X]. destruct (Z.eq_dec k 0) as [->|]; [contradiction|lia].
Qed.
End Compress.
