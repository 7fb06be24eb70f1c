(** Contours of fields that differ only in heights, regions and areas (C69). *)
From Coq Require Import ZArith List Bool Lia Arith Relations.
From Verif.Base Require Import Res GoNum Bits Grid.
From Verif.Model Require Import Heightfield Dirs Compact Erode Region RegionMerge Contour.
From Verif.Spec Require Import HeightfieldSpec CompactSpec ErodeSpec RegionSpec MergeSpec TraceSpec.
From Verif.Proofs Require Import ErodeProofs ErodeDist ErodeOpen RegionBase TraceStep.
Import ListNotations.
Open Scope Z_scope.

Definition same_links (c c' : CompactHeightfield) : Prop :=
  chf_w c' = chf_w c /\ chf_h c' = chf_h c /\ chf_spanCount c' = chf_spanCount c /\ chf_cells c' = chf_cells c /\
  zlen (chf_areas c') = zlen (chf_areas c) /\ zlen (chf_spans c') = zlen (chf_spans c) /\
  forall i s s', get (chf_spans c) i = Ok s -> get (chf_spans c') i = Ok s' -> csCon s' = csCon s.
Section Same.
Variables c c' : CompactHeightfield.
Hypothesis S : same_links c c'.
Lemma same_cell : forall x y, cell_at c' x y = cell_at c x y.
Proof. intros x y. destruct S as (W & _ & _ & C & _). unfold cell_at. now rewrite W, C. Qed.
Lemma same_at : forall x y i, span_at c' x y i <-> span_at c x y i.
Proof. intros x y i. unfold span_at. rewrite same_cell. destruct S as (-> & -> & _). reflexivity. Qed.
Lemma same_linked : forall d x y i x' y' j, linked c' d x y i x' y' j <-> linked c d x y i x' y' j.
Proof.
  intros d x y i x' y' j. unfold linked. rewrite same_cell. destruct S as (_ & _ & _ & _ & _ & L & H). split; intros (E & s & cc & Hs & R); (split; [exact E|]).
  - destruct (get_in_range (chf_spans c) i) as [s0 H0]; [apply get_range in Hs; lia|]. exists s0, cc. split; [exact H0|]. now rewrite <- (H i s0 s H0 Hs).
  - destruct (get_in_range (chf_spans c') i) as [s0 H0]; [apply get_range in Hs; lia|]. exists s0, cc. split; [exact H0|]. now rewrite (H i s s0 Hs H0).
Qed.
Lemma same_wf : chf_wf c -> chf_wf c'.
Proof.
  intros [A1 A2 A3 A4 A5 A6 A7 A8 A9]. pose proof S as (W & H & N & C & LA & LS & G). constructor.
  - lia.
  - lia.
  - rewrite C, W, H. exact A3.
  - lia.
  - lia.
  - intros x y i Q. rewrite N. apply (A6 x y i). now apply same_at.
  - intros i B. rewrite N in B. destruct (A7 i B) as (x & y & Q). exists x, y. now apply same_at.
  - intros x y x' y' i Q Q'. apply same_at in Q, Q'. exact (A8 _ _ _ _ _ Q Q').
  - intros x y i d s Q D Hs NC. apply same_at in Q. destruct (get_in_range (chf_spans c) i) as [s0 H0]; [apply get_range in Hs; lia|].
    rewrite (G i s0 s H0 Hs) in NC. destruct (A9 x y i d s0 Q D H0 NC) as (x' & y' & j & L & Q'). exists x', y', j. split; [now apply same_linked|now apply same_at].
Qed.
Lemma same_mutual : mutual c -> mutual c'.
Proof. intros M x y i d x' y' j Q D L. apply same_linked. apply M; [now apply same_at|exact D|now apply same_linked]. Qed.
End Same.

Lemma path_area : forall chf src i j, region_path chf src i j -> get (chf_areas chf) i = get (chf_areas chf) j.
Proof. intros chf src i j P. induction P as [i j (E & _)|i|i j P IH|i j k P1 IH1 P2 IH2]; congruence. Qed.

Lemma open_mutual : forall w h, 0 < w -> 0 < h -> mutual (openField w h).
Proof.
  intros w h Hw Hh x y i d x' y' j A D L. pose proof (open_wf w h Hw Hh) as wf. pose proof A as A0. apply (open_at w h) in A0; try assumption. destruct A0 as (Hx & Hy & ->).
  pose proof (linked_at _ wf d x y _ x' y' j A D L) as A'. apply (open_at w h) in A'; try assumption. destruct A' as (Hx' & Hy' & ->). pose proof (proj1 L) as E. injection E as -> ->.
  set (d' := Nat.modulo (d + 2) 4). assert (D' : (d' < 4)%nat) by (apply Nat.mod_upper_bound; lia).
  assert (fst (dir_step d') = - fst (dir_step d) /\ snd (dir_step d') = - snd (dir_step d)) as (E1 & E2).
  { unfold d'. destruct d as [|[|[|[|d]]]]; try lia; cbn; lia. }
  pose proof (open_linked w h Hw Hh (x + fst (dir_step d)) (y + snd (dir_step d)) d' Hx' Hy' D') as Q. unfold stays in Q. rewrite E1, E2 in Q.
  replace (x + fst (dir_step d) + - fst (dir_step d)) with x in Q by lia. replace (y + snd (dir_step d) + - snd (dir_step d)) with y in Q by lia. now apply Q.
Qed.

(** A field with other regions and areas. *)
Definition painted (chf : CompactHeightfield) (regs areas : list Z) : CompactHeightfield :=
  mkCHF (chf_w chf) (chf_h chf) (chf_spanCount chf) (chf_wh chf) (chf_climb chf) (chf_cells chf)
    (map (fun sr => mkCSpan (csY (fst sr)) (snd sr) (csCon (fst sr)) (csH (fst sr))) (combine (chf_spans chf) regs)) areas.
Lemma painted_same : forall chf regs areas, length regs = length (chf_spans chf) -> length areas = length (chf_areas chf) -> same_links chf (painted chf regs areas).
Proof.
  intros chf regs areas L1 L2. unfold same_links. cbn [painted chf_w chf_h chf_spanCount chf_cells chf_areas chf_spans]. do 4 (split; [reflexivity|]). split; [unfold zlen; lia|].
  split; [unfold zlen; rewrite map_length, combine_length; lia|]. intros i s s' H H'. apply get_ok in H, H'. destruct H as [B H], H' as [_ H'].
  rewrite nth_error_map in H'. destruct (nth_error (combine (chf_spans chf) regs) (Z.to_nat i)) as [[s0 r]|] eqn:E; [|discriminate]. cbn in H'. injection H' as <-. cbn [csCon].
  revert E H. clear. revert regs. generalize (Z.to_nat i). induction (chf_spans chf) as [|a l IH]; intros n regs E H; [destruct n; discriminate|].
  destruct regs as [|q regs]; [destruct n; discriminate|]. destruct n as [|n]; cbn in *; [congruence|]. exact (IH _ _ E H).
Qed.
(** The areas are the same within each region, as a check. *)
Definition oneArea (chf : CompactHeightfield) : bool :=
  forallb (fun p => forallb (fun q => negb (csReg (fst p) =? csReg (fst q)) || (csReg (fst p) =? 0) || (snd p =? snd q)) (combine (chf_spans chf) (chf_areas chf)))
    (combine (chf_spans chf) (chf_areas chf)).
Lemma oneArea_ok : forall chf, zlen (chf_areas chf) = zlen (chf_spans chf) -> oneArea chf = true -> one_area chf.
Proof.
  intros chf L H i j (r & (s & Hs & Er) & B) (r' & (s1 & Hs1 & E1) & (s2 & Hs2 & E2)). rewrite Hs in Hs1. apply Ok_inj in Hs1. subst s1.
  destruct (get_in_range (chf_areas chf) i) as [a Ha]; [apply get_range in Hs; lia|]. destruct (get_in_range (chf_areas chf) j) as [b Hb]; [apply get_range in Hs2; lia|].
  assert (IN : forall k (s : CompactSpan) a, get (chf_spans chf) k = Ok s -> get (chf_areas chf) k = Ok a -> In (s, a) (combine (chf_spans chf) (chf_areas chf))).
  { clear. intros k s a H1 H2. apply get_ok in H1, H2. destruct H1 as [_ H1], H2 as [_ H2]. revert H1 H2. generalize (Z.to_nat k). generalize (chf_areas chf). induction (chf_spans chf) as [|t l IH]; intros m n H1 H2; [destruct n; discriminate|].
    destruct m as [|q m]; [destruct n; discriminate|]. destruct n as [|n]; cbn in *; [left; congruence|right; eauto]. }
  unfold oneArea in H. rewrite forallb_forall in H. specialize (H _ (IN i s a Hs Ha)). rewrite forallb_forall in H. specialize (H _ (IN j s2 b Hs2 Hb)). cbn [fst snd] in H.
  rewrite Ha, Hb. apply orb_prop in H. destruct H as [H|H]; [|apply Z.eqb_eq in H; congruence]. apply orb_prop in H. destruct H as [H|H]; [apply negb_true_iff, Z.eqb_neq in H|apply Z.eqb_eq in H]; lia.
Qed.
Lemma regions16_ok : forall chf, forallb (fun s => (0 <=? csReg s) && (csReg s <? 65536)) (chf_spans chf) = true -> regions16 chf.
Proof.
  intros chf H i r (s & Hs & <-). apply get_ok in Hs. destruct Hs as [_ Hs]. apply nth_error_In in Hs. rewrite forallb_forall in H. specialize (H _ Hs). apply andb_prop in H. destruct H as [H1 H2].
  apply Z.leb_le in H1. apply Z.ltb_lt in H2. lia.
Qed.
Lemma few_spans : forall chf r, chf_wf chf -> chf_spanCount chf <= 9999 -> at_most 9999 (fun i => has_region chf i r).
Proof.
  intros chf r wf B l ND H. assert (INC : incl l (zseq (Z.to_nat (chf_spanCount chf)))).
  { intros i I. destruct (H i I) as (s & Hs & _). apply get_range in Hs. rewrite (ok_spans _ wf) in Hs. unfold zseq. apply in_map_iff. exists (Z.to_nat i). split; [lia|]. apply in_seq. lia. }
  pose proof (NoDup_incl_length ND INC) as Q. rewrite zseq_length in Q. unfold zlen. lia.
Qed.
