(** C68: simplification of contours keeps what matters. *)
From Coq Require Import ZArith List Bool Lia.
From Verif.Base Require Import Res GoNum F32 Num.
From Verif.Model Require Import Contour.
From Verif.Spec Require Import ContourSpec.
From Verif.Proofs Require Import SimplifyProofs SimplifyMain SimplifyEnd.
Import ListNotations.
Open Scope Z_scope.

(** The result consists of raw points [ks] in cyclic order; every change of region or area is
    kept, and nothing but changes and points of walls and edges between areas. The points [ks1]
    before splitting leave no raw point of such an edge farther away than the error allowed;
    splitting only adds points, and leaves no edge of a chosen kind too long. *)
Theorem C68_simplify : forall points maxError maxEdgeLen buildFlags, two_places points ->
  exists ks1 ks out, simplifyContour points maxError maxEdgeLen buildFlags = Ok out /\
    Forall2 (out_vertex points) ks out /\ cyclic (count points) ks /\ (2 <= length ks)%nat /\
    keeps_changes points ks /\ portals_whole points ks /\
    cyclic (count points) ks1 /\ keeps_changes points ks1 /\ close points maxError ks1 /\ incl ks1 ks /\
    (~ splits maxEdgeLen buildFlags -> ks = ks1) /\
    (splits maxEdgeLen buildFlags -> short_enough points maxEdgeLen buildFlags ks).
Proof.
  intros points e mel bf T. destruct (simpl_exists points e mel bf T) as (ks0 & ks1 & ks & out & E & F & S).
  pose proof (s_pos _ _ _ _ _ _ _ S) as Hn. exists ks1, ks, out. split; [exact E|]. split; [exact F|].
  split; [apply cyc_spec; [exact Hn|exact (sc _ _ _ _ _ _ _ S)]|]. split; [exact (sl _ _ _ _ _ _ _ S)|].
  split; [exact (s_changes _ _ _ _ _ _ _ S)|]. split; [exact (s_portals _ _ _ _ _ _ _ S)|].
  split; [apply cyc_spec; [exact Hn|exact (sc1 _ _ _ _ _ _ _ S)]|].
  split.
  { intros (j & J & NW) k K C. apply (s_incl1 _ _ _ _ _ _ _ S). destruct (sk _ _ _ _ _ _ _ S) as [W|W]; auto. destruct (NW (W j J)). }
  split; [exact (s_close _ _ _ _ _ _ _ S)|]. split; [exact (s_incl2 _ _ _ _ _ _ _ S)|]. split.
  - intro N. pose proof (sh _ _ _ _ _ _ _ S) as H. destruct (splitting mel bf) eqn:SP; [apply splitting_spec in SP; contradiction|exact H].
  - intro N. apply (s_short _ _ _ _ _ _ _ S). apply splitting_spec. exact N.
Qed.

(** A border between regions of different areas gets the same vertices from both sides. *)
Theorem C68_opposite : forall p q k l len maxError maxEdgeLen buildFlags,
  area_border p k len -> area_border q l len -> opposite p q k l len ->
  exists ks out js out',
    simplifyContour p maxError maxEdgeLen buildFlags = Ok out /\ Forall2 (out_vertex p) ks out /\ cyclic (count p) ks /\
    simplifyContour q maxError maxEdgeLen buildFlags = Ok out' /\ Forall2 (out_vertex q) js out' /\ cyclic (count q) js /\
    forall t, 0 <= t <= len -> (In ((k + t) mod count p) ks <-> In ((l + (len - t)) mod count q) js).
Proof.
  assert (TP : forall p k len, area_border p k len -> two_places p).
  { intros p k len (R & L & _ & _ & _ & _ & D). assert (N : forall i, 0 <= i < count p -> In (raw p i) p) by (intros i I; apply nth_In; unfold count in I; lia).
    exists (raw p ((k + 0) mod count p)), (raw p ((k + len) mod count p)). split; [apply N, Z.mod_pos_bound; lia|]. split; [apply N, Z.mod_pos_bound; lia|]. apply D; lia. }
  assert (KC : forall p k len ks0 ks1 ks e mel bf, area_border p k len -> simpl p e mel bf ks0 ks1 ks -> In k ks /\ In ((k + len) mod count p) ks).
  { intros p k len ks0 ks1 ks e mel bf (R & L & C0 & C1 & _ & D & _) S. assert (X : exists j, 0 <= j < count p /\ behind (raw p j) <> 0).
    { exists ((k + len) mod count p). split; [apply Z.mod_pos_bound; lia|]. apply (D len). lia. }
    split; apply (s_changes _ _ _ _ _ _ _ S X); auto. apply Z.mod_pos_bound; lia. }
  intros p q k l len e mel bf AP AQ O.
  destruct (simpl_exists p e mel bf (TP _ _ _ AP)) as (k0 & k1 & ks & out & E & F & S).
  destruct (simpl_exists q e mel bf (TP _ _ _ AQ)) as (j0 & j1 & js & out' & E' & F' & S').
  exists ks, out, js, out'. split; [exact E|]. split; [exact F|].
  split; [apply cyc_spec; [exact (s_pos _ _ _ _ _ _ _ S)|exact (sc _ _ _ _ _ _ _ S)]|]. split; [exact E'|]. split; [exact F'|].
  split; [apply cyc_spec; [exact (s_pos _ _ _ _ _ _ _ S')|exact (sc _ _ _ _ _ _ _ S')]|].
  destruct (KC _ _ _ _ _ _ _ _ _ AP S) as [A1 A2]. destruct (KC _ _ _ _ _ _ _ _ _ AQ S') as [B1 B2].
  assert (RK : 0 <= k < count p) by apply AP. assert (RL : 0 <= l < count q) by apply AQ.
  intros t T. destruct (Z.eq_dec t 0) as [->|N0]; [|destruct (Z.eq_dec t len) as [->|N1]].
  - rewrite Z.add_0_r, Z.sub_0_r, (Z.mod_small k) by auto. tauto.
  - rewrite Z.sub_diag, Z.add_0_r, (Z.mod_small l) by auto. tauto.
  - exact (mirror_kept p q k l len e mel bf k0 k1 ks j0 j1 js AP AQ O S S' t ltac:(lia)).
Qed.

(** Two regions of different areas with a jagged border. *)
Definition vr (x z r : Z) : Vert := mkVert x 7 z r.
Definition rawA : list Vert :=
  [vr 0 0 0; vr 0 1 0; vr 0 2 0; vr 0 3 0; vr 0 4 0; vr 1 4 0; vr 2 4 0; vr 2 3 131074; vr 3 3 131074; vr 3 2 131074; vr 3 1 131074; vr 2 1 131074; vr 2 0 131074; vr 1 0 0].
Definition rawB : list Vert :=
  [vr 2 0 0; vr 2 1 131073; vr 3 1 131073; vr 3 2 131073; vr 3 3 131073; vr 2 3 131073; vr 2 4 131073; vr 3 4 0; vr 4 4 0; vr 5 4 0; vr 5 3 0; vr 5 2 0; vr 5 1 0;
   vr 5 0 0; vr 4 0 0; vr 3 0 0].
Example C68_two_places : two_places rawA.
Proof. exists (vr 0 0 0), (vr 0 1 0). cbn. intuition discriminate. Qed.
Example C68_borders : area_border rawA 6 6 /\ area_border rawB 0 6 /\ opposite rawA rawB 6 0 6.
Proof.
  assert (R : forall P : Z -> Prop, P 0 -> P 1 -> P 2 -> P 3 -> P 4 -> P 5 -> P 6 -> forall t, 0 <= t <= 6 -> P t).
  { intros P. intros. assert (t = 0 \/ t = 1 \/ t = 2 \/ t = 3 \/ t = 4 \/ t = 5 \/ t = 6) as C by lia. intuition subst; auto. }
  assert (R5 : forall P : Z -> Prop, P 1 -> P 2 -> P 3 -> P 4 -> P 5 -> forall t, 0 < t < 6 -> P t).
  { intros P. intros. assert (t = 1 \/ t = 2 \/ t = 3 \/ t = 4 \/ t = 5) as C by lia. intuition subst; auto. }
  assert (R6 : forall P : Z -> Prop, P 1 -> P 2 -> P 3 -> P 4 -> P 5 -> P 6 -> forall t, 0 < t <= 6 -> P t).
  { intros P. intros. assert (t = 1 \/ t = 2 \/ t = 3 \/ t = 4 \/ t = 5 \/ t = 6) as C by lia. intuition subst; auto. }
  assert (D : forall f : Z -> Z * Z, NoDup (map f [0; 1; 2; 3; 4; 5; 6]) -> forall t u, 0 <= t < u -> u <= 6 -> f t <> f u).
  { intros f N t u T U E. assert (G : forall i, 0 <= i <= 6 -> nth_error (map f [0; 1; 2; 3; 4; 5; 6]) (Z.to_nat i) = Some (f i)) by (apply R; reflexivity).
    apply (proj1 (NoDup_nth_error _)) with (j := Z.to_nat u) (i := Z.to_nat t) in N; [lia| |rewrite !G by lia; congruence]. cbn. lia. }
  unfold area_border. cbv zeta. repeat split; try (cbn; lia).
  - left. discriminate.
  - left. discriminate.
  - apply R5; cbn; intros [K|K]; apply K; reflexivity.
  - revert t H. apply R6; discriminate.
  - revert t H. apply R6; reflexivity.
  - apply (D (fun t => place (raw rawA ((6 + t) mod count rawA)))). cbn. repeat constructor; cbn; intuition discriminate.
  - left. discriminate.
  - left. discriminate.
  - apply R5; cbn; intros [K|K]; apply K; reflexivity.
  - revert t H. apply R6; discriminate.
  - revert t H. apply R6; reflexivity.
  - apply (D (fun t => place (raw rawB ((0 + t) mod count rawB)))). cbn. repeat constructor; cbn; intuition discriminate.
  - unfold opposite. apply R; reflexivity.
Qed.
Example C68_example : exists out out', simplifyContour rawA (f_ratio 1 2) 0 0 = Ok out /\ simplifyContour rawB (f_ratio 1 2) 0 0 = Ok out' /\
  map place out = [(2, 4); (2, 3); (3, 3); (3, 1); (2, 1); (2, 0); (0, 0); (0, 4)] /\
  map place out' = [(2, 0); (2, 1); (3, 1); (3, 3); (2, 3); (2, 4); (5, 4); (5, 0)].
Proof. do 2 eexists. split; [vm_compute; reflexivity|]. split; [vm_compute; reflexivity|]. split; reflexivity. Qed.
Example C68_example_split : exists out, simplifyContour rawA (f_of_Z 2) 2 3 = Ok out /\
  map place out = [(2, 4); (2, 3); (3, 2); (2, 1); (2, 0); (0, 0); (0, 2); (0, 4)].
Proof. eexists. split; [vm_compute; reflexivity|reflexivity]. Qed.

Print Assumptions C68_simplify.
Print Assumptions C68_opposite.
