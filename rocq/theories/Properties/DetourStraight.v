(** FindStraightPath and ClosestPointOnPolyBoundary (C29, C65, C66). *)
From Coq Require Import ZArith List Bool Lia.
From Verif.Base Require Import Res GoNum F32 Num Grid.
From Verif.Model Require Import Status Poly PolyRef MeshTypes Serial Geom MeshLinks MeshTiles FindPath Raycast StraightPath.
From Verif.Spec Require Import LinkSpec PathSpec RaySpec StraightSpec.
From Verif.Proofs Require Import LinkProofs SearchStep SearchInv FloatMag FindPathEnd RayProofs StraightProofs StraightEnd NearProofs.
From Verif.Properties Require Import ExampleMesh DetourRay.
Import ListNotations.
Open Scope Z_scope.

(** ** C29 The caller's buffers *)

(** Every call that returns: the buffers keep their lengths, only the first [c] entries may have
    changed and [c] is at most the length of the buffer of points. [c] points are stored, with a flag
    and a reference each (in buffers that are not empty). The arguments are rejected with count 0
    and untouched buffers exactly if a buffer is empty or an end of the corridor is invalid;
    otherwise BufferTooSmall is reported exactly if the buffer is full. For any mesh, corridor,
    positions (including NaN), options and approximate equality. *)
Theorem C29_buffers : forall approx m fuel startPos endPos path pts flags refs options c st b,
  FindStraightPath approx m fuel startPos endPos path pts flags refs options = Ok (c, st, b) ->
  length (bPts b) = length pts /\ length (bFlags b) = length flags /\ length (bRefs b) = length refs /\
  0 <= c <= zlen pts /\
  skipn (Z.to_nat c) (bPts b) = skipn (Z.to_nat c) pts /\ skipn (Z.to_nat c) (bFlags b) = skipn (Z.to_nat c) flags /\
  skipn (Z.to_nat c) (bRefs b) = skipn (Z.to_nat c) refs /\
  (flags = [] \/ c <= zlen flags) /\ (refs = [] \/ c <= zlen refs) /\
  ((pts = [] \/ path = [] \/ (exists r, get path 0 = Ok r /\ IsValidPolyRef m r = Ok false) \/
    (exists r, get path (zlen path - 1) = Ok r /\ IsValidPolyRef m r = Ok false)) /\
     c = 0 /\ st = Z.lor Failure InvalidParam /\ bPts b = pts /\ bFlags b = flags /\ bRefs b = refs
   \/
   (exists l, holds pts flags refs l b /\ c = zlen l) /\ 0 < c /\
     (st = Success \/ st = Z.lor Success PartialResult) /\ c < zlen pts
   \/
   (exists l, holds pts flags refs l b /\ c = zlen l) /\ 0 < c /\
     (st = Z.lor Success BufferTooSmall \/ st = Z.lor (Z.lor Success PartialResult) BufferTooSmall) /\ c = zlen pts).
Proof.
  intros approx m fuel startPos endPos path pts flags refs options c st b H. apply straight_bounds in H. destruct H as [(R & -> & -> & ->)|(_ & l & HH & -> & P & C)].
  { cbn [bPts bFlags bRefs]. repeat (split; [reflexivity|]). split; [unfold zlen; lia|]. repeat (split; [reflexivity|]). split; [right; unfold zlen; lia|]. split; [right; unfold zlen; lia|].
    left. split; [exact R|auto 6]. }
  pose proof HH as ((A1 & A2) & HF & HR & HC).
  assert (S : forall {A} (s0 l0 s : list A) (k : nat), starts_with s0 l0 s -> length l0 = k -> length s = length s0 /\ skipn k s = skipn k s0 /\ Z.of_nat k <= zlen s0).
  { intros A s0 l0 s k [E1 E2] E3. split; [exact E1|]. rewrite E2 in E1. rewrite app_length, skipn_length in E1. unfold zlen. split; [|lia].
    rewrite E2, skipn_app. rewrite skipn_all2 by lia. rewrite E3, Nat.sub_diag. reflexivity. }
  assert (T : forall s0 l0 s (k : nat), starts_opt s0 l0 s -> length l0 = k -> length s = length s0 /\ skipn k s = skipn k s0 /\ (s0 = [] \/ Z.of_nat k <= zlen s0)).
  { intros s0 l0 s k [[-> ->]|HS] E3; [auto|]. destruct (S _ _ _ _ _ HS E3) as (X & Y & W). auto. }
  unfold zlen in *. rewrite Nat2Z.id.
  destruct (S _ _ _ _ (length l) (conj A1 A2) (map_length _ _)) as (_ & X2 & X3).
  destruct (T _ _ _ (length l) HF (map_length _ _)) as (Y1 & Y2 & Y3). destruct (T _ _ _ (length l) HR (map_length _ _)) as (Z1 & Z2 & Z3).
  repeat (split; [assumption|]). split; [unfold zlen in X3; lia|]. repeat (split; [assumption|]).
  right. destruct C as [[C1 C2]|[C1 C2]]; [left|right]; (split; [exists l; auto|]); auto.
Qed.

(** A call on an accepted corridor reports BufferTooSmall exactly if the buffer is full. *)
Theorem C29_full : forall approx m fuel startPos endPos path pts flags refs options c st b,
  FindStraightPath approx m fuel startPos endPos path pts flags refs options = Ok (c, st, b) -> c <> 0 ->
  (Z.land st BufferTooSmall <> 0 <-> c = zlen pts).
Proof.
  intros approx m fuel startPos endPos path pts flags refs options c st b H N. apply C29_buffers in H. destruct H as (_ & _ & _ & _ & _ & _ & _ & _ & _ & C).
  destruct C as [(_ & X & _)|[(_ & _ & [-> | ->] & L)|(_ & _ & [-> | ->] & L)]]; [contradiction| | | |]; split; intros Y; try lia; try exact L; try (exfalso; apply Y; reflexivity); vm_compute; discriminate.
Qed.

(** ** C66 The nearest point of a polygon *)
Theorem C66_nearest : forall m ref pos closest st c, modest_mesh m -> modest_pos pos ->
  ClosestPointOnPolyBoundary m ref pos closest = Ok (st, c) ->
  (st = Success /\ nearest m ref pos c) \/ (st = Z.lor Failure InvalidParam /\ c = closest /\ IsValidPolyRef m ref = Ok false).
Proof.
  intros m ref pos closest st c HM HP H. pose proof (boundary_invalid _ _ _ _ _ _ H) as BI. destruct (StatusFailed st) eqn:E.
  - right. apply proj1 in BI. specialize (BI eq_refl). unfold ClosestPointOnPolyBoundary in H. apply bind_ok in H as (o & Eo & H). destruct o as [[t p]|].
    + exfalso. apply lookup_spec in Eo. destruct Eo as [Eo _]. congruence.
    + apply Ok_inj in H. injection H as <- <-. auto.
  - left. pose proof (boundary_success _ _ _ _ _ _ H E) as ->. split; [reflexivity|]. eapply boundary_near; eassumption.
Qed.
(** Squared distances have an exact order: the nearest point is the nearest among all edges in
    float32, and two results for the same arguments are the same point or equally far. *)
Theorem C66_tie : forall m ref pos c c' t p vs, modest_mesh m -> modest_pos pos -> polygon_at m ref t p -> corners t p vs ->
  nearest m ref pos c -> nearest m ref pos c' ->
  (c = pos /\ c' = pos) \/
  exists va vb ua ub j k, polygon_edge vs j va vb /\ polygon_edge vs k ua ub /\ c = vlerp numF va vb (seg_par pos va vb) /\ c' = vlerp numF ua ub (seg_par pos ua ub) /\
    fle (seg_dist pos va vb) (seg_dist pos ua ub) = true /\ fle (seg_dist pos ua ub) (seg_dist pos va vb) = true.
Proof.
  intros m ref pos c c' t p vs HM HP PA CO (t1 & p1 & vs1 & [_ V1] & C1 & H1) (t2 & p2 & vs2 & [_ V2] & C2 & H2).
  destruct (polygon_at_det _ _ _ _ _ _ PA V1) as [<- <-]. destruct (polygon_at_det _ _ _ _ _ _ PA V2) as [<- <-].
  assert (vs1 = vs) as -> by (eapply corners_det; eassumption). assert (vs2 = vs) as -> by (eapply corners_det; eassumption).
  destruct (fst (distancePtPolyEdgesSqr numF pos vs)); [left; auto|right].
  destruct H1 as (j & va & vb & E1 & -> & M1). destruct H2 as (k & ua & ub & E2 & -> & M2). exists va, vb, ua, ub, j, k.
  repeat (split; [first [assumption|reflexivity]|]). split; [eapply M1; exact E2|eapply M2; exact E1].
Qed.

(** ** C65 The points of a straight path *)

(** The straight path starts at the point of the first polygon nearest to the start position, then
    has points on the portals of the corridor in their order, and ends in one of three ways: at the
    point of the last polygon nearest to the end position; when the buffer is full; or, if two
    neighbours in the corridor have no portal, at the nearest point of the polygon before the break,
    with PartialResult. Points approximately equal to the one before are merged into it. *)
Theorem C65_points : forall approx m fuel startPos endPos path pts flags refs options first final c st b,
  (forall v, finite_pos v -> approx v v = true) -> modest_mesh m -> modest_pos startPos -> modest_pos endPos -> pts <> [] ->
  get path 0 = Ok first -> get path (zlen path - 1) = Ok final -> IsValidPolyRef m first = Ok true -> IsValidPolyRef m final = Ok true ->
  FindStraightPath approx m fuel startPos endPos path pts flags refs options = Ok (c, st, b) ->
  exists cs ce l, nearest m first startPos cs /\ nearest m final endPos ce /\
    outcome approx m path (zlen pts) endPos (cs, StraightPathStart, first) (ce, StraightPathEnd, 0) l st /\
    holds pts flags refs l b /\ c = zlen l.
Proof.
  intros approx m fuel sp ep path pts flags refs options first final c st b HA HM Hs He NP G0 Gn V0 Vn H.
  assert (NN : path <> []) by (intros ->; discriminate).
  pose proof H as H0. unfold FindStraightPath in H. cbv zeta in H. destruct (Z.eqb_spec (zlen pts) 0) as [X|_]; [destruct pts; [congruence|discriminate]|].
  destruct (Z.eqb_spec (zlen path) 0) as [X|_]; [destruct path; [congruence|discriminate]|]. rewrite G0 in H. cbn [bind] in H.
  apply bind_ok in H as ([st1 cs] & E1 & H). rewrite Gn in H. destruct (StatusFailed st1) eqn:F1.
  { pose proof (proj1 (boundary_invalid _ _ _ _ _ _ E1) F1). congruence. }
  cbn [bind] in H. apply bind_ok in H as ([st2 ce] & E2 & _). destruct (StatusFailed st2) eqn:F2.
  { pose proof (proj1 (boundary_invalid _ _ _ _ _ _ E2) F2). congruence. }
  pose proof (boundary_success _ _ _ _ _ _ E1 F1) as ->. pose proof (boundary_success _ _ _ _ _ _ E2 F2) as ->.
  destruct (boundary_near m HM _ _ _ _ Hs E1) as [N1 M1]. destruct (boundary_near m HM _ _ _ _ He E2) as [N2 M2].
  pose proof (straight_points approx HA m (modest_small _ HM) pts flags refs path options ep cs ce first M1 M2 G0) as S.
  assert (V1 : exists t p, valid_at m first t p) by (destruct N1 as (t & p & _ & Y & _); exists t, p; exact Y).
  specialize (S V1 fuel sp Success final Gn E1 E2 eq_refl NP NN). rewrite H0 in S. destruct S as (-> & ws & S). exists cs, ce. unfold has, start_pt, end_pt in S.
  assert (K : forall (l : list point) x y, zlen l <= zlen pts -> st = (if zlen pts <=? zlen l then x else y) -> st = (if zlen pts =? zlen l then x else y)).
  { intros l x y L ->. destruct (Z.leb_spec (zlen pts) (zlen l)), (Z.eqb_spec (zlen pts) (zlen l)); try reflexivity; lia. }
  destruct S as [(A & HH & L & ->)|[(A & HH & L & E)|(i & from & to & w & I0 & Gi & Gj & NPo & EC & A & HH & L & E)]]; eexists; (split; [exact N1|]); (split; [exact N2|]); (split; [|split; [exact HH|apply HH]]).
  - apply fills; assumption.
  - rewrite (K _ _ _ L E). apply reaches. exact A.
  - rewrite (K _ _ _ L E). apply (breaks approx m path _ ep _ _ ws i from to w I0 Gi Gj NPo); [|exact A]. eapply boundary_near; eassumption.
Qed.

(** The call ends: with lists of links that end, (n+2)^2 iterations suffice. *)
Theorem C65_ends : forall approx m fuel startPos endPos path pts flags refs options,
  (forall v, finite_pos v -> approx v v = true) -> modest_mesh m -> lists_end m -> modest_pos startPos -> modest_pos endPos ->
  (zlen path + 2) * (zlen path + 2) <= Z.of_nat fuel ->
  FindStraightPath approx m fuel startPos endPos path pts flags refs options <> NoFuel.
Proof.
  intros approx m fuel sp ep path pts flags refs options HA HM HL Hs He HF H. pose proof H as H0.
  unfold FindStraightPath in H. cbv zeta in H. destruct (Z.eqb_spec (zlen pts) 0) as [X|NP]; [discriminate|]. destruct (Z.eqb_spec (zlen path) 0) as [X|NN]; [discriminate|].
  destruct (get path 0) as [first| | |] eqn:G0; try discriminate. 2:{ exact (get_no_fuel _ _ G0). } cbn [bind] in H.
  destruct (ClosestPointOnPolyBoundary m first sp (f0, f0, f0)) as [[st1 cs]| | |] eqn:E1; cbn [bind] in H; try discriminate; [|exact (boundary_no_fuel _ _ _ _ E1)].
  destruct (StatusFailed st1) eqn:F1; [discriminate|].
  destruct (get path (zlen path - 1)) as [final| | |] eqn:Gn; try discriminate. 2:{ exact (get_no_fuel _ _ Gn). } cbn [bind] in H.
  destruct (ClosestPointOnPolyBoundary m final ep (f0, f0, f0)) as [[st2 ce]| | |] eqn:E2; cbn [bind] in H; try discriminate; [|exact (boundary_no_fuel _ _ _ _ E2)].
  destruct (StatusFailed st2) eqn:F2; [discriminate|]. clear H.
  pose proof (boundary_success _ _ _ _ _ _ E1 F1) as ->. pose proof (boundary_success _ _ _ _ _ _ E2 F2) as ->.
  destruct (boundary_near m HM _ _ _ _ Hs E1) as [N1 M1]. destruct (boundary_near m HM _ _ _ _ He E2) as [N2 M2].
  pose proof (straight_points approx HA m (modest_small _ HM) pts flags refs path options ep cs ce first M1 M2 G0) as S.
  assert (V1 : exists t p, valid_at m first t p) by (destruct N1 as (t & p & _ & Y & _); exists t, p; exact Y).
  assert (P1 : pts <> []) by (intros ->; apply NP; reflexivity). assert (P2 : path <> []) by (intros ->; apply NN; reflexivity).
  specialize (S V1 fuel sp Success final Gn E1 E2 eq_refl P1 P2). rewrite H0 in S. specialize (S HL). lia.
Qed.

(** *** Examples *)
Definition feq (a b : f32) : bool := fle a b && fle b a.
Definition same_pos (a b : fvec) : bool := feq (fst (fst a)) (fst (fst b)) && feq (snd (fst a)) (snd (fst b)) && feq (snd a) (snd b).
Lemma feq_refl : forall a, finite32 a -> feq a a = true.
Proof. intros a H. unfold feq. rewrite (fle_refl a); [reflexivity|]. intros ->. exact (proj2 H). Qed.
Lemma same_pos_refl : forall v, finite_pos v -> same_pos v v = true.
Proof. intros v (A & B & C). unfold same_pos. rewrite !feq_refl by assumption. reflexivity. Qed.
Lemma ray_modest : modest_mesh ray_m.
Proof.
  intros i t h Ht _. apply nth_error_In in Ht. cbn in Ht. repeat (destruct Ht as [<-|Ht]; [split; [repeat constructor|]; cbn [tD tdLinks]; repeat (apply Forall_cons; [split; split; cbn; lia|]); apply Forall_nil|]). destruct Ht.
Qed.
Lemma pt_modest : forall x z, In x [1; 3; 7] -> In z [1; 2; 3] -> modest_pos (pt x z).
Proof. intros x z [<-|[<-|[<-|[]]]] [<-|[<-|[<-|[]]]]; repeat split. Qed.
Definition buf (n : nat) : list fvec := repeat (f0, f0, f0) n.

(** Crossings of all portals of a corridor of three polygons; a break after the third polygon. *)
Example C65_example :
  (forall v, finite_pos v -> same_pos v v = true) /\ modest_mesh ray_m /\ lists_end ray_m /\ modest_pos (pt 1 3) /\ modest_pos (pt 7 2) /\
  IsValidPolyRef ray_m 17 = Ok true /\ IsValidPolyRef ray_m 21 = Ok true /\ IsValidPolyRef ray_m 20 = Ok true /\
  (exists pts, FindStraightPath same_pos ray_m 25 (pt 1 3) (pt 7 2) [17; 16; 21] (buf 6) (repeat 9 6) (repeat 7 6) 2 =
     Ok (4, Success, mkBuf pts [1; 0; 0; 2; 9; 9] [17; 16; 21; 0; 7; 7] 4)) /\
  (exists pts, FindStraightPath same_pos ray_m 49 (pt 1 3) (pt 7 2) [17; 16; 21; 17; 20] (buf 4) (repeat 9 6) [] 2 =
     Ok (4, Z.lor (Z.lor Success PartialResult) BufferTooSmall, mkBuf pts [1; 0; 0; 0; 9; 9] [] 4)) /\
  (exists pts, FindStraightPath same_pos ray_m 25 (pt 1 3) (pt 7 2) [17; 16; 21] (buf 3) [] (repeat 7 6) 2 =
     Ok (3, Z.lor Success BufferTooSmall, mkBuf pts [] [17; 16; 21; 7; 7; 7] 3)).
Proof.
  split; [exact same_pos_refl|]. split; [exact ray_modest|]. split; [exact ray_lists|]. split; [apply pt_modest; cbn; auto|]. split; [apply pt_modest; cbn; auto|].
  repeat (split; [vm_compute; reflexivity|]). split; [|split]; eexists; vm_compute; reflexivity.
Qed.
(** The nearest point of polygon 17 to a position outside. *)
Example C66_example : modest_mesh ray_m /\ modest_pos (pt 7 3) /\
  ClosestPointOnPolyBoundary ray_m 17 (pt 7 3) (f0, f0, f0) = Ok (Success, pt 4 4) /\ ClosestPointOnPolyBoundary ray_m 99 (pt 7 3) (f0, f0, f0) = Ok (Z.lor Failure InvalidParam, (f0, f0, f0)).
Proof. split; [exact ray_modest|]. split; [apply pt_modest; cbn; auto|]. split; vm_compute; reflexivity. Qed.

(** A call need not return: where the corridor is broken, the status of appendPortals is ignored,
    and the point after it is written behind the end of a buffer that the crossings have filled. *)
Theorem C29_panic_refuted : exists m startPos endPos path pts,
  modest_mesh m /\ lists_end m /\ modest_pos startPos /\ modest_pos endPos /\ pts <> [] /\ (forall r, In r path -> IsValidPolyRef m r = Ok true) /\
  forall fuel, (64 <= fuel)%nat -> FindStraightPath same_pos m fuel startPos endPos path pts [] [] StraightPathAllCrossings = Panic.
Proof.
  exists ray_m, (pt 1 3), (pt 7 2), [17; 16; 21; 17; 20], (buf 2). split; [exact ray_modest|]. split; [exact ray_lists|]. split; [apply pt_modest; cbn; auto|]. split; [apply pt_modest; cbn; auto|].
  split; [discriminate|]. split; [cbn [In]; intros r H; repeat (destruct H as [<-|H]; [vm_compute; reflexivity|]); destruct H|].
  intros fuel H. do 64 (destruct fuel as [|fuel]; [lia|]). vm_compute. reflexivity.
Qed.

Print Assumptions C29_buffers.
Print Assumptions C29_full.
Print Assumptions C29_panic_refuted.
Print Assumptions C65_points.
Print Assumptions C65_ends.
Print Assumptions C66_nearest.
Print Assumptions C66_tie.
