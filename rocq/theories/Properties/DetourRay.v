(** Raycast (C30). *)
From Coq Require Import ZArith List Bool Lia.
From Verif.Base Require Import Res GoNum F32 Num Grid.
From Verif.Model Require Import Status Poly PolyRef MeshTypes Serial Geom MeshLinks MeshTiles FindPath Raycast.
From Verif.Spec Require Import LinkSpec PathSpec RaySpec.
From Verif.Proofs Require Import LinkProofs SearchStep SearchInv RayProofs.
From Verif.Properties Require Import ExampleMesh.
Import ListNotations.
Open Scope Z_scope.

(** ** C30 The polygons reported by Raycast *)

(** The hit structure after a call: the ray has a trace (the polygons it crosses, from startRef on,
    each left by the first link that can be taken). As many of them as MaxPath allows are written to
    the start of the path buffer, nothing else of it changes, and BufferTooSmall is reported exactly
    when some are missing. T is MaxFloat32 if the ray ends in a polygon; otherwise the largest of
    the old value and the exit parameters. The normal is that of the edge hit, or zero. *)
Theorem C30_raycast : forall fuel m flt startRef a b options hit prevRef hit' st, byte_counts m ->
  startRef <> 0 -> IsValidPolyRef m startRef = Ok true -> (prevRef = 0 \/ IsValidPolyRef m prevRef = Ok true) ->
  Raycast fuel m flt startRef a b options hit prevRef = Ok (hit', st) ->
  exists tr e, Trace m flt a b startRef tr e /\
    rCount hit' = Z.min (zlen tr) (Z.max 0 (rMaxPath hit)) /\
    rPath hit' = firstn (Z.to_nat (rCount hit')) (map fst tr) ++ skipn (Z.to_nat (rCount hit')) (rPath hit) /\
    rCount hit' <= zlen (rPath hit) /\
    st = (if zlen tr <=? Z.max 0 (rMaxPath hit) then Success else Z.lor Success BufferTooSmall) /\
    rT hit' = match e with Inside => maxFloat32 | _ => furthest (rT hit) (map (fun x => spMax (snd x)) tr) end /\
    rNormal hit' = match e with Wall v => v | _ => (f0, f0, f0) end /\
    rEdge hit' = last (map (fun x => spSegMax (snd x)) tr) (rEdge hit) /\
    rMaxPath hit' = rMaxPath hit /\
    (Z.land options 1 = 0 -> rCost hit' = rCost hit).
Proof.
  intros fuel m flt startRef a b options hit prevRef hit' st HB N0 HV HP H. unfold Raycast in H.
  destruct (Z.eqb_spec startRef 0); [contradiction|]. rewrite HV in H. cbn [bind negb] in H.
  apply bind_ok in H as (vp & Ep & H). destruct vp; cbn [negb] in H.
  2:{ exfalso. destruct HP as [->|HP]; [discriminate|]. destruct (Z.eqb_spec prevRef 0); [discriminate|]. congruence. }
  apply bind_ok in H as ([t p] & Et & H). apply TileAndPolyByRefUnsafe_ok in Et. apply bind_ok in H as (pt & _ & H).
  apply ray_loop_spec in H; [|exact HB|exact N0|exact Et|lia]. destruct H as (tr & e & HT & (R1 & R2 & R3 & R4 & R5 & R6 & R7 & R8) & RC).
  exists tr, e. cbv zeta in *. unfold room in *. cbn [hit_normal rMaxPath rPath rT rNormal rEdge rCost] in *. rewrite Z.sub_0_r in *. rewrite Z.add_0_l in *.
  assert (0 <= zlen tr) by (unfold zlen; lia).
  split; [exact HT|]. split; [exact R1|]. rewrite R1.
  split; [exact R2|]. split; [unfold zlen in *; lia|]. repeat (split; [assumption|]).
  intros O. apply RC. unfold use_costs. unfold RaycastUseCosts. rewrite O. reflexivity.
Qed.

(** The trace of a ray is unique. *)
Theorem C30_trace_unique : forall m flt a b r tr e tr' e', Trace m flt a b r tr e -> Trace m flt a b r tr' e' -> tr = tr' /\ e = e'.
Proof. intros. eapply Trace_det; eassumption. Qed.

(** The polygons of a trace are a corridor from the start: each is linked to the one before and
    passes the filter (the first one is not asked). *)
Theorem C30_corridor : forall m flt a b r tr e, lists_end m ->
  Trace m flt a b r tr e -> tr = [] \/ exists l, map fst tr = r :: l /\ corridor m flt r l.
Proof.
  intros m flt a b r tr e HI H. induction H as [r t p vs P C N|r t p vs sp P C X E|r t p vs sp u v P C X E S G|r t p vs sp l tr e P C X E F N H IH];
    [left; reflexivity|right; exists []; split; [reflexivity|exact I]|right; exists []; split; [reflexivity|exact I]|].
  right. destruct IH as [->|(l' & El & HC)]; [exists []; split; [reflexivity|exact I]|].
  exists (pay_ref l :: l'). split; [cbn [map fst]; rewrite El; reflexivity|]. cbn [corridor]. split; [|split; [|exact HC]].
  - split; [exact N|]. destruct F as (c & s & k & HS & _ & _). destruct (HI _ _ _ P) as [c' HC'].
    exists t, p, c'. split; [exact P|]. split; [exact HC'|].
    apply LSeg_app in HS. destruct HS as (j & HS1 & HS2). inversion HS2 as [|? l2 ? ? N2 G2 HS3]; subst. clear HS2 HS3.
    clear -HS1 N2 G2 HC'. revert c' HC'. unfold LChain. induction HS1 as [s|s l c e Ns Gs HS IH]; intros c' HC'.
    + inversion HC' as [|? l3 ? ? N3 G3 _]; subst; [contradiction|]. rewrite G2 in G3. injection G3 as <-. left. reflexivity.
    + inversion HC' as [|? l3 ? ? N3 G3 HC1]; subst; [|].
      * exfalso. apply Ns. reflexivity.
      * rewrite Gs in G3. injection G3 as <-. right. apply IH; assumption.
  - destruct F as (c & s & k & _ & HT & _). destruct l as [[[[r' ed] sd] bn] bx]. destruct HT as (_ & (t' & p' & P' & _ & Q') & _). exists t', p'. auto.
Qed.

(** What the call finds does not depend on the previous content of the hit structure, on the cost
    option or on prevRef: only on the mesh, the filter, the ray and MaxPath. *)
Theorem C30_independent : forall fuel1 fuel2 m flt startRef a b opt1 opt2 hit1 hit2 prev1 prev2 hit1' hit2' st1 st2, byte_counts m ->
  startRef <> 0 -> IsValidPolyRef m startRef = Ok true ->
  (prev1 = 0 \/ IsValidPolyRef m prev1 = Ok true) -> (prev2 = 0 \/ IsValidPolyRef m prev2 = Ok true) ->
  rMaxPath hit1 = rMaxPath hit2 ->
  Raycast fuel1 m flt startRef a b opt1 hit1 prev1 = Ok (hit1', st1) ->
  Raycast fuel2 m flt startRef a b opt2 hit2 prev2 = Ok (hit2', st2) ->
  st1 = st2 /\ rCount hit1' = rCount hit2' /\
  firstn (Z.to_nat (rCount hit1')) (rPath hit1') = firstn (Z.to_nat (rCount hit1')) (rPath hit2') /\
  rNormal hit1' = rNormal hit2' /\ (rCount hit1' <> 0 -> rEdge hit1' = rEdge hit2') /\
  (rT hit1 = rT hit2 -> rT hit1' = rT hit2').
Proof.
  intros fuel1 fuel2 m flt startRef a b opt1 opt2 hit1 hit2 prev1 prev2 hit1' hit2' st1 st2 HB N0 HV HP1 HP2 HM H1 H2.
  apply C30_raycast in H1; try assumption. apply C30_raycast in H2; try assumption.
  destruct H1 as (tr & e & HT & A1 & A2 & A3 & A4 & A5 & A6 & A7 & _). destruct H2 as (tr' & e' & HT' & B1 & B2 & B3 & B4 & B5 & B6 & B7 & _).
  destruct (Trace_det _ _ _ _ _ _ _ HT _ _ HT') as [<- <-]. rewrite <- HM in B1, B4.
  assert (rCount hit1' = rCount hit2') as EC by congruence.
  split; [congruence|]. split; [exact EC|]. split.
  - rewrite A2, B2, <- EC. assert (LE : (Z.to_nat (rCount hit1') <= length (map fst tr))%nat) by (rewrite map_length; unfold zlen in A1; lia).
    rewrite !firstn_app. rewrite !firstn_firstn, Nat.min_id. rewrite !firstn_length_le by assumption. rewrite Nat.sub_diag. reflexivity.
  - split; [congruence|]. split; [|intros ET; rewrite A5, B5, ET; reflexivity].
    intros NC. rewrite A7, B7. destruct tr as [|x tr]; [exfalso; apply NC; rewrite A1; unfold zlen; cbn [length]; lia|]. cbn [map].
    clear. generalize (spSegMax (snd x)). generalize (map (fun x => spSegMax (snd x)) tr). intros l. induction l as [|y l IH]; intros z; [reflexivity|]. exact (IH y).
Qed.

(** Raycast2 starts from zero. *)
Theorem C30_raycast2 : forall fuel m flt startRef a b path maxPath normal path' count t st, byte_counts m ->
  startRef <> 0 -> IsValidPolyRef m startRef = Ok true ->
  Raycast2 fuel m flt startRef a b path maxPath = Ok (normal, path', count, t, st) ->
  exists tr e, Trace m flt a b startRef tr e /\
    count = Z.min (zlen tr) (Z.max 0 maxPath) /\
    path' = firstn (Z.to_nat count) (map fst tr) ++ skipn (Z.to_nat count) path /\
    st = (if zlen tr <=? Z.max 0 maxPath then Success else Z.lor Success BufferTooSmall) /\
    t = match e with Inside => maxFloat32 | _ => furthest f0 (map (fun x => spMax (snd x)) tr) end /\
    normal = match e with Wall v => v | _ => (f0, f0, f0) end.
Proof.
  intros fuel m flt startRef a b path maxPath normal path' count t st HB N0 HV H. unfold Raycast2 in H.
  apply bind_ok in H as ([hit' st'] & E & H). apply Ok_inj in H. injection H as <- <- <- <- <-.
  apply C30_raycast in E; [|assumption|assumption|assumption|auto]. destruct E as (tr & e & A). exists tr, e. cbn [rMaxPath rPath rT] in A. tauto.
Qed.

(** Invalid references are rejected and nothing is written. *)
Theorem C30_invalid : forall fuel m flt startRef a b options hit prevRef,
  (startRef = 0 \/ IsValidPolyRef m startRef = Ok false \/
   (IsValidPolyRef m startRef = Ok true /\ prevRef <> 0 /\ IsValidPolyRef m prevRef = Ok false)) ->
  Raycast fuel m flt startRef a b options hit prevRef = Ok (hit, Z.lor Failure InvalidParam).
Proof.
  intros fuel m flt startRef a b options hit prevRef H. unfold Raycast.
  destruct (Z.eqb_spec startRef 0) as [->|N]; [reflexivity|]. destruct H as [H|[H|(H & N2 & H2)]]; [contradiction|rewrite H; reflexivity|].
  rewrite H. cbn [bind negb]. destruct (Z.eqb_spec prevRef 0); [contradiction|]. rewrite H2. reflexivity.
Qed.

(** *** Examples: two tiles of two triangles side by side, of the winding Detour uses *)
Definition ray_td (x0 x1 : Z) : TileData :=
  mkTD [x0; 0; 0; x1; 0; 0; x1; 0; one; x0; 0; one]
       [ex_tri [0; 2; 1] [2; 32768; 0]; ex_tri [0; 3; 2] [32772; 0; 1]] (repeat (mkLink 0 0 0 0 0 0) 4)
       [] [] [] [] [].
Definition ray_m1 : NavMesh := Eval vm_compute in fst (fst (ok_or (no_mesh, 0, 0) (AddTile ex_m0 (ex_bytes (ex_head 0 0 one) (ray_td 0 one)) 0))).
Definition ray_m : NavMesh := Eval vm_compute in fst (fst (ok_or (no_mesh, 0, 0) (AddTile ray_m1 (ex_bytes (ex_head 1 one two) (ray_td one two)) 0))).
Definition ray_all : QueryFilter := mkQF (fun _ _ _ => true) (fun _ _ _ _ _ => Ok f1).
Definition ray_hit (t : f32) : RaycastHit := mkHit t (f0, f0, f0) 7 [1; 2; 3; 4; 5] 9 3 f0.
Definition pt (x z : Z) : fvec := (f_ratio x 4, f0, f_ratio z 4).
Lemma ray_bytes : byte_counts ray_m.
Proof.
  intros r t p [A B]. apply get_ok in A. destruct A as [_ A]. apply nth_error_In in A. apply get_ok in B. destruct B as [_ B]. apply nth_error_In in B.
  cbn in A. repeat (destruct A as [<-|A]; [cbn in B; repeat (destruct B as [<-|B]; [cbn; lia|]); destruct B|]). destruct A.
Qed.

Lemma ray_lists : lists_end ray_m.
Proof.
  intros r t p [A B]. apply get_ok in A. destruct A as [_ A]. apply nth_error_In in A. apply get_ok in B. destruct B as [_ B]. apply nth_error_In in B.
  cbn in A. repeat (destruct A as [<-|A]; [cbn in B; repeat (destruct B as [<-|B];
    [eexists; unfold LChain; cbn [tD tdLinks pFirstLink]; repeat (eapply LSeg_cons; [discriminate|reflexivity|cbn [lNext]]); apply LSeg_nil|]); destruct B|]). destruct A.
Qed.

(** A ray that ends in the second tile, with room for three of four polygons; a ray that hits the
    left wall. *)
Example C30_example :
  IsValidPolyRef ray_m 17 = Ok true /\ byte_counts ray_m /\ lists_end ray_m /\
  Raycast 10 ray_m ray_all 17 (pt 1 3) (pt 7 2) 0 (ray_hit f0) 0 =
    Ok (mkHit maxFloat32 (f0, f0, f0) (-1) [17; 16; 21; 4; 5] 3 3 f0, Z.lor Success BufferTooSmall) /\
  Raycast 10 ray_m ray_all 16 (pt 3 1) (pt (-5) 1) 0 (ray_hit f0) 0 =
    Ok (mkHit (f_ratio 3 8) (f1, f0, fopp f0) 0 [16; 17; 3; 4; 5] 2 3 f0, Success).
Proof. split; [vm_compute; reflexivity|]. split; [exact ray_bytes|]. split; [exact ray_lists|]. split; vm_compute; reflexivity. Qed.

(** The previous content is not all forgotten: T and PathCost are not reset, so that after a ray
    that reached its end the same structure reports T = MaxFloat32 for a ray that hits a wall. *)
Theorem C30_stale_refuted : exists m flt startRef a b hit hit1 hit2 st,
  byte_counts m /\ IsValidPolyRef m startRef = Ok true /\
  Raycast 10 m flt startRef a b 1 hit 0 = Ok (hit1, st) /\ rT hit1 <> maxFloat32 /\ rNormal hit1 <> (f0, f0, f0) /\ rCost hit1 = f_of_Z 2 /\
  Raycast 10 m flt startRef a b 1 (hit_add_cost f1 (hit_T maxFloat32 hit)) 0 = Ok (hit2, st) /\ rT hit2 = maxFloat32 /\ rNormal hit2 = rNormal hit1 /\ rCost hit2 = f_of_Z 3.
Proof.
  exists ray_m, ray_all, 16, (pt 3 1), (pt (-5) 1), (ray_hit f0). eexists. eexists. eexists. split; [exact ray_bytes|]. split; [vm_compute; reflexivity|].
  split; [vm_compute; reflexivity|]. split; [vm_compute; discriminate|]. split; [vm_compute; discriminate|]. split; [vm_compute; reflexivity|].
  split; [vm_compute; reflexivity|]. split; [vm_compute; reflexivity|]. split; vm_compute; reflexivity.
Qed.

(** Raycast need not end: AddTile accepts a triangle that is its own neighbour, and a ray that
    leaves by that edge visits it again and again. *)
Definition loop_td : TileData :=
  mkTD [0; 0; 0; one; 0; 0; one; 0; one] [ex_tri [0; 2; 1] [1; 0; 0]] (repeat (mkLink 0 0 0 0 0 0) 1) [] [] [] [] [].
Definition loop_head : MeshHeader :=
  mkHeader navMeshMagic navMeshVersion 0 0 0 9 1 3 1 0 0 0 0 0 1 two 0 one (0, 0, 0) (one, one, one) one.
Definition loop_bytes : list Z := Eval vm_compute in
  ok_or [] (let* b := header_serialize (repeat 0 100) loop_head in let* r := serializeTileData (repeat 0 80) loop_td in Ok (b ++ r)).
Definition loop_m : NavMesh := Eval vm_compute in fst (fst (ok_or (no_mesh, 0, 0) (AddTile ex_m0 loop_bytes 0))).
Definition loop_ref : Z := Eval vm_compute in snd (ok_or (no_mesh, 0, 0) (AddTile ex_m0 loop_bytes 0)).
Lemma loop_add : AddTile ex_m0 loop_bytes 0 = Ok (loop_m, Success, loop_ref).
Proof. vm_compute. reflexivity. Qed.

Definition loop_tp : MeshTile * Poly := Eval vm_compute in
  match TileAndPolyByRefUnsafe loop_m loop_ref with Ok x => x | _ => (mkTile 0 0 None (mkTD [] [] [] [] [] [] [] []) [] 0 0 None, mkPoly 0 [] [] 0 0 0) end.
Lemma loop_runs : forall fuel hit n st prev nx, rMaxPath hit = 0 -> 0 <= n ->
  ray_loop fuel loop_m ray_all (pt 3 1) (pt 1 3) 0 hit n st loop_ref loop_tp prev nx (pt 3 1) = NoFuel.
Proof.
  induction fuel as [|f IH]; intros hit n st prev nx HM Hn; [reflexivity|]. cbn [ray_loop].
  change (loop_ref =? 0) with false. cbv iota.
  destruct loop_tp as [t p] eqn:Etp.
  assert (Ev : load_verts (tdVerts (tD t)) (pVerts p) (Z.to_nat (pVertCount p)) 0 = Ok [pt 0 0; pt 4 4; pt 4 0]).
  { injection Etp as <- <-. vm_compute. reflexivity. }
  rewrite Ev. cbn [bind].
  assert (Es : exists sp, IntersectSegmentPoly2D numF (pt 3 1) (pt 1 3) [pt 0 0; pt 4 4; pt 4 0] = (sp, true) /\ spSegMax sp = 0).
  { eexists. split; vm_compute; reflexivity. }
  destruct Es as (sp & -> & E0). cbn [negb]. rewrite !E0. cbv zeta.
  set (h1 := if fgt _ _ then _ else _).
  assert (H1 : rMaxPath h1 = 0) by (unfold h1; destruct (fgt _ _); exact HM). rewrite H1.
  destruct (Z.ltb_spec n 0); [lia|]. cbn [bind]. change (0 =? -1) with false. cbv iota.
  assert (El : ray_link (link_fuel (tdLinks (tD t))) loop_m ray_all (pt 3 1) (pt 1 3) sp t p (pFirstLink p) nx = Ok (loop_ref, loop_tp)).
  { injection Etp as <- <-. cbn [link_fuel tdLinks tD length ray_link]. cbn [pFirstLink]. change (0 =? nullLink) with false. cbv iota. cbn [get nth_error Z.ltb]. 
    unfold get. cbn [of_option bind lEdge nth_error]. cbn. rewrite E0. reflexivity. }
  rewrite El. cbn [bind]. change (use_costs 0) with false. cbn [bind]. change (loop_ref =? 0) with false. cbv iota.
  rewrite Etp. apply IH; [exact H1|exact Hn].
Qed.
Theorem C30_endless_refuted : exists m d r m' startRef a b hit,
  Init ex_params = Ok (m, Success) /\ AddTile m d 0 = Ok (m', Success, r) /\ IsValidPolyRef m' startRef = Ok true /\
  forall fuel, Raycast fuel m' ray_all startRef a b 0 hit 0 = NoFuel.
Proof.
  exists ex_m0, loop_bytes, loop_ref, loop_m, loop_ref, (pt 3 1), (pt 1 3), (mkHit f0 (f0, f0, f0) 0 [] 0 0 f0).
  split; [vm_compute; reflexivity|]. split; [exact loop_add|]. split; [vm_compute; reflexivity|]. intros fuel.
  unfold Raycast. change (loop_ref =? 0) with false. cbv iota. assert (E : IsValidPolyRef loop_m loop_ref = Ok true) by (vm_compute; reflexivity). rewrite E. cbn [bind negb].
  change (0 =? 0) with true. cbv iota. cbn [bind negb]. assert (E2 : TileAndPolyByRefUnsafe loop_m loop_ref = Ok loop_tp) by (vm_compute; reflexivity). rewrite E2. cbn [bind].
  apply loop_runs; [reflexivity|lia].
Qed.

Print Assumptions C30_raycast.
Print Assumptions C30_trace_unique.
Print Assumptions C30_corridor.
Print Assumptions C30_independent.
Print Assumptions C30_raycast2.
Print Assumptions C30_invalid.
Print Assumptions C30_stale_refuted.
Print Assumptions C30_endless_refuted.
