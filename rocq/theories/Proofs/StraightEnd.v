(** FindStraightPath on meshes with finite coordinates: the points of the path, and its end. *)
From Coq Require Import ZArith List Lia Bool.
From Coq Require Import Floats.SpecFloat.
From Verif.Base Require Import Res GoNum F32 Num Grid.
From Verif.Model Require Import Status Poly PolyRef MeshTypes Geom MeshLinks MeshTiles FindPath StraightPath.
From Verif.Spec Require Import LinkSpec PathSpec RaySpec StraightSpec.
From Verif.Proofs Require Import LinkProofs FloatAdd FloatMag SearchStep SearchInv FindPathEnd RayProofs StraightProofs.
Import ListNotations.
Open Scope Z_scope.

(** ** Sizes *)
Lemma fsub_self : forall a, fin a -> exists s, fsub a a = S754_zero s.
Proof.
  intros a H. destruct (fin_cases a H) as [(s & ->)|(s & mm & e & -> & B)].
  - unfold fsub. cbn [SFsub]. destruct s; cbn; eauto.
  - unfold fsub. cbn [SFsub]. rewrite !Z.min_id, Z.sub_diag. unfold cond_Zopp. destruct s; rewrite ?Z.sub_diag, ?Z.add_opp_diag_l; cbn [binary_normalize]; eauto.
Qed.
Lemma fmul_zero_l : forall s a, fin a -> exists s', fmul (S754_zero s) a = S754_zero s'.
Proof. intros s a H. destruct (fin_cases a H) as [(s' & ->)|(s' & mm & e & -> & B)]; unfold fmul; cbn; eauto. Qed.
Lemma fmul_zero_r : forall s a, fin a -> exists s', fmul a (S754_zero s) = S754_zero s'.
Proof. intros s a H. destruct (fin_cases a H) as [(s' & ->)|(s' & mm & e & -> & B)]; unfold fmul; cbn; eauto. Qed.
Lemma fsub_zeros : forall s t, exists s', fsub (S754_zero s) (S754_zero t) = S754_zero s'.
Proof. intros s t. unfold fsub. cbn. destruct (Bool.eqb s (negb t)); eauto. Qed.

(** A triangle with two equal corners has no area. *)
Lemma area_same : forall a c, vmag 259 a -> vmag 259 c -> exists s, TriArea2D numF a a c = S754_zero s.
Proof.
  intros [[ax ay] az] [[cx cy] cz] (A1 & A2 & A3) (C1 & C2 & C3). cbn [fst snd] in *. unfold TriArea2D, vx, vz. cbn [fst snd nsub nmul numF].
  destruct (fsub_self ax (mag_fin 259 _ ltac:(lia) A1)) as (s1 & ->). destruct (fsub_self az (mag_fin 259 _ ltac:(lia) A3)) as (s2 & ->).
  pose proof (mag_fin (259 + 1) _ ltac:(lia) (fsub_mag 259 cx ax ltac:(lia) C1 A1)) as F1. pose proof (mag_fin (259 + 1) _ ltac:(lia) (fsub_mag 259 cz az ltac:(lia) C3 A3)) as F2.
  destruct (fmul_zero_r s2 _ F1) as (s3 & ->). destruct (fmul_zero_l s1 _ F2) as (s4 & ->). apply fsub_zeros.
Qed.
Lemma area_le : forall a c, vmag 259 a -> vmag 259 c -> fle (TriArea2D numF a a c) f0 = true /\ fge (TriArea2D numF a a c) f0 = true.
Proof. intros a c A C. destruct (area_same a c A C) as (s & ->). split; destruct s; reflexivity. Qed.

Section Sizes.
Variable m : NavMesh.
Hypothesis HM : small_mesh m.

Lemma valid_header : forall r t p, valid_at m r t p -> exists k h, nth_error (mTiles m) k = Some t /\ tHeader t = Some h.
Proof using.
  intros r t p [E [H1 H2]]. unfold IsValidPolyRef in E. destruct (r =? 0); [discriminate|]. unfold DecodePolyID in E. destruct (_ <=? _); [discriminate|].
  rewrite H1 in E. cbn [bind] in E. destruct (tHeader t) as [h|] eqn:Eh; [|discriminate]. apply get_ok in H1. exists (Z.to_nat (decodePolyIDTile (mBits m) r)), h. tauto.
Qed.
Lemma vertex_mag : forall r t p i v, valid_at m r t p -> tile_vertex t i v -> vmag 249 v.
Proof using HM.
  intros r t p i v HV (x & y & z & Ex & Ey & Ez & ->). destruct (valid_header _ _ _ HV) as (k & h & Ht & Hh). destruct (HM _ _ _ Ht Hh) as [F _]. rewrite Forall_forall in F.
  apply get_ok in Ex, Ey, Ez. split; [|split]; cbn [fst snd]; apply small_mag, F; eapply nth_error_In; [apply Ex|apply Ey|apply Ez].
Qed.
Lemma link_bytes : forall r t p to edge side bmin bmax, valid_at m r t p -> first_to t p to (to, edge, side, bmin, bmax) -> is_u8 bmin /\ is_u8 bmax.
Proof using HM.
  intros r t p to edge side bmin bmax HV (c & s & k & HS & _ & _). destruct (valid_header _ _ _ HV) as (k0 & h & Ht & Hh). destruct (HM _ _ _ Ht Hh) as [_ F]. rewrite Forall_forall in F.
  apply LSeg_app in HS. destruct HS as (j & _ & HS). inversion HS as [|? l ? ? Hn Hg _ E1]; subst. apply get_ok in Hg. exact (F l (nth_error_In _ _ (proj2 Hg))).
Qed.
Lemma corner_mag : forall r t p j v, valid_at m r t p -> corner t p j v -> vmag 249 v.
Proof using HM. intros r t p j v HV (i & _ & H). eapply vertex_mag; eassumption. Qed.
Lemma portal_mag : forall a b l r ty, portal m a b l r ty -> vmag 259 l /\ vmag 259 r.
Proof using HM.
  intros a b l r ty H. destruct H as [t p t' p' edge side bmin bmax u v HA HB T1 T2 HL HS C1 C2|t p t' p' edge side bmin bmax u v HA HB T1 T2 HL HS HN C1 C2|t p t' p' edge side bmin bmax u HA HB T1 HL C|t p t' p' l0 edge side bmin bmax i u HA HB T1 T2 HL HL2 HG C].
  - split; (apply (vmag_le 249 259); [lia|]); (eapply corner_mag; [exact HA|eassumption]).
  - destruct (link_bytes _ _ _ _ _ _ _ _ HA HL) as [B1 B2]. split; apply vlerp_mag; try assumption; (eapply corner_mag; [exact HA|eassumption]).
  - split; (apply (vmag_le 249 259); [lia|]); (eapply corner_mag; [exact HA|eassumption]).
  - split; (apply (vmag_le 249 259); [lia|]); (eapply vertex_mag; [exact HB|exact C]).
Qed.
End Sizes.

(** ** No portal *)
Lemma find_link_none : forall L to fuel i, find_link fuel L to i = Ok None -> forall c s l k, LSeg L i (c ++ [(s, l)]) k -> pay_ref l = to -> Forall (fun x => pay_ref (snd x) <> to) c -> False.
Proof.
  intros L to. induction fuel as [|f IH]; intros i H c s l k HS E HF; cbn [find_link] in H.
  - destruct (Z.eqb_spec i nullLink) as [Ei|]; [|discriminate]. destruct c; inversion HS; congruence.
  - destruct (Z.eqb_spec i nullLink) as [Ei|Ni]; [destruct c; inversion HS; congruence|]. apply bind_ok in H as (l0 & El & H). destruct (Z.eqb_spec (lRef l0) to) as [E0|N0]; [discriminate|].
    destruct c as [|x c]; cbn [app] in HS.
    + inversion HS as [|? l1 ? ? Hn Hg _ E1 E2]; subst. rewrite El in Hg. apply Ok_inj in Hg. subst l1. apply N0. reflexivity.
    + inversion HS as [|? l1 ? ? Hn Hg HS' E1 E2]; subst. rewrite El in Hg. apply Ok_inj in Hg. subst l1. inversion HF; subst. eapply IH; eauto.
Qed.
Lemma portal_complete : forall m a b l r ty st l' r' ty', portal m a b l r ty -> portalPoints6 m a b = Ok (st, l', r', ty') -> StatusFailed st = false.
Proof.
  intros m a b l r ty st l' r' ty' H E.
  assert (X : exists t p t' p' w, valid_at m a t p /\ valid_at m b t' p' /\ first_to t p b w /\
     (Type_ p = polyTypeOffMeshConnection \/ Type_ p' <> polyTypeOffMeshConnection \/ exists w', first_to t' p' a w')).
  { destruct H; eauto 20. }
  destruct X as (t & p & t' & p' & w & HA & HB & (c & s & k & HS & ER & HF) & D). unfold portalPoints6 in E. rewrite (valid_lookup _ _ _ _ HA), (valid_lookup _ _ _ _ HB) in E. cbn [bind] in E.
  apply bind_ok in E as ([[st8 l8] r8] & E8 & E). apply Ok_inj in E. injection E as <- _ _ _. unfold portalPoints8 in E8. apply bind_ok in E8 as (o & Eo & E8).
  destruct o as [lk|]; [|exfalso; eapply find_link_none; eassumption].
  destruct (Z.eqb_spec (Type_ p) polyTypeOffMeshConnection) as [T1|T1].
  { apply bind_ok in E8 as (v & _ & E8). apply bind_ok in E8 as (w' & _ & E8). apply Ok_inj in E8. injection E8 as <- _ _. reflexivity. }
  destruct (Z.eqb_spec (Type_ p') polyTypeOffMeshConnection) as [T2|T2].
  { apply bind_ok in E8 as (o & Eb & E8). destruct o as [bk|].
    - apply bind_ok in E8 as (v & _ & E8). apply bind_ok in E8 as (w' & _ & E8). apply Ok_inj in E8. injection E8 as <- _ _. reflexivity.
    - destruct D as [D|[D|(w' & c' & s' & k' & HS' & ER' & HF')]]; try contradiction. exfalso. eapply find_link_none; eassumption. }
  apply bind_ok in E8 as (v0 & _ & E8). apply bind_ok in E8 as (e1 & _ & E8). apply bind_ok in E8 as (v1 & _ & E8). apply bind_ok in E8 as (u & _ & E8). apply bind_ok in E8 as (v & _ & E8).
  destruct (_ && _); apply Ok_inj in E8; injection E8 as <- _ _; reflexivity.
Qed.

(** ** Fuel *)
Section Fuel.
Variable approx : fvec -> fvec -> bool.
Variable m : NavMesh.
Hypothesis HL : lists_end m.

Lemma set_no_fuel : forall {T} (l : list T) i v, set l i v <> NoFuel.
Proof using. clear. intros T l i v. unfold set. destruct (_ && _); discriminate. Qed.
Lemma set_opt_no_fuel : forall l i v, set_opt l i v <> NoFuel.
Proof using. clear. intros. unfold set_opt. destruct (_ <? _); [apply set_no_fuel|discriminate]. Qed.
Lemma append_no_fuel : forall pos f r b, appendVertex approx pos f r b <> NoFuel.
Proof using.
  intros. unfold appendVertex. apply bind_no_fuel; [destruct (0 <? bCount b); [apply bind_no_fuel; [apply get_no_fuel|discriminate]|discriminate]|]. intros [|].
  - repeat (apply bind_no_fuel; [apply set_opt_no_fuel|intros ?]). discriminate.
  - apply bind_no_fuel; [apply set_no_fuel|]. intros ?. repeat (apply bind_no_fuel; [apply set_opt_no_fuel|intros ?]). destruct (_ <=? _); [discriminate|]. destruct (_ =? _); discriminate.
Qed.
Lemma lookup_no_fuel : forall r, lookup m r <> NoFuel.
Proof using.
  intros r. unfold lookup, TileAndPolyByRef. apply bind_no_fuel.
  - destruct (r =? 0); [discriminate|]. unfold DecodePolyID. destruct (_ <=? _); [discriminate|]. apply bind_no_fuel; [apply get_no_fuel|]. intros t. destruct (tHeader t); [|discriminate].
    destruct (negb _); [discriminate|]. destruct (_ <=? _); [discriminate|]. apply bind_no_fuel; [apply get_no_fuel|discriminate].
  - intros [st o]. destruct (StatusFailed st); [discriminate|]. destruct o as [[it p]|]; [|discriminate]. apply bind_no_fuel; [apply get_no_fuel|discriminate].
Qed.
Lemma find_no_fuel : forall r t p to, valid_at m r t p -> find_link (link_fuel (tdLinks (tD t))) (tdLinks (tD t)) to (pFirstLink p) <> NoFuel.
Proof using HL.
  intros r t p to [_ HP]. destruct (HL _ _ _ HP) as (c & HC). destruct (find_link_chain _ to _ _ HC (link_fuel (tdLinks (tD t)))) as (o & -> & _); [unfold link_fuel; pose proof (LChain_short _ _ _ HC); lia|discriminate].
Qed.
Lemma portal8_no_fuel : forall a t p b t' p' z1 z2, valid_at m a t p -> valid_at m b t' p' -> portalPoints8 a p t b p' t' z1 z2 <> NoFuel.
Proof using HL.
  intros a t p b t' p' z1 z2 HA HB. unfold portalPoints8. apply bind_no_fuel; [eapply find_no_fuel; eassumption|]. intros [lk|]; [|discriminate].
  destruct (_ =? _); [apply bind_no_fuel; [apply get_no_fuel|intros ?]; apply bind_no_fuel; [apply vert16_no_fuel|discriminate]|].
  destruct (_ =? _).
  - apply bind_no_fuel; [eapply find_no_fuel; eassumption|]. intros [bk|]; [|discriminate]. apply bind_no_fuel; [apply get_no_fuel|intros ?]; apply bind_no_fuel; [apply vert16_no_fuel|discriminate].
  - apply bind_no_fuel; [apply get_no_fuel|intros ?]. apply bind_no_fuel; [unfold next_edge; destruct (_ =? _); discriminate|intros ?]. apply bind_no_fuel; [apply get_no_fuel|intros ?].
    apply bind_no_fuel; [apply vert16_no_fuel|intros ?]. apply bind_no_fuel; [apply vert16_no_fuel|intros ?]. destruct (_ && _); discriminate.
Qed.
Lemma lookup_bind : forall {B} r (f : option (MeshTile * Poly) -> res B), f None <> NoFuel -> (forall t p, valid_at m r t p -> f (Some (t, p)) <> NoFuel) -> bind (lookup m r) f <> NoFuel.
Proof using.
  intros B r f H1 H2. pose proof (lookup_no_fuel r) as N. destruct (lookup m r) as [o| | |] eqn:E; cbn [bind]; try discriminate; [|congruence].
  apply lookup_spec in E. destruct o as [[t p]|]; [apply H2; exact E|exact H1].
Qed.
Lemma portal6_no_fuel : forall a b, portalPoints6 m a b <> NoFuel.
Proof using HL.
  intros a b. unfold portalPoints6. apply lookup_bind; [discriminate|]. intros t p HA. apply lookup_bind; [discriminate|]. intros t' p' HB.
  apply bind_no_fuel; [apply portal8_no_fuel; assumption|]. intros [[st l] r]. discriminate.
Qed.
Lemma load_no_fuel : forall vs ps n i, load_verts vs ps n i <> NoFuel.
Proof using. clear. intros vs ps. induction n as [|n IH]; intros i; cbn [load_verts]; [discriminate|]. apply bind_no_fuel; [apply get_no_fuel|intros ?]. apply bind_no_fuel; [|intros ?; apply bind_no_fuel; [apply IH|discriminate]]. apply vert16_no_fuel. Qed.
Lemma boundary_no_fuel : forall r pos z, ClosestPointOnPolyBoundary m r pos z <> NoFuel.
Proof using.
  intros r pos z. unfold ClosestPointOnPolyBoundary. apply lookup_bind; [discriminate|]. intros t p _. apply bind_no_fuel; [apply load_no_fuel|]. intros vs.
  destruct (distancePtPolyEdgesSqr numF pos vs) as [ins ds]. destruct ins; [discriminate|]. apply bind_no_fuel; [unfold nearest_edge; destruct ds as [|[d0 e0] ds]; discriminate|]. intros [im e].
  apply bind_no_fuel; [apply get_no_fuel|intros ?]. apply bind_no_fuel; [apply get_no_fuel|discriminate].
Qed.
Lemma portals_no_fuel : forall path options n i sp ep b, portals_loop approx m n i sp ep path options b <> NoFuel.
Proof using HL.
  intros path options. induction n as [|n IH]; intros i sp ep b; cbn [portals_loop]; [discriminate|]. apply bind_no_fuel; [apply get_no_fuel|intros from]. apply lookup_bind; [discriminate|]. intros t p HA.
  apply bind_no_fuel; [apply get_no_fuel|intros to]. apply lookup_bind; [discriminate|]. intros t' p' HB. apply bind_no_fuel; [apply portal8_no_fuel; assumption|]. intros [[st l] r].
  destruct (StatusFailed st); [discriminate|]. destruct (negb _ && _); [apply IH|]. destruct (IntersectSegSeg2D numF sp ep l r) as [[hit s] tt0]. destruct hit; [|apply IH].
  apply bind_no_fuel; [apply append_no_fuel|]. intros [b1 st1]. destruct (negb _); [discriminate|apply IH].
Qed.
Lemma maybe_no_fuel : forall i j ep path options b, maybePortals approx m i j ep path options b <> NoFuel.
Proof using HL. intros. unfold maybePortals, appendPortals. destruct (crossings options); [|discriminate]. apply bind_no_fuel; [apply get_no_fuel|intros ?; apply portals_no_fuel]. Qed.
Lemma restart_no_fuel : forall F v idx ref ty path options b, restart_at approx m F v idx ref ty path options b <> NoFuel.
Proof using HL.
  intros. unfold restart_at, restart. apply bind_no_fuel; [|intros [y|[F' b']]; discriminate]. apply bind_no_fuel; [apply maybe_no_fuel|]. intros [b1 st1]. destruct (negb _); [discriminate|].
  apply bind_no_fuel; [apply append_no_fuel|]. intros [b2 st2]. destruct (negb _); discriminate.
Qed.
Lemma next_no_fuel : forall path i, next_ref path i <> NoFuel.
Proof using. clear. intros. unfold next_ref. destruct (_ <? _); [apply get_no_fuel|discriminate]. Qed.
Lemma left_no_fuel : forall F l ty i path options b, left_step approx m F l ty i path options b <> NoFuel.
Proof using HL.
  intros. unfold left_step. destruct (fge _ _); [|discriminate]. destruct (_ || _); [apply bind_no_fuel; [apply next_no_fuel|discriminate]|apply restart_no_fuel].
Qed.
Lemma step_no_fuel : forall F l r ty i path options b, funnel_step approx m F l r ty i path options b <> NoFuel.
Proof using HL.
  intros. unfold funnel_step. destruct (fle _ _); [|apply left_no_fuel]. destruct (_ || _); [apply bind_no_fuel; [apply next_no_fuel|intros ?; apply left_no_fuel]|apply restart_no_fuel].
Qed.
Lemma clamp_no_fuel : forall F ep ce i path options b, clamp_end approx m F ep ce i path options b <> NoFuel.
Proof using HL.
  intros. unfold clamp_end. apply bind_no_fuel; [apply get_no_fuel|intros ?]. apply bind_no_fuel; [apply boundary_no_fuel|]. intros [st c]. destruct (StatusFailed st); [discriminate|].
  apply bind_no_fuel; [apply maybe_no_fuel|]. intros [b1 st1]. apply bind_no_fuel; [apply append_no_fuel|]. intros [b2 st2]. discriminate.
Qed.
End Fuel.

(** ** The funnel *)
Section Points.
Variable approx : fvec -> fvec -> bool.
Hypothesis HA : forall v, finite_pos v -> approx v v = true.
Variable m : NavMesh.
Hypothesis HM : small_mesh m.
Variables (P0 : list fvec) (F0 R0 : list Z).
Variables (path : list Z) (options : Z).
Variables (endPos cs ce : fvec) (first : Z).
Hypothesis Hcs : vmag 259 cs.
Hypothesis Hce : vmag 259 ce.
Hypothesis Hfirst : get path 0 = Ok first.
Hypothesis Vfirst : exists t p, valid_at m first t p.
Notation len := (zlen P0).
Notation n := (zlen path).
Notation holds := (holds P0 F0 R0).
Notation good := (good m path).
Notation adds := (add_points approx).
Notation addp := (add_point approx).
Notation along := (along m path).

Definition start_pt : point := (cs, StraightPathStart, first).
Definition end_pt : point := (ce, StraightPathEnd, 0).
(** The points [ws] after the start point, and the room left. *)
Definition has (ws : list point) (b : Buf) : Prop := holds (adds [] (start_pt :: ws)) b.
Notation cnt ws := (zlen (adds [] (start_pt :: ws))).

Lemma app_start : forall ws ws', adds [] (start_pt :: ws ++ ws') = adds (adds [] (start_pt :: ws)) ws'.
Proof using. intros. rewrite app_comm_cons. apply adds_app. Qed.
Lemma start_nonempty : forall ws, adds [] (start_pt :: ws) <> [].
Proof using. intros. change (start_pt :: ws) with ([start_pt] ++ ws). rewrite adds_app. apply adds_nonempty. discriminate. Qed.
Lemma approx_mag : forall v, vmag 259 v -> approx v v = true.
Proof using HA. intros v H. apply HA. apply fpos_finite. eapply vmag_fpos; [|exact H]. lia. Qed.

(** An end of the portal number [idx] (or the end of the path). *)
Definition side (idx : Z) (v : fvec) (ref ty : Z) : Prop :=
  (0 <= idx /\ idx + 1 < n /\ exists a l r, get path idx = Ok a /\ get path (idx + 1) = Ok ref /\ portal m a ref l r ty /\ (v = l \/ v = r)) \/
  (idx = n - 1 /\ v = ce /\ ref = 0).
Lemma side_mag : forall idx v ref ty, side idx v ref ty -> vmag 259 v.
Proof using HM Hce.
  intros idx v ref ty [(_ & _ & a & l & r & _ & _ & HP & E)|(_ & -> & _)]; [|exact Hce]. destruct (portal_mag m HM _ _ _ _ _ HP). destruct E as [-> | ->]; assumption.
Qed.

(** What the call returns. *)
Definition result (y : Ret) : Prop := let '(c, st, b) := y in c = bCount b /\ exists ws,
  (along 0 ws (n - 1) /\ has ws b /\ cnt ws = len /\ st = Z.lor Success BufferTooSmall) \/
  (along 0 ws (n - 1) /\ has (ws ++ [end_pt]) b /\ cnt (ws ++ [end_pt]) <= len /\ st = if len <=? cnt (ws ++ [end_pt]) then Z.lor Success BufferTooSmall else Success) \/
  (exists i from to w, 0 <= i /\ get path i = Ok from /\ get path (i + 1) = Ok to /\ (forall l r ty, ~ portal m from to l r ty) /\
     ClosestPointOnPolyBoundary m from endPos ce = Ok (Success, w) /\ along 0 ws i /\ has (ws ++ [(w, 0, from)]) b /\ cnt (ws ++ [(w, 0, from)]) <= len /\
     st = if len <=? cnt (ws ++ [(w, 0, from)]) then Z.lor (Z.lor Success PartialResult) BufferTooSmall else Z.lor Success PartialResult).

(** State of the loop before iteration [i]; [g] is the number of the portal of the apex. *)
Record Common (i g : Z) (F : Funnel) (ws : list point) (b : Buf) : Prop := {
  c_i : 0 <= i <= n; c_g : -1 <= g < i; c_gn : g < n - 1; c_A : fApexIdx F = Z.max g 0; c_apex : vmag 259 (fApex F);
  c_good : forall k, 0 <= k < i -> k + 1 < n -> good k;
  c_has : has ws b; c_room : cnt ws < len; c_ws : along 0 ws (Z.max g 0) }.
Definition Fresh (F : Funnel) : Prop := fLeft F = fApex F /\ fRight F = fApex F.
(** [j] exceeds the numbers of the two sides. *)
Definition Open (g j : Z) (F : Funnel) : Prop :=
  g < fLeftIdx F < j /\ g < fRightIdx F < j /\ side (fLeftIdx F) (fLeft F) (fLeftRef F) (fLeftType F) /\ side (fRightIdx F) (fRight F) (fRightRef F) (fRightType F).
(** The end point has been merged with the last point. *)
Definition Ended (i : Z) (F : Funnel) (b : Buf) : Prop := i = n /\ fApexIdx F = n - 1 /\ exists ws l p f r, along 0 ws (n - 1) /\ has (ws ++ [end_pt]) b /\ cnt (ws ++ [end_pt]) < len /\
  adds [] (start_pt :: ws ++ [end_pt]) = l ++ [(p, f, r)] /\ approx ce p = true.
Definition State (i g : Z) (F : Funnel) (b : Buf) : Prop := (exists ws, Common i g F ws b /\ (Fresh F \/ Open g i F)) \/ (g = n - 1 /\ Ended i F b).

Lemma has_count : forall ws b, has ws b -> bCount b = cnt ws.
Proof using. intros ws b H. eapply holds_count. exact H. Qed.

(** Crossings up to portal [j]. *)
Lemma cross : forall i0 j ep ws b b' st, has ws b -> cnt ws < len -> along 0 ws i0 -> 0 <= i0 <= j -> (forall k, i0 <= k < j -> good k) ->
  maybePortals approx m i0 j ep path options b = Ok (b', st) ->
  exists ws', along 0 ws' (Z.max i0 (j - 1)) /\ has ws' b' /\ ((st = InProgress /\ cnt ws' < len) \/ (st = Z.lor Success BufferTooSmall /\ cnt ws' = len)).
Proof using.
  intros i0 j ep ws b b' st HH R A I G H. apply (maybe_spec approx m P0 F0 R0 path options i0 j ep _ b b' st (Z.max i0 (j - 1)) HH R G) in H; [|lia|lia].
  destruct H as (w2 & A2 & HH2 & C). exists (ws ++ w2). split; [eapply along_app; eassumption|]. unfold has. rewrite app_start. split; [exact HH2|exact C].
Qed.

Lemma restart_points : forall i g F ws b v idx ref ty x, Common i g F ws b -> g < idx <= i -> (idx = i -> i + 1 < n -> good i) -> side idx v ref ty -> i < n ->
  restart_at approx m F v idx ref ty path options b = Ok x ->
  match x with inl y => result y | inr (i', F', b') => exists g', g < g' /\ i' = g' + 1 /\ State i' g' F' b' end.
Proof using HA HM Hce.
  intros i g F ws b v idx ref ty x HC Hidx Gi HS Hin H. pose proof (side_mag _ _ _ _ HS) as Mv. destruct HC as [CI CG CGN CA CX CGO CH CR CW].
  unfold restart_at, restart in H. apply bind_ok in H as (x0 & H0 & H). rewrite CA in H0. apply bind_ok in H0 as ([b1 st1] & E1 & H0).
  eapply cross in E1; [|exact CH|exact CR|exact CW|lia|].
  2:{ intros k Hk. apply CGO; [lia|]. destruct HS as [(_ & HS & _)|(HS & _)]; lia. }
  destruct E1 as (w1 & A1 & H1 & C1). assert (Hn1 : idx <= n - 1) by (destruct HS as [(_ & HS & _)|(HS & _)]; lia).
  destruct C1 as [[-> R1]|[-> R1]].
  2:{ change (negb (Z.lor Success BufferTooSmall =? InProgress)) with true in H0. cbv iota in H0. apply Ok_inj in H0. subst x0. apply Ok_inj in H. subst x. split; [reflexivity|].
      exists w1. left. split; [eapply along_to; [|exact A1]; lia|]. auto. }
  change (negb (InProgress =? InProgress)) with false in H0. cbv iota zeta in H0. apply bind_ok in H0 as ([b2 st2] & E2 & H0).
  destruct HS as [(P1 & P2 & a & l & r & Ea & Er & HP & Ev)|(-> & -> & ->)].
  - assert (Nr : ref <> 0) by (destruct (portal_valid _ _ _ _ _ _ HP) as [_ (t' & p' & HV & _)]; eapply valid_nonzero; exact HV).
    rewrite (proj2 (Z.eqb_neq _ _) Nr) in E2.
    set (fl := if ty =? polyTypeOffMeshConnection then StraightPathOffMeshConnection else 0) in *. assert (Nf : fl <> StraightPathEnd) by (unfold fl; destruct (ty =? _); discriminate).
    assert (ON : on_portal m path idx (v, fl, ref)) by (eapply on_corner; eassumption).
    apply append_room with (P0 := P0) (F0 := F0) (R0 := R0) (l := adds [] (start_pt :: w1)) in E2; [|exact Nf|exact H1|exact R1].
    assert (AW : along 0 (w1 ++ [(v, fl, ref)]) idx).
    { eapply along_app; [exact A1|]. econstructor; [|exact ON|constructor; lia]. lia. }
    assert (ES : addp (adds [] (start_pt :: w1)) (v, fl, ref) = adds [] (start_pt :: w1 ++ [(v, fl, ref)])) by (rewrite app_start; reflexivity).
    rewrite ES in E2. destruct E2 as [H2 [[-> R2]|[-> R2]]].
    + change (negb (InProgress =? InProgress)) with false in H0. cbv iota in H0. apply Ok_inj in H0. subst x0. apply Ok_inj in H. subst x.
      exists idx. split; [lia|]. split; [reflexivity|]. left. exists (w1 ++ [(v, fl, ref)]). split; [|left; split; reflexivity].
      constructor; cbn [reset fApexIdx fApex]; try lia; try assumption.
      * intros k Hk Hn. destruct (Z.eq_dec k i) as [->|]; [apply Gi; lia|apply CGO; lia].
      * eapply along_to; [|exact AW]. lia.
    + change (negb (Z.lor Success BufferTooSmall =? InProgress)) with true in H0. cbv iota in H0. apply Ok_inj in H0. subst x0. apply Ok_inj in H. subst x. split; [reflexivity|].
      exists (w1 ++ [(v, fl, ref)]). left. split; [eapply along_to; [|exact AW]; lia|]. auto.
  - change (0 =? 0) with true in E2. cbv iota in E2. destruct (appendVertex_spec _ _ _ _ _ _ _ _ _ _ _ H1 E2) as [H2 C2].
    assert (ES : addp (adds [] (start_pt :: w1)) (ce, StraightPathEnd, 0) = adds [] (start_pt :: w1 ++ [end_pt])) by (rewrite app_start; reflexivity).
    assert (AW : along 0 w1 (n - 1)) by (eapply along_to; [|exact A1]; lia).
    destruct C2 as [(l1 & p & f & r & E & E' & ->)|(E & _ & E')].
    + change (negb (InProgress =? InProgress)) with false in H0. cbv iota in H0. apply Ok_inj in H0. subst x0. apply Ok_inj in H. subst x.
      exists (n - 1). split; [lia|]. split; [reflexivity|]. right. split; [reflexivity|]. split; [lia|]. split; [reflexivity|]. rewrite E in R1.
      assert (Ap : approx ce p = true).
      { destruct (addp_cases approx (adds [] (start_pt :: w1)) ce StraightPathEnd 0 (start_nonempty w1)) as (l2 & p2 & f2 & r2 & E3 & E4). rewrite E' in E4. rewrite E in E3, E4. apply app_inj_tail in E3. destruct E3 as [<- E3]. injection E3 as <- <- <-.
        destruct (approx ce p); [reflexivity|]. apply (f_equal (@length _)) in E4. rewrite !app_length in E4. cbn [length] in E4. lia. }
      exists w1, l1, p, StraightPathEnd, 0. unfold has. rewrite <- ES. split; [exact AW|]. split; [exact H2|]. split; [|auto].
      rewrite E'. rewrite zlen_snoc in *. exact R1.
    + assert (SN : st2 = InProgress -> False) by (rewrite E'; destruct (len <=? _); discriminate).
      destruct (Z.eqb_spec st2 InProgress) as [|_]; [exfalso; auto|]. cbn [negb] in H0. apply Ok_inj in H0. subst x0. apply Ok_inj in H. subst x. split; [reflexivity|].
      exists w1. right. left. unfold has. rewrite <- ES. split; [exact AW|]. split; [exact H2|]. rewrite E. rewrite zlen_snoc. split; [lia|]. exact E'.
Qed.

Lemma next_side : forall i ref l r ty v, 0 <= i < n -> next_ref path i = Ok ref ->
  (i + 1 < n -> exists a b, get path i = Ok a /\ get path (i + 1) = Ok b /\ portal m a b l r ty) -> (n <= i + 1 -> l = ce /\ r = ce) ->
  v = l \/ v = r -> side i v ref ty.
Proof using.
  intros i ref l r ty v Hi En HP HE Hv. unfold next_ref in En. destruct (Z.ltb_spec (i + 1) n) as [L|L].
  - destruct (HP L) as (a & b & Ea & Eb & HP'). rewrite Eb in En. apply Ok_inj in En. subst ref. left. split; [lia|]. split; [exact L|]. exists a, l, r. auto.
  - apply Ok_inj in En. subst ref. right. destruct (HE L) as [-> ->]. split; [lia|]. split; [destruct Hv; assumption|reflexivity].
Qed.

(** The iteration [i] with its portal. *)
Lemma step_points : forall i g F ws b l r ty x, i < n -> Common i g F ws b -> Fresh F \/ Open g i F ->
  (i + 1 < n -> good i /\ exists a b, get path i = Ok a /\ get path (i + 1) = Ok b /\ portal m a b l r ty) -> (n <= i + 1 -> l = ce /\ r = ce) ->
  funnel_step approx m F l r ty i path options b = Ok x ->
  match x with inl y => result y | inr (i', F', b') => (i' = i + 1 /\ State i' g F' b') \/ exists g', g < g' /\ i' = g' + 1 /\ State i' g' F' b' end.
Proof using HA HM Hce.
  intros i g F ws b l r ty x Hin HC HF HP HE H.
  assert (Ml : vmag 259 l /\ vmag 259 r).
  { destruct (Z.ltb_spec (i + 1) n) as [L|L]; [destruct (HP L) as (_ & a & c & _ & _ & X); eapply portal_mag; eassumption|destruct (HE L) as [-> ->]; auto]. }
  destruct Ml as [Ml Mr]. pose proof (c_i _ _ _ _ _ HC) as CI. pose proof (c_g _ _ _ _ _ HC) as CG.
  assert (GN : forall k, 0 <= k < i + 1 -> k + 1 < n -> good k) by (intros k Hk Hn; destruct (Z.eq_dec k i) as [->|]; [apply HP; exact Hn|apply (c_good _ _ _ _ _ HC); lia]).
  assert (NX : forall F', fApex F' = fApex F -> fApexIdx F' = fApexIdx F -> Common (i + 1) g F' ws b).
  { intros F' E1 E2. destruct HC. constructor; rewrite ?E1, ?E2; try assumption; lia. }
  assert (SD : forall ref v, next_ref path i = Ok ref -> v = l \/ v = r -> side i v ref ty).
  { intros ref v En Hv. apply (next_side i ref l r ty v); try assumption; [lia|]. intros L. apply HP in L. apply L. }
  destruct HF as [[FL FR]|(OL & OR & SL & SR)].
  - (* both sides are taken *)
    pose proof (c_apex _ _ _ _ _ HC) as Ma. unfold funnel_step in H. rewrite FR in H. rewrite (proj1 (area_le _ _ Ma Mr)), (approx_mag _ Ma) in H. cbn [orb] in H.
    apply bind_ok in H as (ref & En & H). unfold left_step in H. cbn [set_right fApex fLeft] in H. rewrite FL in H. rewrite (proj2 (area_le _ _ Ma Ml)), (approx_mag _ Ma) in H. cbn [orb] in H.
    rewrite En in H. cbn [bind] in H. apply Ok_inj in H. subst x. left. split; [reflexivity|]. left. exists ws. split; [apply NX; reflexivity|]. right. unfold Open. cbn.
    split; [lia|]. split; [lia|]. split; apply SD; auto.
  - assert (LEFT : forall F', fApex F' = fApex F -> fApexIdx F' = fApexIdx F -> g < fLeftIdx F' < i + 1 -> g < fRightIdx F' < i + 1 ->
      side (fLeftIdx F') (fLeft F') (fLeftRef F') (fLeftType F') -> side (fRightIdx F') (fRight F') (fRightRef F') (fRightType F') ->
      left_step approx m F' l ty i path options b = Ok x ->
      match x with inl y => result y | inr (i', F', b') => (i' = i + 1 /\ State i' g F' b') \/ exists g', g < g' /\ i' = g' + 1 /\ State i' g' F' b' end).
    { clear H. intros F' E1 E2 L1 R1 S1 S2 H. unfold left_step in H. destruct (fge _ _).
      - destruct (_ || _).
        + apply bind_ok in H as (ref & En & H). apply Ok_inj in H. subst x. left. split; [reflexivity|]. left. exists ws. split; [apply NX; assumption|]. right. unfold Open. cbn.
          split; [lia|]. split; [lia|]. split; [apply SD; auto|exact S2].
        + eapply (restart_points i g F' ws b) in H; [|destruct HC; constructor; rewrite ?E1, ?E2; assumption|lia|intros _; apply HP|exact S2|exact Hin].
          destruct x as [y|[[i' F''] b']]; [exact H|right; exact H].
      - apply Ok_inj in H. subst x. left. split; [reflexivity|]. left. exists ws. split; [apply NX; assumption|]. right. unfold Open. auto. }
    unfold funnel_step in H. destruct (fle _ _).
    + destruct (_ || _).
      * apply bind_ok in H as (ref & En & H). apply LEFT in H; cbn; try assumption; try reflexivity; try lia. apply SD; auto.
      * eapply (restart_points i g F ws b) in H; [|exact HC|lia|intros _; apply HP|exact SL|exact Hin]. destruct x as [y|[[i' F''] b']]; [exact H|right; exact H].
    + apply LEFT in H; try assumption; try reflexivity; lia.
Qed.

Lemma boundary_success : forall r pos z st c, ClosestPointOnPolyBoundary m r pos z = Ok (st, c) -> StatusFailed st = false -> st = Success.
Proof using.
  intros r pos z st c H N. unfold ClosestPointOnPolyBoundary in H. apply bind_ok in H as (o & _ & H). destruct o as [[t p]|]; [|apply Ok_inj in H; injection H as <- _; discriminate].
  apply bind_ok in H as (vs & _ & H). destruct (distancePtPolyEdgesSqr numF pos vs) as [ins ds]. destruct ins; [apply Ok_inj in H; injection H as <- _; reflexivity|].
  apply bind_ok in H as ([im e] & _ & H). apply bind_ok in H as (va & _ & H). apply bind_ok in H as (vb & _ & H). apply Ok_inj in H. injection H as <- _. reflexivity.
Qed.

Lemma clamp_points : forall i g F ws b from to st l r ty y, Common i g F ws b -> i + 1 < n -> get path i = Ok from -> get path (i + 1) = Ok to ->
  portalPoints6 m from to = Ok (st, l, r, ty) -> StatusFailed st = true -> clamp_end approx m F endPos ce i path options b = Ok y -> result y.
Proof using Hfirst Vfirst.
  intros i g F ws b from to st l r ty y [CI CG CGN CA CX CGO CH CR CW] Hin Ef Et E6 SF H. unfold clamp_end in H. rewrite Ef in H. cbn [bind] in H.
  assert (VF : exists t p, valid_at m from t p).
  { destruct (Z.eq_dec i 0) as [->|N]; [rewrite Hfirst in Ef; apply Ok_inj in Ef; subst from; exact Vfirst|].
    destruct (good_valid _ _ _ (CGO (i - 1) ltac:(lia) ltac:(lia))) as (a & b' & t & p & t' & p' & _ & E & _ & HV). replace (i - 1 + 1) with i in E by lia. rewrite Ef in E. apply Ok_inj in E. subst b'. eauto. }
  destruct VF as (t & p & VF). apply bind_ok in H as ([st1 w] & Ew & H). pose proof (boundary_ok _ _ _ _ _ _ _ _ VF Ew) as NS. rewrite NS in H. rewrite (boundary_success _ _ _ _ _ Ew NS) in Ew.
  rewrite CA in H. apply bind_ok in H as ([b1 st2] & E1 & H). eapply cross in E1; [|exact CH|exact CR|exact CW|lia|intros k Hk; apply CGO; lia]. destruct E1 as (w1 & A1 & H1 & C1).
  apply bind_ok in H as ([b2 st3] & E2 & H). apply Ok_inj in H. subst y. destruct (appendVertex_spec _ _ _ _ _ _ _ _ _ _ _ H1 E2) as [H2 C2].
  assert (ES : addp (adds [] (start_pt :: w1)) (w, 0, from) = adds [] (start_pt :: w1 ++ [(w, 0, from)])) by (rewrite app_start; reflexivity).
  split; [reflexivity|]. exists w1. right. right. exists i, from, to, w. split; [lia|]. split; [exact Ef|]. split; [exact Et|].
  split; [intros l' r' ty' HP; pose proof (portal_complete _ _ _ _ _ _ _ _ _ _ HP E6); congruence|]. split; [exact Ew|]. split; [eapply along_to; [|exact A1]; lia|].
  unfold has. rewrite <- ES. split; [exact H2|]. split.
  - destruct C2 as [(l1 & p1 & f1 & r1 & E & E' & _)|(E & L & _)].
    + assert (cnt w1 <= len) by (destruct C1 as [[_ C1]|[_ C1]]; lia). rewrite E'. rewrite E in H. rewrite zlen_snoc in *. exact H.
    + rewrite E, zlen_snoc. lia.
  - rewrite (holds_len _ _ _ _ _ H2), (holds_count _ _ _ _ _ H2). reflexivity.
Qed.

Definition measure (i g : Z) : Z := (n - g) * (n + 1) + (n - i).

Lemma loop_points : forall fuel i g F b, State i g F b ->
  match funnel_loop approx m fuel endPos ce path options i F b with
  | Ok (inl y) => result y
  | Ok (inr (F', b')) => exists g', State n g' F' b'
  | NoFuel => lists_end m -> Z.of_nat fuel < measure i g
  | _ => True
  end.
Proof using HA HM Hce Hfirst Vfirst.
  induction fuel as [|f IH]; intros i g F b HS.
  - cbn [funnel_loop]. assert (I : 0 <= i <= n /\ g <= n - 1) by (destruct HS as [(ws & [] & _)|(-> & -> & _)]; [lia|pose proof (zlen_nonneg path); lia]).
    destruct (Z.leb_spec n i) as [L|L]; [exists g; replace n with i by lia; exact HS|]. intros _. unfold measure. change (Z.of_nat 0) with 0. nia.
  - cbn [funnel_loop]. assert (I : 0 <= i <= n /\ g <= n - 1) by (destruct HS as [(ws & [] & _)|(-> & -> & _)]; [lia|pose proof (zlen_nonneg path); lia]).
    destruct (Z.leb_spec n i) as [L|L]; [exists g; replace n with i by lia; exact HS|].
    destruct HS as [(ws & HC & HF)|(_ & E & _)]; [|lia].
    pose proof (c_good _ _ _ _ _ HC) as CGO.
    assert (STEP : forall l r ty, (i + 1 < n -> good i /\ exists a b, get path i = Ok a /\ get path (i + 1) = Ok b /\ portal m a b l r ty) -> (n <= i + 1 -> l = ce /\ r = ce) ->
      match (let* x := funnel_step approx m F l r ty i path options b in match x with inl y => Ok (inl y) | inr (i, F, b) => funnel_loop approx m f endPos ce path options i F b end) with
      | Ok (inl y) => result y
      | Ok (inr (F', b')) => exists g', State n g' F' b'
      | NoFuel => lists_end m -> Z.of_nat (S f) < measure i g
      | _ => True
      end).
    { intros l r ty HP HE. pose proof (fun HL => step_no_fuel approx m HL F l r ty i path options b) as NF. destruct (funnel_step approx m F l r ty i path options b) as [x| | |] eqn:ES; cbn [bind]; try exact Logic.I; [|intros HL; specialize (NF HL); congruence].
      apply (step_points i g F ws b l r ty x L HC HF HP HE) in ES. destruct x as [y|[[i' F'] b']]; [exact ES|].
      assert (X : exists g', State i' g' F' b' /\ measure i' g' < measure i g).
      { destruct ES as [[-> HS]|(g' & Lg & -> & HS)]; [exists g; split; [exact HS|unfold measure; lia]|]. exists g'. split; [exact HS|].
        assert (0 <= g' + 1 <= n) by (destruct HS as [(ws' & [] & _)|(-> & E & _)]; [lia|pose proof (zlen_nonneg path); lia]). unfold measure. nia. }
      destruct X as (g' & HS & ML). specialize (IH i' g' F' b' HS). destruct (funnel_loop approx m f endPos ce path options i' F' b') as [[y|[F2 b2]]| | |]; auto. intros HL. specialize (IH HL). lia. }
    destruct (Z.ltb_spec (i + 1) n) as [Li|Li].
    + destruct (get path i) as [from| | |] eqn:Ef; cbn [bind]; try exact Logic.I; [|exfalso; eapply get_no_fuel; exact Ef].
      destruct (get path (i + 1)) as [to| | |] eqn:Et; cbn [bind]; try exact Logic.I; [|exfalso; eapply get_no_fuel; exact Et].
      pose proof (fun HL => portal6_no_fuel m HL from to) as NF. destruct (portalPoints6 m from to) as [[[[st l] r] ty]| | |] eqn:E6; cbn [bind]; try exact Logic.I; [|intros HL; specialize (NF HL); congruence].
      destruct (StatusFailed st) eqn:SF.
      * pose proof (fun HL => clamp_no_fuel approx m HL F endPos ce i path options b) as NC. destruct (clamp_end approx m F endPos ce i path options b) as [y| | |] eqn:EC; cbn [bind]; try exact Logic.I; [|intros HL; specialize (NC HL); congruence].
        eapply clamp_points; eassumption.
      * assert (Gi : good i) by (exists from, to, st, l, r, ty; auto).
        assert (HP : portal m from to l r ty) by (eapply portal6_spec; eassumption).
        destruct ((i =? 0) && _) eqn:EZ.
        -- apply andb_true_iff in EZ. destruct EZ as [EZ _]. apply Z.eqb_eq in EZ. subst i.
           assert (HS : State (0 + 1) g F b).
           { left. exists ws. split; [|left; destruct HF as [HF|([O1 O2] & _)]; [exact HF|pose proof (c_g _ _ _ _ _ HC); lia]].
             destruct HC. constructor; try assumption; try lia. intros k Hk Hn. replace k with 0 by lia. exact Gi. }
           specialize (IH (0 + 1) g F b HS). destruct (funnel_loop approx m f endPos ce path options (0 + 1) F b) as [[y|[F2 b2]]| | |]; auto. intros HL. specialize (IH HL). unfold measure in *. lia.
        -- apply STEP; [intros _; split; [exact Gi|eauto]|lia].
    + apply STEP; [lia|auto].
Qed.

Lemma finish_points : forall ws b y, has ws b -> cnt ws < len -> along 0 ws (n - 1) -> StraightPath.finish approx ce b = Ok y -> result y.
Proof using.
  intros ws b y HH R A H. unfold StraightPath.finish in H. apply bind_ok in H as ([b2 st2] & E2 & H). apply Ok_inj in H. subst y. destruct (appendVertex_spec _ _ _ _ _ _ _ _ _ _ _ HH E2) as [H2 C2].
  assert (ES : addp (adds [] (start_pt :: ws)) (ce, StraightPathEnd, 0) = adds [] (start_pt :: ws ++ [end_pt])) by (rewrite app_start; reflexivity).
  split; [reflexivity|]. exists ws. right. left. split; [exact A|]. unfold has. rewrite <- ES. split; [exact H2|].
  split; [|rewrite (holds_len _ _ _ _ _ H2), (holds_count _ _ _ _ _ H2); reflexivity].
  destruct C2 as [(l1 & p & f & r & E & E' & ->)|(E & _ & E')]; [rewrite E'; rewrite E in R; rewrite zlen_snoc in *; lia|rewrite E, zlen_snoc; lia].
Qed.
(** The end point again. *)
Lemma finish_ended : forall ws l p f r b y, has (ws ++ [end_pt]) b -> cnt (ws ++ [end_pt]) < len -> adds [] (start_pt :: ws ++ [end_pt]) = l ++ [(p, f, r)] -> approx ce p = true ->
  along 0 ws (n - 1) -> StraightPath.finish approx ce b = Ok y -> result y.
Proof using.
  intros ws l p f r b y HH R EL Ap A H. unfold StraightPath.finish in H. apply bind_ok in H as ([b2 st2] & E2 & H). apply Ok_inj in H. subst y. destruct (appendVertex_spec _ _ _ _ _ _ _ _ _ _ _ HH E2) as [H2 C2].
  assert (E0 : adds [] (start_pt :: ws ++ [end_pt]) = l ++ [(p, StraightPathEnd, 0)]).
  { rewrite EL. f_equal. f_equal. rewrite app_start in EL. cbn [add_points fold_left] in EL.
    destruct (addp_cases approx (adds [] (start_pt :: ws)) ce StraightPathEnd 0 (start_nonempty ws)) as (l2 & p2 & f2 & r2 & E3 & E4).
    change (addp (adds [] (start_pt :: ws)) end_pt = l ++ [(p, f, r)]) in EL. unfold end_pt in EL. rewrite E4 in EL. destruct (approx ce p2); apply app_inj_tail in EL; destruct EL as [_ EL]; congruence. }
  assert (ES : addp (adds [] (start_pt :: ws ++ [end_pt])) (ce, StraightPathEnd, 0) = adds [] (start_pt :: ws ++ [end_pt])).
  { rewrite E0. destruct (addp_cases approx (l ++ [(p, StraightPathEnd, 0)]) ce StraightPathEnd 0) as (l2 & p2 & f2 & r2 & E3 & E4); [destruct l; discriminate|].
    apply app_inj_tail in E3. destruct E3 as [<- E3]. injection E3 as <- <- <-. rewrite E4, Ap. reflexivity. }
  rewrite ES in H2. split; [reflexivity|]. exists ws. right. left. split; [exact A|]. split; [exact H2|]. split; [lia|]. rewrite (holds_len _ _ _ _ _ H2), (holds_count _ _ _ _ _ H2). reflexivity.
Qed.

Lemma straight_points : forall fuel sp z final, get path (n - 1) = Ok final ->
  ClosestPointOnPolyBoundary m first sp (f0, f0, f0) = Ok (z, cs) -> ClosestPointOnPolyBoundary m final endPos (f0, f0, f0) = Ok (z, ce) -> z = Success ->
  P0 <> [] -> path <> [] ->
  match FindStraightPath approx m fuel sp endPos path P0 F0 R0 options with
  | Ok y => result y
  | NoFuel => lists_end m -> Z.of_nat fuel < (n + 2) * (n + 2)
  | _ => True
  end.
Proof using HA HM Hcs Hce Hfirst Vfirst.
  intros fuel sp z final Ef E1 E2 -> NP NN. unfold FindStraightPath. cbv zeta.
  destruct (Z.eqb_spec len 0) as [X|_]; [destruct P0; [congruence|discriminate]|]. destruct (Z.eqb_spec n 0) as [X|_]; [destruct path; [congruence|discriminate]|].
  rewrite Hfirst. cbn [bind]. rewrite E1. cbn [bind]. change (StatusFailed Success) with false. cbv iota. rewrite Ef. cbn [bind]. rewrite E2. cbn [bind]. change (StatusFailed Success) with false. cbv iota.
  assert (HH0 : holds [] (mkBuf P0 F0 R0 0)).
  { unfold StraightSpec.holds. cbn. split; [split; reflexivity|]. split; [right; split; reflexivity|]. split; [right; split; reflexivity|reflexivity]. }
  pose proof (append_no_fuel approx cs StraightPathStart first (mkBuf P0 F0 R0 0)) as NF.
  destruct (appendVertex approx cs StraightPathStart first (mkBuf P0 F0 R0 0)) as [[b1 st1]| | |] eqn:EA; cbn [bind]; try exact Logic.I; [|congruence].
  pose proof (zlen_pos P0 NP) as LP. pose proof (zlen_pos path NN) as LN.
  apply append_room with (P0 := P0) (F0 := F0) (R0 := R0) (l := []) in EA; [|discriminate|exact HH0|unfold zlen in *; cbn [length]; lia].
  assert (A0 : along 0 [] 0) by (constructor; lia).
  destruct EA as [HH1 [[-> R1]|[-> R1]]].
  2:{ change (negb (Z.lor Success BufferTooSmall =? InProgress)) with true. cbv iota. split; [reflexivity|]. exists []. left. split; [eapply along_to; [|exact A0]; lia|]. auto. }
  change (negb (InProgress =? InProgress)) with false. cbv iota.
  assert (FIN : forall b, StraightPath.finish approx ce b <> NoFuel).
  { intros b. unfold StraightPath.finish. apply bind_no_fuel; [apply append_no_fuel|]. intros [b' st']. discriminate. }
  destruct (Z.ltb_spec 1 n) as [L1|L1].
  2:{ specialize (FIN b1). destruct (StraightPath.finish approx ce b1) as [y| | |] eqn:EF; try exact Logic.I; [|congruence]. eapply (finish_points [] b1); try eassumption. eapply along_to; [|exact A0]. lia. }
  pose proof (loop_points fuel 0 (-1) (mkFunnel cs cs cs 0 0 0 first first 0 0) b1) as LO.
  assert (HS : State 0 (-1) (mkFunnel cs cs cs 0 0 0 first first 0 0) b1).
  { left. exists []. split; [|left; split; reflexivity]. constructor; cbn [fApexIdx fApex]; try lia; assumption. }
  specialize (LO HS). destruct (funnel_loop approx m fuel endPos ce path options 0 _ b1) as [[y|[F b2]]| | |]; cbn [bind]; try exact Logic.I; [exact LO| |intros HL; specialize (LO HL); unfold measure in LO; nia].
  destruct LO as (g & LO). destruct LO as [(ws & HC & _)|(-> & _ & EA & ws & l & p & f & r & A & HH & R & EL & Ap)].
  - destruct HC as [CI CG CGN CA CX CGO CH CR CW]. rewrite CA. pose proof (fun HL => maybe_no_fuel approx m HL (Z.max g 0) (n - 1) ce path options b2) as NM.
    destruct (maybePortals approx m (Z.max g 0) (n - 1) ce path options b2) as [[b3 st3]| | |] eqn:EM; cbn [bind]; try exact Logic.I; [|intros HL; specialize (NM HL); congruence].
    eapply cross in EM; [|exact CH|exact CR|exact CW|lia|intros k Hk; apply CGO; lia]. destruct EM as (w1 & A1 & H1 & C1). destruct C1 as [[-> R2]|[-> R2]].
    + change (negb (InProgress =? InProgress)) with false. cbv iota. specialize (FIN b3). destruct (StraightPath.finish approx ce b3) as [y| | |] eqn:EF; try exact Logic.I; [|congruence].
      eapply (finish_points w1 b3); [exact H1|exact R2|eapply along_to; [|exact A1]; lia|exact EF].
    + change (negb (Z.lor Success BufferTooSmall =? InProgress)) with true. cbv iota. split; [reflexivity|]. exists w1. left. split; [eapply along_to; [|exact A1]; lia|]. auto.
  - rewrite EA. unfold maybePortals, appendPortals. rewrite Z.sub_diag. change (Z.to_nat 0) with 0%nat. cbn [portals_loop].
    assert (FE : match StraightPath.finish approx ce b2 with Ok y => result y | NoFuel => lists_end m -> Z.of_nat fuel < (n + 2) * (n + 2) | _ => True end).
    { specialize (FIN b2). destruct (StraightPath.finish approx ce b2) as [y| | |] eqn:EF; try exact Logic.I; [|congruence]. eapply finish_ended; eassumption. }
    destruct (crossings options); cbn [bind].
    + pose proof (get_no_fuel (bPts b2) (bCount b2 - 1)) as NG. destruct (get (bPts b2) (bCount b2 - 1)) as [s0| | |]; cbn [bind]; try exact Logic.I; [|congruence]. change (negb (InProgress =? InProgress)) with false. cbv iota. exact FE.
    + change (negb (InProgress =? InProgress)) with false. cbv iota. exact FE.
Qed.
End Points.
