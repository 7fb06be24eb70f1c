(** FindStraightPath: buffers, portals and the funnel. *)
From Coq Require Import ZArith List Lia Bool.
From Verif.Base Require Import Res GoNum F32 Num Grid Bits.
From Verif.Model Require Import Status Poly PolyRef MeshTypes Geom MeshLinks MeshTiles FindPath StraightPath.
From Verif.Spec Require Import LinkSpec PathSpec StraightSpec.
From Verif.Proofs Require Import LinkProofs SearchStep SearchInv RayProofs.
Import ListNotations.
Open Scope Z_scope.

(** ** Buffers *)
Lemma set_app : forall {A} (l t : list A) x s', set (l ++ t) (zlen l) x = Ok s' -> exists y t', t = y :: t' /\ s' = l ++ x :: t'.
Proof.
  intros A l t x s' H. apply set_ok in H. destruct H as [R ->]. destruct t as [|y t]; [rewrite app_nil_r in R; lia|].
  exists y, t. split; [reflexivity|]. unfold zlen. rewrite Nat2Z.id. clear. induction l as [|z l IH]; [reflexivity|]. cbn [length app upd]. rewrite IH. reflexivity.
Qed.
Lemma skipn_cons_S : forall {A} (s : list A) n y t, skipn n s = y :: t -> t = skipn (S n) s.
Proof. induction s as [|z s IH]; intros [|n] y t H; cbn [skipn] in H; try discriminate; [injection H as _ <-; reflexivity|]. apply IH in H. exact H. Qed.
Lemma starts_append : forall {A} (s0 l s : list A) x s', starts_with s0 l s -> set s (zlen l) x = Ok s' -> starts_with s0 (l ++ [x]) s'.
Proof.
  intros A s0 l s x s' [L E] H. pose proof H as H1. apply set_ok in H1. destruct H1 as [R E1].
  split; [rewrite E1, upd_length; exact L|]. rewrite E in H. apply set_app in H. destruct H as (y & t & Et & ->). rewrite app_length. cbn [length].
  rewrite Nat.add_1_r. rewrite <- (skipn_cons_S _ _ _ _ Et). rewrite <- app_assoc. reflexivity.
Qed.
Lemma starts_replace : forall {A} (s0 l s : list A) y x s', starts_with s0 (l ++ [y]) s -> set s (zlen l) x = Ok s' -> starts_with s0 (l ++ [x]) s'.
Proof.
  intros A s0 l s y x s' [L E] H. pose proof H as H1. apply set_ok in H1. destruct H1 as [R E1].
  split; [rewrite E1, upd_length; exact L|]. rewrite E, <- app_assoc in H. apply set_app in H. destruct H as (y' & t & Et & ->). cbn [app] in Et. injection Et as _ <-.
  rewrite !app_length. cbn [length]. rewrite <- app_assoc. reflexivity.
Qed.
Lemma opt_append : forall s0 l s x s' n, starts_opt s0 l s -> n = zlen l -> set_opt s n x = Ok s' -> starts_opt s0 (l ++ [x]) s'.
Proof.
  intros s0 l s x s' n H -> E. unfold set_opt in E. destruct (Z.ltb_spec 0 (zlen s)) as [P|P].
  - right. destruct H as [[-> ->]|H]; [cbn in P; lia|]. eapply starts_append; eassumption.
  - apply Ok_inj in E. subst s'. left. destruct s; [|unfold zlen in P; cbn [length] in P; lia].
    destruct H as [[-> _]|[L _]]; [auto|]. destruct s0; [auto|discriminate].
Qed.
Lemma opt_replace : forall s0 l y s x s' n, starts_opt s0 (l ++ [y]) s -> n = zlen l -> set_opt s n x = Ok s' -> starts_opt s0 (l ++ [x]) s'.
Proof.
  intros s0 l y s x s' n H -> E. unfold set_opt in E. destruct (Z.ltb_spec 0 (zlen s)) as [P|P].
  - right. destruct H as [[-> ->]|H]; [cbn in P; lia|]. eapply starts_replace; eassumption.
  - apply Ok_inj in E. subst s'. left. destruct s; [|unfold zlen in P; cbn [length] in P; lia].
    destruct H as [[-> _]|[L _]]; [auto|]. destruct s0; [auto|discriminate].
Qed.
Lemma starts_get : forall {A} (s0 l s : list A) y, starts_with s0 (l ++ [y]) s -> get s (zlen l) = Ok y.
Proof. intros A s0 l s y [_ ->]. rewrite <- app_assoc. apply get_ok. split; [unfold zlen; lia|]. unfold zlen. rewrite Nat2Z.id. rewrite nth_error_app2 by lia. rewrite Nat.sub_diag. reflexivity. Qed.

Lemma zlen_snoc : forall {A} (l : list A) x, zlen (l ++ [x]) = zlen l + 1.
Proof. intros. unfold zlen. rewrite app_length. cbn [length]. lia. Qed.
Lemma zlen_map : forall {A B} (g : A -> B) l, zlen (map g l) = zlen l.
Proof. intros. unfold zlen. rewrite map_length. reflexivity. Qed.

Section Straight.
Variable approx : fvec -> fvec -> bool.
Variables (P0 : list fvec) (F0 R0 : list Z).
Notation addp := (add_point approx).
Notation len := (zlen P0).
Notation holds := (holds P0 F0 R0).

Lemma holds_len : forall l b, holds l b -> zlen (bPts b) = len.
Proof using. intros l b [[L _] _]. unfold zlen. congruence. Qed.
Lemma holds_count : forall l b, holds l b -> bCount b = zlen l.
Proof using. intros l b (_ & _ & _ & H). exact H. Qed.

Lemma addp_cases : forall l pos flag ref, l <> [] -> exists l1 p f r, l = l1 ++ [(p, f, r)] /\
  addp l (pos, flag, ref) = if approx pos p then l1 ++ [(p, flag, ref)] else l ++ [(pos, flag, ref)].
Proof using.
  intros l pos flag ref N. destruct (exists_last N) as (l1 & [[p f] r] & ->). exists l1, p, f, r. split; [reflexivity|].
  unfold add_point. rewrite last_last, removelast_last. destruct l1; reflexivity.
Qed.

Lemma appendVertex_spec : forall l b pos flag ref b' st, holds l b -> appendVertex approx pos flag ref b = Ok (b', st) ->
  holds (addp l (pos, flag, ref)) b' /\
  ((exists l1 p f r, l = l1 ++ [(p, f, r)] /\ addp l (pos, flag, ref) = l1 ++ [(p, flag, ref)] /\ st = InProgress) \/
   (addp l (pos, flag, ref) = l ++ [(pos, flag, ref)] /\ zlen l < len /\
    st = if len <=? zlen l + 1 then Z.lor Success BufferTooSmall else if flag =? StraightPathEnd then Success else InProgress)).
Proof using.
  intros l b pos flag ref b' st HH H. pose proof HH as (HP & HF & HR & HC). unfold appendVertex in H. apply bind_ok in H as (same & Es & H).
  destruct same.
  - assert (N : l <> []) by (intros ->; rewrite HC in Es; cbn in Es; discriminate).
    destruct (addp_cases l pos flag ref N) as (l1 & p & f & r & -> & E).
    rewrite zlen_snoc in HC.
    assert (Q : (0 <? bCount b) = true) by (apply Z.ltb_lt; rewrite HC; unfold zlen; lia). rewrite Q in Es. apply bind_ok in Es as (v & Ev & Es). apply Ok_inj in Es.
    replace (bCount b - 1) with (zlen (map (fun w : point => fst (fst w)) l1)) in Ev by (rewrite zlen_map; lia).
    rewrite map_app in HP. cbn [map fst] in HP. rewrite (starts_get _ _ _ _ HP) in Ev. apply Ok_inj in Ev. subst v. rewrite Es in E.
    apply bind_ok in H as (fl & Efl & H). apply bind_ok in H as (rf & Erf & H). apply Ok_inj in H. injection H as <- <-.
    rewrite E. split; [|left; exists l1, p, f, r; auto].
    assert (ZM : forall {A} (g : point -> A), bCount b - 1 = zlen (map g l1)) by (intros; rewrite zlen_map; lia).
    repeat split; cbn [bPts bFlags bRefs bCount]; rewrite ?map_app; cbn [map fst snd].
    + apply HP.
    + apply HP.
    + rewrite map_app in HF. cbn [map fst snd] in HF. eapply opt_replace; [exact HF|apply ZM|exact Efl].
    + rewrite map_app in HR. cbn [map fst snd] in HR. eapply opt_replace; [exact HR|apply ZM|exact Erf].
    + rewrite zlen_snoc. exact HC.
  - assert (E : addp l (pos, flag, ref) = l ++ [(pos, flag, ref)]).
    { destruct l as [|x l']; [reflexivity|]. destruct (addp_cases (x :: l') pos flag ref) as (l1 & p & f & r & E1 & ->); [discriminate|].
      rewrite E1 in *. rewrite zlen_snoc in HC.
      assert (Q : (0 <? bCount b) = true) by (apply Z.ltb_lt; rewrite HC; unfold zlen; lia). rewrite Q in Es. apply bind_ok in Es as (v & Ev & Es). apply Ok_inj in Es.
      replace (bCount b - 1) with (zlen (map (fun w : point => fst (fst w)) l1)) in Ev by (rewrite zlen_map; lia).
      rewrite map_app in HP. cbn [map fst] in HP. rewrite (starts_get _ _ _ _ HP) in Ev. apply Ok_inj in Ev. subst v. rewrite Es. reflexivity. }
    apply bind_ok in H as (pts & Ep & H). apply bind_ok in H as (fl & Efl & H). apply bind_ok in H as (rf & Erf & H).
    assert (ZM : forall {A} (g : point -> A), bCount b = zlen (map g l)) by (intros; rewrite zlen_map; exact HC).
    rewrite (ZM _ (fun w : point => fst (fst w))) in Ep. pose proof (starts_append _ _ _ _ _ HP Ep) as HP'.
    assert (HR' : zlen l < len).
    { apply set_ok in Ep. destruct Ep as [R _]. destruct HP as [L _]. unfold zlen in *. rewrite map_length in R. lia. }
    assert (HH' : holds (l ++ [(pos, flag, ref)]) (mkBuf pts fl rf (bCount b + 1))).
    { unfold StraightSpec.holds. cbn [bPts bFlags bRefs bCount]. rewrite !map_app. cbn [map fst snd]. split; [exact HP'|]. split; [|split].
      - eapply opt_append; [exact HF|apply ZM|exact Efl].
      - eapply opt_append; [exact HR|apply ZM|exact Erf].
      - rewrite HC. unfold zlen. rewrite app_length. cbn [length]. lia. }
    rewrite E. cbn [bCount] in H. replace (zlen pts) with len in H by (destruct HP' as [L _]; unfold zlen; congruence). rewrite HC in H.
    assert (X : b' = mkBuf pts fl rf (zlen l + 1) /\ st = (if len <=? zlen l + 1 then Z.lor Success BufferTooSmall else if flag =? StraightPathEnd then Success else InProgress)).
    { destruct (len <=? zlen l + 1); [|destruct (flag =? StraightPathEnd)]; apply Ok_inj in H; injection H as <- <-; auto. }
    destruct X as [-> ->]. rewrite HC in HH'. split; [exact HH'|]. right. auto.
Qed.
End Straight.

(** ** References and portals *)
Section Portals.
Variable m : NavMesh.

Lemma lookup_spec : forall r o, lookup m r = Ok o ->
  match o with Some (t, p) => valid_at m r t p | None => IsValidPolyRef m r = Ok false end.
Proof using.
  intros r o H. unfold lookup, TileAndPolyByRef in H. unfold valid_at, IsValidPolyRef, polygon_at.
  destruct (Z.eqb_spec r 0) as [->|N]; [cbn [bind] in H; change (StatusFailed Failure) with true in H; apply Ok_inj in H; subst o; reflexivity|].
  unfold DecodePolyID in *. destruct (_ <=? decodePolyIDTile _ _) eqn:E1; [apply Ok_inj in H; subst o; reflexivity|].
  destruct (get (mTiles m) (decodePolyIDTile (mBits m) r)) as [t| | |] eqn:Et; cbn [bind] in H |- *; try discriminate.
  destruct (tHeader t) as [h|]; [|apply Ok_inj in H; subst o; reflexivity].
  destruct (negb _) eqn:E2; [apply Ok_inj in H; subst o; reflexivity|]. destruct (u32 (hPolyCount h) <=? decodePolyIDPoly (mBits m) r) eqn:E3; cbn [bind] in H; [apply Ok_inj in H; subst o; reflexivity|].
  destruct (get (tdPolys (tD t)) (decodePolyIDPoly (mBits m) r)) as [p| | |] eqn:Ep; cbn [bind] in H; try discriminate.
  change (StatusFailed Success) with false in H. cbv iota in H.
  assert (R : 0 <= decodePolyIDTile (mBits m) r) by (apply get_ok in Et; tauto).
  rewrite Z2Nat.id in H by exact R. rewrite Et in H. cbn [bind] in H. apply Ok_inj in H. subst o. auto.
Qed.
Lemma valid_lookup : forall r t p, valid_at m r t p -> lookup m r = Ok (Some (t, p)).
Proof using.
  intros r t p [H [Et Ep]]. unfold lookup, TileAndPolyByRef. unfold IsValidPolyRef in H.
  destruct (Z.eqb_spec r 0); [discriminate|]. unfold DecodePolyID in *. destruct (_ <=? decodePolyIDTile _ _); [discriminate|]. rewrite Et in H |- *. cbn [bind] in H |- *.
  destruct (tHeader t) as [h|]; [|discriminate]. destruct (negb _); [discriminate|]. destruct (u32 (hPolyCount h) <=? decodePolyIDPoly (mBits m) r); [discriminate|]. rewrite Ep. cbn [bind].
  change (StatusFailed Success) with false. cbv iota. assert (R : 0 <= decodePolyIDTile (mBits m) r) by (apply get_ok in Et; tauto).
  rewrite Z2Nat.id by exact R. rewrite Et. reflexivity.
Qed.

Lemma find_link_first : forall L to fuel i l, find_link fuel L to i = Ok (Some l) ->
  exists c s k, LSeg L i (c ++ [(s, pay l)]) k /\ lRef l = to /\ Forall (fun x => pay_ref (snd x) <> to) c.
Proof using.
  clear m. intros L to. induction fuel as [|f IH]; intros i l H; cbn [find_link] in H.
  - destruct (i =? nullLink); discriminate.
  - destruct (Z.eqb_spec i nullLink) as [|Ni]; [discriminate|]. apply bind_ok in H as (l0 & El & H). destruct (Z.eqb_spec (lRef l0) to) as [E|N].
    + apply Ok_inj in H. injection H as <-. exists [], i, (lNext l0). cbn [app]. split; [econstructor; [exact Ni|exact El|constructor]|]. auto.
    + apply IH in H. destruct H as (c & s & k & HS & E & HF). exists ((i, pay l0) :: c), s, k. cbn [app]. split; [econstructor; eassumption|]. split; [exact E|]. constructor; [exact N|exact HF].
Qed.
Lemma vert16_vertex : forall t i v, vert16 (tdVerts (tD t)) i = Ok v -> tile_vertex t i v.
Proof using.
  clear m. intros t i v H. unfold vert16, vec3_at in H. destruct (_ <? _); [discriminate|]. replace (u16 (i * 3)) with (3 * i mod 65536) in H by (unfold u16; rewrite Z.mul_comm; reflexivity).
  apply bind_ok in H as (x & Ex & H). apply bind_ok in H as (y & Ey & H). apply bind_ok in H as (z & Ez & H). apply Ok_inj in H. exists x, y, z. auto.
Qed.

Lemma portal8_spec : forall a b t p t' p' z1 z2 st l r, valid_at m a t p -> valid_at m b t' p' ->
  portalPoints8 a p t b p' t' z1 z2 = Ok (st, l, r) -> (StatusFailed st = true \/ portal m a b l r (Type_ p')) /\ (StatusFailed st = false -> st = Success).
Proof using.
  intros a b t p t' p' z1 z2 st l r HA HB H. unfold portalPoints8 in H. apply bind_ok in H as (o & Ef & H). destruct o as [lk|].
  2:{ apply Ok_inj in H. injection H as <- _ _. split; [left; reflexivity|discriminate]. }
  apply find_link_first in Ef. destruct Ef as (c & s & k & HS & Er & HF).
  assert (FT : first_to t p b (pay lk)) by (exists c, s, k; auto). unfold pay in FT. rewrite Er in FT.
  destruct (Z.eqb_spec (Type_ p) polyTypeOffMeshConnection) as [T1|T1].
  { apply bind_ok in H as (v & Ev & H). apply bind_ok in H as (w & Ew & H). apply Ok_inj in H. injection H as <- <- <-. split; [right|reflexivity].
    eapply portal_from; try eassumption. exists v. split; [exact Ev|]. apply vert16_vertex. exact Ew. }
  destruct (Z.eqb_spec (Type_ p') polyTypeOffMeshConnection) as [T2|T2].
  { apply bind_ok in H as (o & Eb & H). destruct o as [bk|].
    2:{ apply Ok_inj in H. injection H as <- _ _. split; [left; reflexivity|discriminate]. }
    apply find_link_first in Eb. destruct Eb as (c2 & s2 & k2 & HS2 & Er2 & HF2).
    assert (FT2 : first_to t' p' a (pay bk)) by (exists c2, s2, k2; auto). unfold pay in FT2. rewrite Er2 in FT2.
    apply bind_ok in H as (v & Ev & H). apply bind_ok in H as (w & Ew & H). apply Ok_inj in H. injection H as <- <- <-. split; [right|reflexivity].
    eapply portal_to; try eassumption. apply vert16_vertex. exact Ew. }
  apply bind_ok in H as (v0 & E0 & H). apply bind_ok in H as (e1 & E1 & H). apply bind_ok in H as (v1 & E2 & H). apply bind_ok in H as (u & Eu & H). apply bind_ok in H as (v & Ev & H).
  unfold next_edge in E1. destruct (pVertCount p =? 0); [discriminate|]. apply Ok_inj in E1. unfold u8 in E1.
  assert (C1 : corner t p (lEdge lk) u) by (exists v0; split; [exact E0|apply vert16_vertex; exact Eu]).
  assert (C2 : corner t p ((lEdge lk + 1) mod 256 mod pVertCount p) v) by (rewrite E1; exists v1; split; [exact E2|apply vert16_vertex; exact Ev]).
  destruct (Z.eqb_spec (lSide lk) 255) as [Es|Ns]; cbn [negb andb] in H.
  { apply Ok_inj in H. injection H as <- <- <-. split; [right|reflexivity]. eapply portal_whole; try eassumption. auto. }
  destruct (Z.eqb_spec (lBMin lk) 0) as [Em|Nm], (Z.eqb_spec (lBMax lk) 255) as [Ex|Nx]; cbn [negb orb] in H; apply Ok_inj in H; injection H as <- <- <-; (split; [right|reflexivity]);
    [eapply portal_whole; try eassumption; auto|eapply portal_part; try eassumption; tauto..].
Qed.
Lemma portal6_spec : forall a b st l r ty, portalPoints6 m a b = Ok (st, l, r, ty) -> StatusFailed st = false -> portal m a b l r ty.
Proof using.
  intros a b st l r ty H NF. unfold portalPoints6 in H. apply bind_ok in H as (o & Ea & H). apply lookup_spec in Ea. destruct o as [[t p]|].
  2:{ apply Ok_inj in H. injection H as <- _ _ _. discriminate. }
  apply bind_ok in H as (o & Eb & H). apply lookup_spec in Eb. destruct o as [[t' p']|].
  2:{ apply Ok_inj in H. injection H as <- _ _ _. discriminate. }
  apply bind_ok in H as ([[st' l'] r'] & E8 & H). apply Ok_inj in H. injection H as <- <- <- <-. eapply portal8_spec in E8; [|exact Ea|exact Eb]. destruct E8 as [[F|F] _]; [congruence|exact F].
Qed.
Lemma portal_valid : forall a b l r ty, portal m a b l r ty -> (exists t p, valid_at m a t p) /\ exists t' p', valid_at m b t' p' /\ ty = Type_ p'.
Proof using. intros a b l r ty H. destruct H; eauto 10. Qed.
Lemma valid_at_det : forall r t p t' p', valid_at m r t p -> valid_at m r t' p' -> t = t' /\ p = p'.
Proof using. intros r t p t' p' [_ H] [_ H']. eapply polygon_at_det; eassumption. Qed.
Lemma valid_nonzero : forall r t p, valid_at m r t p -> r <> 0.
Proof using. intros r t p [H _] ->. discriminate. Qed.
End Portals.

(** ** Crossings *)
Lemma along_from : forall m path i j ws k', i <= j -> along m path j ws k' -> along m path i ws k'.
Proof. intros m path i j ws k' L A. destruct A as [? ? L'|? j' w ws' ? L' O A]; [constructor; lia|econstructor; [|exact O|exact A]; lia]. Qed.
Lemma along_le : forall m path i ws k, along m path i ws k -> i <= k.
Proof. intros m path i ws k A. induction A; lia. Qed.
Lemma along_app : forall m path i ws k ws' k', along m path i ws k -> along m path k ws' k' -> along m path i (ws ++ ws') k'.
Proof.
  intros m path i ws k ws' k' A B. induction A as [? ? L|? j w ws ? L O A IH]; cbn [app]; [eapply along_from; eassumption|]. econstructor; [exact L|exact O|apply IH, B].
Qed.
Lemma along_to : forall m path i ws k k', k <= k' -> along m path i ws k -> along m path i ws k'.
Proof. intros m path i ws k k' L A. rewrite <- (app_nil_r ws). eapply along_app; [exact A|constructor; exact L]. Qed.
Section Cross.
Variable approx : fvec -> fvec -> bool.
Variable m : NavMesh.
Variables (P0 : list fvec) (F0 R0 : list Z).
Variables (path : list Z) (options : Z).
Notation addp := (add_point approx).
Notation adds := (add_points approx).
Notation len := (zlen P0).
Notation holds := (holds P0 F0 R0).

(** The portal number [k] of the corridor. *)
Definition good (k : Z) : Prop := exists a b st l r ty, get path k = Ok a /\ get path (k + 1) = Ok b /\ portalPoints6 m a b = Ok (st, l, r, ty) /\ StatusFailed st = false.

Lemma addp_nonempty : forall l w, addp l w <> [].
Proof using.
  intros l [[p f] r]. unfold add_point. destruct l as [|x l]; [discriminate|]. destruct (last (x :: l) (p, f, r)) as [[p' f'] r']. destruct (approx p p'); intros E; apply app_eq_nil in E; destruct E; discriminate.
Qed.
Lemma adds_nonempty : forall ws l, l <> [] -> adds l ws <> [].
Proof using. induction ws as [|w ws IH]; intros l H; [exact H|]. cbn [add_points fold_left]. apply IH, addp_nonempty. Qed.
Lemma adds_app : forall l ws ws', adds l (ws ++ ws') = adds (adds l ws) ws'.
Proof using. intros. unfold add_points. apply fold_left_app. Qed.
Lemma adds_snoc : forall l ws w, adds l (ws ++ [w]) = addp (adds l ws) w.
Proof using. intros. rewrite adds_app. reflexivity. Qed.

(** A point that is not the end. *)
Lemma append_room : forall l b pos flag ref b' st, flag <> StraightPathEnd -> holds l b -> zlen l < len -> appendVertex approx pos flag ref b = Ok (b', st) ->
  holds (addp l (pos, flag, ref)) b' /\
  ((st = InProgress /\ zlen (addp l (pos, flag, ref)) < len) \/ (st = Z.lor Success BufferTooSmall /\ zlen (addp l (pos, flag, ref)) = len)).
Proof using.
  intros l b pos flag ref b' st NF HH R H. destruct (appendVertex_spec _ _ _ _ _ _ _ _ _ _ _ HH H) as [HH' C]. split; [exact HH'|].
  destruct C as [(l1 & p & f & r & -> & E & ->)|(E & _ & ->)]; rewrite E, zlen_snoc in *.
  - left. split; [reflexivity|]. lia.
  - destruct (Z.leb_spec len (zlen l + 1)); [right; split; [reflexivity|lia]|left].
    destruct (Z.eqb_spec flag StraightPathEnd); [contradiction|]. split; [reflexivity|lia].
Qed.

Lemma portals_spec : forall n i sp ep l b b' st k', holds l b -> zlen l < len -> (forall k, i <= k < i + Z.of_nat n -> good k) ->
  i <= k' -> i + Z.of_nat n - 1 <= k' -> portals_loop approx m n i sp ep path options b = Ok (b', st) ->
  exists ws, along m path i ws k' /\ holds (adds l ws) b' /\
  ((st = InProgress /\ zlen (adds l ws) < len) \/ (st = Z.lor Success BufferTooSmall /\ zlen (adds l ws) = len)).
Proof using.
  induction n as [|n IH]; intros i sp ep l b b' st k' HH R G K1 K2 H; cbn [portals_loop] in H.
  { apply Ok_inj in H. injection H as <- <-. exists []. split; [constructor; lia|]. cbn. auto. }
  destruct (G i) as (a & c & st0 & pl & pr & ty & Ea & Ec & E6 & NF); [lia|]. rewrite Ea in H. cbn [bind] in H.
  pose proof E6 as E6'. unfold portalPoints6 in E6. apply bind_ok in E6 as (o & Ela & E6). rewrite Ela in H. cbn [bind] in H. destruct o as [[t p]|].
  2:{ apply Ok_inj in E6. injection E6 as <- _ _ _. discriminate. }
  apply bind_ok in E6 as (o & Elc & E6). rewrite Ec in H. cbn [bind] in H. rewrite Elc in H. cbn [bind] in H. destruct o as [[t' p']|].
  2:{ apply Ok_inj in E6. injection E6 as <- _ _ _. discriminate. }
  apply bind_ok in E6 as ([[st' l'] r'] & E8 & E6). rewrite E8 in H. apply Ok_inj in E6. injection E6 as <- <- <- <-. cbn [bind] in H. rewrite NF in H.
  assert (NEXT : forall sp' l b, holds l b -> zlen l < len -> portals_loop approx m n (i + 1) sp' ep path options b = Ok (b', st) ->
    exists ws, along m path i ws k' /\ holds (adds l ws) b' /\
    ((st = InProgress /\ zlen (adds l ws) < len) \/ (st = Z.lor Success BufferTooSmall /\ zlen (adds l ws) = len))).
  { intros sp' l0 b0 HH0 R0' H0. destruct n as [|n'].
    - cbn [portals_loop] in H0. apply Ok_inj in H0. injection H0 as <- <-. exists []. split; [constructor; lia|]. cbn. auto.
    - eapply (IH (i + 1) sp' ep l0 b0 b' st k') in H0; try assumption; try lia; [|intros k Hk; apply G; lia].
      destruct H0 as (ws & A & X). exists ws. split; [|exact X]. eapply along_from; [|exact A]. lia. }
  destruct (negb _ && _); [eapply NEXT; eassumption|].
  destruct (IntersectSegSeg2D numF sp ep l' r') as [[hit s0] t0]. destruct hit; [|eapply NEXT; eassumption].
  apply bind_ok in H as ([b1 st1] & E1 & H). apply append_room with (l := l) in E1; try assumption; [|discriminate].
  assert (ON : on_portal m path i (vlerp numF l' r' t0, 0, c)) by (eapply on_crossing; [exact Ea|exact Ec|eapply portal6_spec; eassumption]).
  destruct E1 as [HH1 [[-> R1]|[-> R1]]].
  - change (negb (InProgress =? InProgress)) with false in H. cbv iota in H. destruct (NEXT _ _ _ HH1 R1 H) as (ws & A & X).
    exists ((vlerp numF l' r' t0, 0, c) :: ws). split; [econstructor; [|exact ON|exact A]; lia|exact X].
  - change (negb (Z.lor Success BufferTooSmall =? InProgress)) with true in H. cbv iota in H. apply Ok_inj in H. injection H as <- <-.
    exists [(vlerp numF l' r' t0, 0, c)]. split; [econstructor; [|exact ON|constructor]; lia|]. split; [exact HH1|]. right. auto.
Qed.
Lemma maybe_spec : forall i j ep l b b' st k', holds l b -> zlen l < len -> (forall k, i <= k < j -> good k) ->
  i <= k' -> j - 1 <= k' -> maybePortals approx m i j ep path options b = Ok (b', st) ->
  exists ws, along m path i ws k' /\ holds (adds l ws) b' /\
  ((st = InProgress /\ zlen (adds l ws) < len) \/ (st = Z.lor Success BufferTooSmall /\ zlen (adds l ws) = len)).
Proof using.
  intros i j ep l b b' st k' HH R G K1 K2 H. unfold maybePortals in H. destruct (crossings options).
  - unfold appendPortals in H. apply bind_ok in H as (sp & _ & H). apply (portals_spec _ i sp ep l b b' st k' HH R) in H; [exact H|intros k Hk; apply G; lia|lia|lia].
  - apply Ok_inj in H. injection H as <- <-. exists []. split; [constructor; lia|]. cbn. auto.
Qed.

Lemma good_valid : forall k, good k -> exists a b t p t' p', get path k = Ok a /\ get path (k + 1) = Ok b /\ valid_at m a t p /\ valid_at m b t' p'.
Proof using.
  intros k (a & b & st & l & r & ty & Ea & Eb & E & NF). apply portal6_spec in E; [|exact NF]. apply portal_valid in E. destruct E as [(t & p & Hp) (t' & p' & Hp' & _)].
  exists a, b, t, p, t', p'. auto.
Qed.
End Cross.

(** ** Bounds *)
Section Bounds.
Variable approx : fvec -> fvec -> bool.
Variable m : NavMesh.
Variables (P0 : list fvec) (F0 R0 : list Z).
Variables (path : list Z) (options : Z).
Notation len := (zlen P0).
Notation holds := (holds P0 F0 R0).
Notation good := (good m path).

Definition ret_ok (y : Ret) : Prop := let '(c, st, b) := y in exists l, holds l b /\ c = zlen l /\ 0 < c /\
  ((c < len /\ (st = Success \/ st = Z.lor Success PartialResult)) \/
   (c = len /\ (st = Z.lor Success BufferTooSmall \/ st = Z.lor (Z.lor Success PartialResult) BufferTooSmall))).
(** The buffers hold some points and have room for one more. *)
Definition room (b : Buf) : Prop := exists l, holds l b /\ l <> [] /\ zlen l < len.

Lemma zlen_pos : forall {A} (l : list A), l <> [] -> 0 < zlen l.
Proof using. clear. intros A [|x l] H; [congruence|]. unfold zlen. cbn [length]. lia. Qed.
Lemma maybe_room : forall i j ep b b' st, room b -> 0 <= i -> (forall k, i <= k < j -> good k) -> maybePortals approx m i j ep path options b = Ok (b', st) ->
  (st = InProgress /\ room b') \/ (st = Z.lor Success BufferTooSmall /\ ret_ok (bCount b', st, b') /\ exists l, holds l b' /\ l <> [] /\ zlen l = len).
Proof using.
  intros i j ep b b' st (l & HH & N & R) I G H. apply (maybe_spec approx m P0 F0 R0 path options i j ep l b b' st (Z.max i j) HH R G) in H; [|lia|lia].
  destruct H as (ws & _ & HH' & C). pose proof (adds_nonempty approx ws l N) as N'. destruct C as [[-> R']|[-> R']].
  - left. split; [reflexivity|]. exists (add_points approx l ws). auto.
  - right. split; [reflexivity|]. split; [|exists (add_points approx l ws); auto]. exists (add_points approx l ws). split; [exact HH'|]. rewrite (holds_count _ _ _ _ _ HH').
    split; [reflexivity|]. split; [apply zlen_pos; exact N'|]. right. auto.
Qed.
Lemma append_any : forall b pos flag ref b' st, room b -> appendVertex approx pos flag ref b = Ok (b', st) ->
  (st = InProgress /\ room b') \/ (st = Success /\ room b') \/ (st = Z.lor Success BufferTooSmall /\ ret_ok (bCount b', st, b') /\ exists l, holds l b' /\ l <> [] /\ zlen l = len).
Proof using.
  intros b pos flag ref b' st (l & HH & N & R) H. destruct (appendVertex_spec _ _ _ _ _ _ _ _ _ _ _ HH H) as [HH' C].
  pose proof (addp_nonempty approx l (pos, flag, ref)) as N'. destruct C as [(l1 & p & f & r & -> & E & ->)|(E & _ & ->)]; rewrite E in *; rewrite ?zlen_snoc in *.
  - left. split; [reflexivity|]. exists (l1 ++ [(p, flag, ref)]). split; [exact HH'|]. split; [exact N'|]. rewrite zlen_snoc. exact R.
  - assert (X : zlen l + 1 < len -> room b') by (intros L; exists (l ++ [(pos, flag, ref)]); split; [exact HH'|]; split; [exact N'|]; rewrite zlen_snoc; exact L).
    destruct (Z.leb_spec len (zlen l + 1)).
    + right. right. split; [reflexivity|]. split; [|exists (l ++ [(pos, flag, ref)]); rewrite zlen_snoc; split; [exact HH'|split; [exact N'|lia]]].
      exists (l ++ [(pos, flag, ref)]). split; [exact HH'|]. rewrite (holds_count _ _ _ _ _ HH'), zlen_snoc. split; [reflexivity|]. split; [unfold zlen; lia|]. right. split; [lia|auto].
    + destruct (flag =? StraightPathEnd); auto.
Qed.
Lemma room_ret : forall b st, room b -> st = Success \/ st = Z.lor Success PartialResult -> ret_ok (bCount b, st, b).
Proof using. intros b st (l & HH & N & R) E. exists l. rewrite (holds_count _ _ _ _ _ HH). split; [exact HH|]. split; [reflexivity|]. split; [apply zlen_pos; exact N|]. left. auto. Qed.

Lemma restart_bounds : forall F v idx ref ty b x, room b -> 0 <= fApexIdx F -> (forall k, fApexIdx F <= k < idx -> good k) ->
  restart approx m F v idx ref ty path options b = Ok x ->
  match x with inl y => ret_ok y | inr (F', b') => F' = reset F v idx /\ room b' end.
Proof using.
  intros F v idx ref ty b x HR I G H. unfold restart in H. apply bind_ok in H as ([b1 st1] & E1 & H). apply maybe_room in E1; try assumption.
  destruct E1 as [[-> HR1]|[-> [HR1 _]]].
  2:{ change (negb (Z.lor Success BufferTooSmall =? InProgress)) with true in H. cbv iota in H. apply Ok_inj in H. subst x. exact HR1. }
  change (negb (InProgress =? InProgress)) with false in H. cbv iota zeta in H. apply bind_ok in H as ([b2 st2] & E2 & H). apply append_any in E2; [|exact HR1].
  destruct E2 as [[-> HR2]|[[-> HR2]|[-> [HR2 _]]]].
  - change (negb (InProgress =? InProgress)) with false in H. cbv iota in H. apply Ok_inj in H. subst x. auto.
  - change (negb (Success =? InProgress)) with true in H. cbv iota in H. apply Ok_inj in H. subst x. apply room_ret; auto.
  - change (negb (Z.lor Success BufferTooSmall =? InProgress)) with true in H. cbv iota in H. apply Ok_inj in H. subst x. exact HR2.
Qed.

Definition Inv (i : Z) (F : Funnel) (b : Buf) : Prop := 0 <= i /\ 0 <= fApexIdx F /\ 0 <= fLeftIdx F <= i /\ 0 <= fRightIdx F <= i /\
  (forall k, 0 <= k < i -> k + 1 < zlen path -> good k) /\ room b.

Lemma step_bounds : forall F l r ty i b x, i < zlen path -> (i + 1 < zlen path -> good i) -> Inv i F b -> funnel_step approx m F l r ty i path options b = Ok x ->
  match x with inl y => ret_ok y | inr (i', F', b') => Inv i' F' b' end.
Proof using.
  intros F l r ty i b x In Gi HI H. unfold funnel_step in H.
  assert (GO : forall F v idx ref ty, Inv i F b -> 0 <= idx <= i ->
    restart_at approx m F v idx ref ty path options b = Ok x ->
    match x with inl y => ret_ok y | inr (i', F', b') => Inv i' F' b' end).
  { intros F1 v idx ref ty1 (I0 & IA & IL & IR & G & HR) Hi H1. unfold restart_at in H1. apply bind_ok in H1 as (z & E & H1). apply restart_bounds in E; [|exact HR|exact IA|intros k Hk; apply G; lia].
    destruct z as [y|[F' b']].
    - apply Ok_inj in H1. subst x. exact E.
    - destruct E as [-> HR']. apply Ok_inj in H1. subst x. unfold Inv, reset. cbn. repeat split; try lia; [|exact HR'].
      intros k Hk Hn. destruct (Z.eq_dec k i) as [->|N]; [apply Gi; exact Hn|apply G; lia]. }
  assert (NX : forall F, Inv i F b -> Inv (i + 1) F b).
  { intros F1 (I0 & IA & IL & IR & G & HR). unfold Inv. repeat split; try lia; [|exact HR]. intros k Hk Hn. destruct (Z.eq_dec k i) as [->|N]; [apply Gi; exact Hn|apply G; lia]. }
  assert (LEFT : forall F, Inv i F b -> left_step approx m F l ty i path options b = Ok x -> match x with inl y => ret_ok y | inr (i', F', b') => Inv i' F' b' end).
  { clear H. intros F1 HI1 H1. unfold left_step in H1. destruct (fge _ _); [|apply Ok_inj in H1; subst x; apply NX; exact HI1].
    destruct (approx _ _ || _).
    - apply bind_ok in H1 as (ref & _ & H1). apply Ok_inj in H1. subst x. pose proof (proj1 HI1). apply NX in HI1. destruct HI1 as (I0 & IA & IL & IR & G & HR). unfold Inv, set_left. cbn [fApexIdx fLeftIdx fRightIdx]. split; [lia|]. split; [lia|]. split; [lia|]. split; [lia|]. split; assumption.
    - eapply GO; [exact HI1| |exact H1]. destruct HI1 as (I0 & IA & IL & IR & G & HR). lia. }
  destruct (fle _ _).
  - destruct (approx _ _ || _).
    + apply bind_ok in H as (ref & _ & H). apply LEFT in H; [exact H|]. destruct HI as (I0 & IA & IL & IR & G & HR). unfold Inv, set_right. cbn [fApexIdx fLeftIdx fRightIdx]. split; [lia|]. split; [lia|]. split; [lia|]. split; [lia|]. split; assumption.
    + eapply GO; [exact HI| |exact H]. destruct HI as (I0 & IA & IL & IR & G & HR). lia.
  - apply LEFT in H; [exact H|exact HI].
Qed.

Lemma boundary_ok : forall r t p pos z st c, valid_at m r t p -> ClosestPointOnPolyBoundary m r pos z = Ok (st, c) -> StatusFailed st = false.
Proof using.
  intros r t p pos z st c HV H. unfold ClosestPointOnPolyBoundary in H. rewrite (valid_lookup _ _ _ _ HV) in H. cbn [bind] in H. apply bind_ok in H as (vs & _ & H).
  destruct (distancePtPolyEdgesSqr numF pos vs) as [ins ds]. destruct ins; [apply Ok_inj in H; injection H as <- _; reflexivity|].
  apply bind_ok in H as ([im e] & _ & H). apply bind_ok in H as (va & _ & H). apply bind_ok in H as (vb & _ & H). apply Ok_inj in H. injection H as <- _. reflexivity.
Qed.

Lemma clamp_bounds : forall F ep ce i b y, Inv i F b -> i + 1 < zlen path -> (exists r t p, get path i = Ok r /\ valid_at m r t p) ->
  clamp_end approx m F ep ce i path options b = Ok y -> ret_ok y.
Proof using.
  intros F ep ce i b y (I0 & IA & IL & IR & G & HR) In (r & t & p & Er & HV) H. unfold clamp_end in H. rewrite Er in H. cbn [bind] in H.
  apply bind_ok in H as ([st c] & Ec & H). rewrite (boundary_ok _ _ _ _ _ _ _ HV Ec) in H.
  apply bind_ok in H as ([b1 st1] & E1 & H). apply maybe_room in E1; [|exact HR|exact IA|intros k Hk; apply G; lia].
  apply bind_ok in H as ([b2 st2] & E2 & H). apply Ok_inj in H. subst y.
  assert (X : room b2 \/ exists l, holds l b2 /\ l <> [] /\ zlen l = len).
  { destruct E1 as [[_ HR1]|(_ & _ & l & HH & N & EL)].
    - apply append_any in E2; [|exact HR1]. destruct E2 as [[_ HR2]|[[_ HR2]|(_ & _ & E2)]]; auto.
    - right. destruct (appendVertex_spec _ _ _ _ _ _ _ _ _ _ _ HH E2) as [HH' C]. eexists. split; [exact HH'|]. split; [apply addp_nonempty|].
      destruct C as [(l1 & p1 & f1 & r1 & -> & E & _)|(E & L & _)]; [|lia]. rewrite E. rewrite zlen_snoc in *. exact EL. }
  destruct X as [HR2|(l & HH & N & EL)].
  - pose proof HR2 as (l & HH & N & R). rewrite (holds_len _ _ _ _ _ HH), (holds_count _ _ _ _ _ HH). destruct (Z.leb_spec len (zlen l)); [lia|].
    pose proof (room_ret b2 (Z.lor Success PartialResult) HR2) as X. rewrite (holds_count _ _ _ _ _ HH) in X. auto.
  - rewrite (holds_len _ _ _ _ _ HH), (holds_count _ _ _ _ _ HH). destruct (Z.leb_spec len (zlen l)); [|lia]. exists l. split; [exact HH|]. split; [reflexivity|]. split; [apply zlen_pos; exact N|]. right. auto.
Qed.

Lemma loop_bounds : forall ep ce fuel i F b x, (exists r t p, get path 0 = Ok r /\ valid_at m r t p) -> Inv i F b -> funnel_loop approx m fuel ep ce path options i F b = Ok x ->
  match x with inl y => ret_ok y | inr (F', b') => exists i', zlen path <= i' /\ Inv i' F' b' end.
Proof using.
  intros ep ce. induction fuel as [|f IH]; intros i F b x HS HI H; cbn [funnel_loop] in H.
  { destruct (Z.leb_spec (zlen path) i); [|discriminate]. apply Ok_inj in H. subst x. eauto. }
  destruct (Z.leb_spec (zlen path) i); [apply Ok_inj in H; subst x; eauto|].
  assert (STEP : forall l r ty, (i + 1 < zlen path -> good i) ->
    (let* x := funnel_step approx m F l r ty i path options b in match x with inl y => Ok (inl y) | inr (i, F, b) => funnel_loop approx m f ep ce path options i F b end) = Ok x ->
    match x with inl y => ret_ok y | inr (F', b') => exists i', zlen path <= i' /\ Inv i' F' b' end).
  { intros l r ty Gi H1. apply bind_ok in H1 as (z & E & H1). apply step_bounds in E; try assumption; try lia. destruct z as [y|[[i' F'] b']]; [apply Ok_inj in H1; subst x; exact E|].
    eapply IH; eassumption. }
  destruct (Z.ltb_spec (i + 1) (zlen path)) as [L|L].
  - apply bind_ok in H as (from & Ef & H). apply bind_ok in H as (to & Et & H). apply bind_ok in H as ([[[st l] r] ty] & E6 & H).
    destruct (StatusFailed st) eqn:SF.
    + apply bind_ok in H as (y & Ey & H). apply Ok_inj in H. subst x. eapply clamp_bounds; [exact HI|exact L| |exact Ey].
      destruct HI as (I0 & IA & IL & IR & G & HR). destruct (Z.eq_dec i 0) as [->|N]; [exact HS|].
      destruct (good_valid _ _ _ (G (i - 1) ltac:(lia) ltac:(lia))) as (a & b' & t & p & t' & p' & _ & E & _ & HV). replace (i - 1 + 1) with i in E by lia. eauto.
    + assert (Gi : good i) by (exists from, to, st, l, r, ty; auto).
      destruct (_ && _).
      * eapply IH; [exact HS| |exact H]. destruct HI as (I0 & IA & IL & IR & G & HR). unfold Inv. repeat split; try lia; [|exact HR].
        intros k Hk Hn. destruct (Z.eq_dec k i) as [->|N]; [exact Gi|apply G; lia].
      * eapply STEP; [|exact H]. auto.
  - eapply STEP; [|exact H]. lia.
Qed.

Lemma finish_bounds : forall ce b y, room b -> finish approx ce b = Ok y -> ret_ok y.
Proof using.
  intros ce b y HR H. unfold finish in H. apply bind_ok in H as ([b2 st2] & E2 & H). apply Ok_inj in H. subst y. apply append_any in E2; [|exact HR].
  assert (X : room b2 \/ exists l, holds l b2 /\ l <> [] /\ zlen l = len) by (destruct E2 as [[_ HR2]|[[_ HR2]|(_ & _ & E2)]]; auto).
  destruct X as [HR2|(l & HH & N & EL)].
  - pose proof HR2 as (l & HH & N & R). rewrite (holds_len _ _ _ _ _ HH), (holds_count _ _ _ _ _ HH). destruct (Z.leb_spec len (zlen l)); [lia|].
    pose proof (room_ret b2 Success HR2) as X. rewrite (holds_count _ _ _ _ _ HH) in X. auto.
  - rewrite (holds_len _ _ _ _ _ HH), (holds_count _ _ _ _ _ HH). destruct (Z.leb_spec len (zlen l)); [|lia]. exists l. split; [exact HH|]. split; [reflexivity|]. split; [apply zlen_pos; exact N|]. right. auto.
Qed.

Lemma boundary_invalid : forall r pos z st c, ClosestPointOnPolyBoundary m r pos z = Ok (st, c) -> StatusFailed st = true <-> IsValidPolyRef m r = Ok false.
Proof using.
  intros r pos z st c H. pose proof H as H0. unfold ClosestPointOnPolyBoundary in H0. apply bind_ok in H0 as (o & E & H0). apply lookup_spec in E. destruct o as [[t p]|].
  - rewrite (boundary_ok _ _ _ _ _ _ _ E H). destruct E as [E _]. rewrite E. split; congruence.
  - apply Ok_inj in H0. injection H0 as <- _. split; [intros _; exact E|reflexivity].
Qed.

Definition rejected : Prop := P0 = [] \/ path = [] \/ (exists r, get path 0 = Ok r /\ IsValidPolyRef m r = Ok false) \/ (exists r, get path (zlen path - 1) = Ok r /\ IsValidPolyRef m r = Ok false).

Lemma straight_bounds : forall fuel sp ep c st b, FindStraightPath approx m fuel sp ep path P0 F0 R0 options = Ok (c, st, b) ->
  (rejected /\ c = 0 /\ st = Z.lor Failure InvalidParam /\ b = mkBuf P0 F0 R0 0) \/ (~ rejected /\ ret_ok (c, st, b)).
Proof using.
  intros fuel sp ep c st b H. unfold FindStraightPath in H. cbv zeta in H. destruct (Z.eqb_spec (zlen P0) 0) as [Z0|N0].
  { apply Ok_inj in H. injection H as <- <- <-. left. split; [|auto]. left. destruct P0; [reflexivity|discriminate]. }
  destruct (Z.eqb_spec (zlen path) 0) as [Zp|Np].
  { apply Ok_inj in H. injection H as <- <- <-. left. split; [|auto]. right. left. destruct path; [reflexivity|discriminate]. }
  apply bind_ok in H as (first & Ef & H). apply bind_ok in H as ([st1 cs] & E1 & H). pose proof (boundary_invalid _ _ _ _ _ E1) as B1. destruct (StatusFailed st1).
  { apply Ok_inj in H. injection H as <- <- <-. left. split; [|auto]. right. right. left. exists first. split; [exact Ef|]. apply B1. reflexivity. }
  apply bind_ok in H as (final & El & H). apply bind_ok in H as ([st2 ce] & E2 & H). pose proof (boundary_invalid _ _ _ _ _ E2) as B2. destruct (StatusFailed st2).
  { apply Ok_inj in H. injection H as <- <- <-. left. split; [|auto]. right. right. right. exists final. split; [exact El|]. apply B2. reflexivity. }
  right. split.
  { intros [->|[->|[(r & E & HV)|(r & E & HV)]]]; [now apply N0|now apply Np| |].
    - rewrite Ef in E. apply Ok_inj in E. subst r. apply B1 in HV. discriminate.
    - rewrite El in E. apply Ok_inj in E. subst r. apply B2 in HV. discriminate. }
  assert (VF : exists r t p, get path 0 = Ok r /\ valid_at m r t p).
  { unfold ClosestPointOnPolyBoundary in E1. apply bind_ok in E1 as (o & Eo & E1). apply lookup_spec in Eo. destruct o as [[t p]|]; [eauto|]. apply B1 in Eo. discriminate. }
  apply bind_ok in H as ([b1 st3] & E3 & H).
  assert (HH0 : holds [] (mkBuf P0 F0 R0 0)).
  { unfold StraightSpec.holds. cbn. split; [split; reflexivity|]. split; [right; split; reflexivity|]. split; [right; split; reflexivity|reflexivity]. }
  apply append_room with (P0 := P0) (F0 := F0) (R0 := R0) (l := []) in E3; [|discriminate|exact HH0|unfold zlen in *; cbn [length]; lia].
  destruct E3 as [HH1 [[-> R1]|[-> R1]]].
  2:{ change (negb (Z.lor Success BufferTooSmall =? InProgress)) with true in H. cbv iota in H. apply Ok_inj in H. injection H as <- <- <-. eexists. split; [exact HH1|].
      rewrite (holds_count _ _ _ _ _ HH1). split; [reflexivity|]. split; [reflexivity|]. right. auto. }
  change (negb (InProgress =? InProgress)) with false in H. cbv iota in H.
  assert (HR : room b1) by (eexists; split; [exact HH1|]; split; [discriminate|exact R1]).
  destruct (Z.ltb_spec 1 (zlen path)) as [L|L]; [|eapply finish_bounds; eassumption].
  apply bind_ok in H as (x & Ex & H). apply loop_bounds in Ex; [|exact VF|].
  2:{ unfold Inv. cbn. repeat split; try lia; exact HR. }
  destruct x as [y|[F b2]]; [apply Ok_inj in H; subst y; exact Ex|]. destruct Ex as (i' & Li & I0 & IA & IL & IR & G & HR2).
  apply bind_ok in H as ([b3 st4] & E4 & H). apply maybe_room in E4; [|exact HR2|exact IA|intros k Hk; apply G; lia]. destruct E4 as [[-> HR3]|[-> [HR3 _]]].
  - change (negb (InProgress =? InProgress)) with false in H. cbv iota in H. eapply finish_bounds; [exact HR3|exact H].
  - change (negb (Z.lor Success BufferTooSmall =? InProgress)) with true in H. cbv iota in H. apply Ok_inj in H. injection H as <- <- <-. exact HR3.
Qed.
End Bounds.
