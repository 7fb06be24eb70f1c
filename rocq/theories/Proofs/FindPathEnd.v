(** FindPath returns: the whole call, and the meshes and filters for which it does. *)
From Coq Require Import ZArith List Lia Bool.
From Coq Require Import Floats.SpecFloat.
From Verif.Base Require Import Res GoNum F32 Num Grid.
From Verif.Model Require Import Status Poly PolyRef MeshTypes Geom MeshLinks MeshTiles Node NodeQueue FindPath.
From Verif.Spec Require Import LinkSpec PathSpec MeshSpec.
From Verif.Proofs Require Import NodePoolProofs NodeQueueProofs OpenList LinkProofs FloatAdd FloatMag SearchStep SearchInv FindPathProofs SearchEnd
  MeshStep TableProofs SlotProofs LinkTile MeshInv LinkValid FitProofs MeshHist.
Import ListNotations.
Open Scope Z_scope.

(** ** Fuel *)
Lemma search_loop_more : forall m flt endRef endPos f g s r, (f <= g)%nat ->
  search_loop f m flt endRef endPos s = r -> r <> NoFuel -> search_loop g m flt endRef endPos s = r.
Proof.
  intros m flt endRef endPos. induction f as [|f IH]; intros g s r L E N.
  - cbn [search_loop] in E. destruct g; cbn [search_loop]; destruct (q_empty (sOpen s)); congruence.
  - destruct g as [|g]; [lia|]. cbn [search_loop] in *. destruct (q_empty (sOpen s)); [exact E|].
    destruct (pop_best s) as [[s1 b]| | |]; cbn [bind] in *; auto. destruct (get (np_nodes (sPool s1)) b) as [best| | |]; cbn [bind] in *; auto.
    destruct (nID best =? endRef); auto. destruct (expand m flt endRef endPos s1 b) as [s2| | |]; cbn [bind] in *; auto. apply IH; auto. lia.
Qed.
Lemma FindPath_more : forall f g m np q flt a b pa pb path r, (f <= g)%nat ->
  FindPath f m np q flt a b pa pb path = r -> r <> NoFuel -> FindPath g m np q flt a b pa pb path = r.
Proof.
  intros f g m np q flt a b pa pb path r L E N. unfold FindPath in *.
  destruct (IsValidPolyRef m a) as [vs| | |]; cbn [bind] in *; auto.
  destruct (if vs then IsValidPolyRef m b else Ok false) as [ve| | |]; cbn [bind] in *; auto.
  destruct (negb vs || negb ve || (zlen path =? 0)); auto. destruct (a =? b); auto.
  destruct (start_search np q a pa pb) as [s| | |]; cbn [bind] in *; auto.
  destruct (search_loop f m flt b pb s) as [s'| | |] eqn:E1; cbn [bind] in *; try (subst r; contradiction);
    rewrite (search_loop_more _ _ _ _ f g s _ L E1) by discriminate; cbn [bind]; auto.
Qed.

(** ** Floats of the specification *)
Lemma finite32_fin : forall a, finite32 a <-> fin a.
Proof.
  intros a. pose proof OVER_INF as O. unfold finite32, fin, num. destruct a as [s|s| |s m e]; cbn [valid_binary fabs SFabs nn V].
  - split; intros _; (split; [auto|]); [lia|exact I].
  - split; intros [H1 H2]; [contradiction|lia].
  - split; intros [H1 H2]; contradiction.
  - split; intros [H _]; (split; [exact H|]); [pose proof (V_finite _ _ H); lia|exact I].
Qed.
Lemma fpos_finite : forall v, finite_pos v <-> fpos v.
Proof. intros [[x y] z]. unfold finite_pos, fpos. cbn [fst snd]. now rewrite !finite32_fin. Qed.
Lemma nonneg32_nn : forall a, nonneg32 a <-> nn a.
Proof.
  intros a. unfold nonneg32. destruct a as [s|s| |s m e]; cbn [valid_binary nn].
  - split; intros _; [exact I|]. split; reflexivity.
  - split; [intros [_ H]|intros H]; destruct s; try contradiction; try discriminate; [exact I|]. split; reflexivity.
  - split; [intros [_ H]; discriminate H|intros []].
  - split; [intros [H1 H2]|intros H]; destruct s; try contradiction; try discriminate; [exact H1|]. split; [exact H|reflexivity].
Qed.

Lemma valid_no_NoFuel : forall m r, IsValidPolyRef m r <> NoFuel.
Proof.
  intros m r. unfold IsValidPolyRef. destruct (r =? 0); [discriminate|]. destruct (DecodePolyID (mBits m) r) as [[s it] ip].
  destruct (_ <=? _); [discriminate|]. unfold get. destruct (it <? 0); [discriminate|]. destruct (nth_error _ _) as [t|]; cbn [of_option bind]; [|discriminate].
  destruct (tHeader t) as [h|]; [|discriminate]. destruct (negb _); [discriminate|]. destruct (_ <=? _); discriminate.
Qed.

Section Whole.
Variables (m : NavMesh) (flt : QueryFilter) (startRef endRef : Z) (endPos : fvec) (Bad : Prop) (G : Z -> Prop).
Hypothesis HG_poly : forall r, G r -> Bad \/ exists t p, polygon_at m r t p.
Hypothesis HG_links : forall r t p, G r -> polygon_at m r t p ->
  exists c, LChain (tdLinks (tD t)) (pFirstLink p) c /\
    forall l, In l (at_slots (tdLinks (tD t)) c) -> lRef l <> 0 -> G (lRef l) /\
      forall t' p' old, polygon_at m (lRef l) t' p' -> fpos old ->
        fine Bad (edgeMidPoint r p t (lRef l) p' t' old) (fun x => fpos (snd x)).
Hypothesis H_cost : forall pa pb prev r t p next, fpos pa -> fpos pb -> G r -> polygon_at m r t p ->
  fine Bad (qCost flt pa pb prev (r, Some (t, p)) next) nn.
Hypothesis H_end : fpos endPos.

Lemma start_end : forall np q startPos s, QOk np q -> G startRef -> startRef <> endRef -> fpos startPos ->
  (forall n, In n (np_nodes np) -> fpos (nPos n)) -> start_search np q startRef startPos endPos = Ok s ->
  SInv m flt startRef endRef None s /\ TInv endRef endPos G s.
Proof.
  intros np q startPos s HQ Hs Ne Hp Hf E. pose proof (start_spec m flt np q startRef endRef startPos endPos HQ) as SS.
  destruct (np_maxNodes np =? 0); [congruence|]. destruct SS as (s' & E' & HI & Hc & H0 & Ho & _). rewrite E in E'. apply Ok_inj in E'. subst s'.
  split; [exact HI|]. set (sn := start_node startRef startPos endPos) in *.
  assert (U : forall k n, node_at (sPool s) k n -> k = O /\ n = sn).
  { intros k n Hn. pose proof Hn as [Hk _]. assert (k = O) by (rewrite Hc in Hk; lia). subst k. split; [reflexivity|]. exact (node_at_det _ _ _ _ Hn H0). }
  assert (NV : nn (vdist startPos endPos)) by (apply vdist_nn; auto). pose proof (fmul_HScale _ NV) as NH.
  constructor.
  - intros k n Hn. destruct (U k n Hn) as [_ ->]. unfold good, hh. cbn [sn start_node nCost nTotal nPos nID].
    destruct (Z.eqb_spec startRef endRef); [contradiction|]. split; [exact I|]. split; [exact NH|]. split; [exact Hp|]. split; [|exact Hs].
    destruct (fadd_V f0 _ I NH) as [_ ->]. cbn [V f0]. rewrite Z.add_0_l. symmetry. now apply cap_rn_V.
  - intros k n j nj Hn Hj. destruct (U k n Hn) as [_ ->]. cbn [sn start_node nPIdx] in Hj. lia.
  - intros k n Hn. destruct (U k n Hn) as [-> ->]. exists [O]. econstructor; [exact H0|reflexivity].
  - intros k n Hn. destruct (Nat.eq_dec k 0) as [->|Nk].
    + destruct H0 as [_ H0]. assert (n = sn) by congruence. subst n. exact Hp.
    + rewrite Ho in Hn by assumption. apply Hf. eapply nth_error_In; exact Hn.
Qed.

Lemma FindPath_fine : forall np q startPos path, QOk np q -> 0 < np_maxNodes np ->
  (forall n, In n (np_nodes np) -> fpos (nPos n)) -> fpos startPos ->
  (Bad \/ exists v, IsValidPolyRef m startRef = Ok v) -> (Bad \/ exists v, IsValidPolyRef m endRef = Ok v) ->
  (IsValidPolyRef m startRef = Ok true -> G startRef) ->
  exists n0, fine Bad (FindPath n0 m np q flt startRef endRef startPos endPos path)
    (fun x => let '(np', _, _, _, _) := x in forall n, In n (np_nodes np') -> fpos (nPos n)).
Proof.
  intros np q startPos path HQ Hm Hf Hp V1 V2 HV.
  assert (P : forall r, (Bad \/ exists v, IsValidPolyRef m r = Ok v) -> fine Bad (IsValidPolyRef m r) (fun _ => True)).
  { intros r Hr. pose proof (valid_no_NoFuel m r). destruct (IsValidPolyRef m r) as [v| | |]; cbn; try tauto; destruct Hr as [B|[v' X]]; auto; discriminate. }
  destruct (start_search np q startRef startPos endPos) as [s| | |] eqn:Es.
  2-4: exfalso; pose proof (start_spec m flt np q startRef endRef startPos endPos HQ) as SS; destruct (Z.eqb_spec (np_maxNodes np) 0); [lia|]; destruct SS as (s & E & _); congruence.
  exists (Z.to_nat (mu s + 1)). unfold FindPath. eapply fine_bind; [exact (P _ V1)|]. intros vs E1 _.
  eapply fine_bind; [instantiate (1 := fun _ => True); destruct vs; [exact (P _ V2)|exact I]|]. intros ve E2 _.
  destruct (negb vs || negb ve || (zlen path =? 0)) eqn:Gd; [exact Hf|].
  destruct vs; [|discriminate]. destruct ve; [|discriminate]. cbn in Gd. apply Z.eqb_neq in Gd.
  assert (Np : path <> []) by (intros ->; apply Gd; reflexivity).
  destruct (Z.eqb_spec startRef endRef) as [Eq|Ne].
  { destruct path as [|p0 path]; [congruence|]. cbn. exact Hf. }
  rewrite Es. cbn [bind]. destruct (start_end np q startPos s HQ (HV E1) Ne Hp Hf Es) as [HI HT].
  assert (M0 : 0 <= mu s). { pose proof (W_nonneg endRef endPos G s HT (so_pool _ _ (si_ok _ _ _ _ _ _ HI))). unfold mu. lia. }
  eapply fine_bind; [apply (loop_end m flt startRef endRef endPos Bad G HG_poly HG_links H_cost H_end _ s HI HT); lia|]. intros s' El HT'.
  assert (HX : exists x, SInv m flt startRef endRef x s' /\ exists kb nb, sBest s' = Z.of_nat kb /\ node_at (sPool s') kb nb).
  { destruct (search_inv _ _ _ _ _ _ _ _ HI El) as [(kb & nb & HI' & Eb & Hb & _)|[HI' _]].
    - exists (Some kb). split; [exact HI'|]. eauto.
    - exists None. split; [exact HI'|]. apply (si_best _ _ _ _ _ _ HI'). }
  destruct HX as (x & HI' & kb & nb & Eb & Hb). rewrite Eb.
  destruct (path_end m flt startRef endRef endPos G x s' kb nb path HI' HT' Hb Np) as ([[p1 c1] st1] & Ep). rewrite Ep. cbn [bind].
  rewrite (node_at_get _ _ _ Hb). cbn [bind fine].
  intros n Hn. apply In_nth_error in Hn. destruct Hn as [k Hk]. exact (t_pos _ _ _ s' HT' k n Hk).
Qed.
End Whole.

(** ** Portals have finite coordinates *)
Lemma f_of_bits_num : forall b, f_of_bits b = S754_nan \/ num (f_of_bits b).
Proof.
  intros b. unfold f_of_bits. pose proof (Z.mod_pos_bound (b / 8388608) 256 ltac:(lia)) as He. pose proof (Z.mod_pos_bound b 8388608 ltac:(lia)) as Hm.
  set (e := b / 8388608 mod 256) in *. set (mm := b mod 8388608) in *. set (s := 2147483648 <=? b). clearbody e mm s.
  assert (B : forall p ex, -149 <= ex <= 104 -> Zpos p < 2 ^ 24 -> (2 ^ 23 <= Zpos p \/ ex = -149) -> bounded fprec femax p ex = true).
  { intros p ex H1 H2 H3. unfold bounded, canonical_mantissa. rewrite fexp_eq, digits_log2. apply andb_true_iff. split; [|apply Z.leb_le; change (femax - fprec) with 104; lia].
    apply Zeq_is_eq_bool. assert (Z.log2 (Zpos p) < 24) by (apply Z.log2_lt_pow2; lia).
    destruct H3 as [H3|H3]; [assert (23 <= Z.log2 (Zpos p)) by (apply Z.log2_le_pow2; lia); lia|]. pose proof (Z.log2_nonneg (Zpos p)). lia. }
  destruct (Z.eqb_spec e 255); [destruct (mm =? 0); [right; exact I|now left]|].
  destruct (Z.eqb_spec e 0).
  - right. destruct mm as [|p|p]; try exact I. cbn [num fabs SFabs nn]. apply B; lia.
  - destruct (mm + 8388608) as [|p|p] eqn:E; [now left| |now left]. right. cbn [num fabs SFabs nn]. apply B; lia.
Qed.
Lemma big_nn : nn (f_of_Z (2 ^ 100)) /\ V (f_of_Z (2 ^ 100)) = 2 ^ 249.
Proof. split; [|vm_compute; reflexivity]. vm_compute. reflexivity. Qed.
Lemma small_mag : forall b, fle (fabs (f_of_bits b)) (f_of_Z (2 ^ 100)) = true -> mag 249 (f_of_bits b).
Proof.
  intros b H. destruct (f_of_bits_num b) as [E|N]; [rewrite E in H; discriminate|]. split; [exact N|]. destruct big_nn as [B1 B2].
  rewrite fle_V in H by assumption. rewrite B2 in H. apply Z.leb_le in H. replace (V (f_of_bits b)) with (V (fabs (f_of_bits b))) by (destruct (f_of_bits b); reflexivity). exact H.
Qed.
Definition vmag (k : Z) (v : fvec) : Prop := mag k (fst (fst v)) /\ mag k (snd (fst v)) /\ mag k (snd v).
Lemma vmag_fpos : forall k v, k < 300 -> vmag k v -> fpos v.
Proof. intros k v Hk (A & B & C). split; [|split]; eapply mag_fin; eauto. Qed.
Lemma vmag_le : forall k j v, k <= j -> vmag k v -> vmag j v.
Proof. intros k j v Hk (A & B & C). split; [|split]; eapply mag_le; eauto. Qed.
Lemma vec3_mag : forall vs off v, Forall (fun b => fle (fabs (f_of_bits b)) (f_of_Z (2 ^ 100)) = true) vs -> vec3_at vs off = Ok v -> vmag 249 v.
Proof.
  intros vs off v H E. unfold vec3_at in E. apply bind_ok in E as (a & Ea & E). apply bind_ok in E as (b & Eb & E). apply bind_ok in E as (c & Ec & E). apply Ok_inj in E. subst v.
  rewrite Forall_forall in H. apply get_ok in Ea, Eb, Ec. split; [|split]; cbn [fst snd]; apply small_mag, H; eapply nth_error_In; [apply Ea|apply Eb|apply Ec].
Qed.
Lemma vert16_mag : forall vs n v, Forall (fun b => fle (fabs (f_of_bits b)) (f_of_Z (2 ^ 100)) = true) vs -> vert16 vs n = Ok v -> vmag 249 v.
Proof. intros vs n v H E. unfold vert16 in E. destruct (_ <? _); [discriminate|]. eapply vec3_mag; eauto. Qed.
Lemma byte_mag : forall b, is_u8 b -> mag 157 (f_of_Z b).
Proof.
  intros b Hb. unfold is_u8 in Hb. destruct (normalize_V b 0 ltac:(lia)) as [N E]. split; [exact N|]. unfold f_of_Z. rewrite E. rewrite Z.abs_eq by lia.
  apply cap_rn_pow; [|lia]. split; [lia|]. change (0 + 149) with 149. change 157 with (8 + 149). rewrite Z.pow_add_r by lia. apply Z.mul_le_mono_nonneg_r; lia.
Qed.
Lemma ratio_mag : mag 149 (f_ratio 1 255) /\ mag 149 (f_ratio 1 2).
Proof. split; (split; [vm_compute; reflexivity|vm_compute; discriminate]). Qed.
Lemma lerp_mag : forall x y b, mag 249 x -> mag 249 y -> is_u8 b -> mag 259 (fadd x (fmul (fsub y x) (fmul (f_of_Z b) (f_ratio 1 255)))).
Proof.
  intros x y b Hx Hy Hb. pose proof (fsub_mag 249 y x ltac:(lia) Hy Hx) as S.
  pose proof (fmul_mag 157 149 _ _ ltac:(lia) ltac:(lia) ltac:(lia) ltac:(lia) ltac:(lia) (byte_mag b Hb) (proj1 ratio_mag)) as T. change (Z.max (157 + 149 - 149) 0) with 157 in T.
  pose proof (fmul_mag (249 + 1) 157 _ _ ltac:(lia) ltac:(lia) ltac:(lia) ltac:(lia) ltac:(lia) S T) as P. change (Z.max (249 + 1 + 157 - 149) 0) with 258 in P.
  apply (fadd_mag 258); [lia|eapply mag_le; [|exact Hx]; lia|exact P].
Qed.
Lemma vlerp_mag : forall a b t, vmag 249 a -> vmag 249 b -> is_u8 t -> vmag 259 (vlerp numF a b (fmul (f_of_Z t) (f_ratio 1 255))).
Proof. intros [[ax ay] az] [[bx by_] bz] t (A1 & A2 & A3) (B1 & B2 & B3) Ht. cbn [fst snd] in *. split; [|split]; apply lerp_mag; assumption. Qed.
Lemma mid_mag : forall x y, mag 259 x -> mag 259 y -> fin (fmul (fadd x y) (f_ratio 1 2)).
Proof.
  intros x y Hx Hy. pose proof (fadd_mag 259 x y ltac:(lia) Hx Hy) as S.
  pose proof (fmul_mag (259 + 1) 149 _ _ ltac:(lia) ltac:(lia) ltac:(lia) ltac:(lia) ltac:(lia) S (proj2 ratio_mag)) as P. eapply mag_fin; [|exact P]. lia.
Qed.

Lemma find_link_chain : forall L to i c, LChain L i c -> forall fuel, (length c < fuel)%nat ->
  exists o, find_link fuel L to i = Ok o /\ forall l, o = Some l -> In l (at_slots L c) /\ lRef l = to.
Proof.
  intros L to i c H. unfold LChain in H. remember nullLink as e eqn:E. induction H as [i|i l c e Hs Hg H IH]; intros fuel Hf; subst.
  - exists None. destruct fuel; [cbn in Hf; lia|]. cbn [find_link]. rewrite Z.eqb_refl. split; [reflexivity|discriminate].
  - destruct fuel as [|f]; [cbn in Hf; lia|]. cbn [find_link]. rewrite (proj2 (Z.eqb_neq _ _) Hs), Hg. cbn [bind].
    destruct (Z.eqb_spec (lRef l) to) as [Er|Er].
    + exists (Some l). split; [reflexivity|]. intros l' X. injection X as <-. split; [|exact Er]. unfold at_slots. cbn [flat_map fst]. rewrite Hg. now left.
    + cbn [length] in Hf. destruct (IH eq_refl f ltac:(lia)) as (o & Eo & Ho). exists o. split; [exact Eo|]. intros l' X. destruct (Ho l' X) as [Hi He]. split; [|exact He].
      unfold at_slots. cbn [flat_map fst]. rewrite Hg. right. exact Hi.
Qed.

Lemma fine_id : forall {A} (Bad : Prop) (r : res A) (Q : A -> Prop), r <> NoFuel -> (Bad \/ exists a, r = Ok a) -> (forall a, r = Ok a -> Q a) -> fine Bad r Q.
Proof. intros A Bad [a| | |] Q N H K; cbn; auto; try contradiction; destruct H as [B|[a X]]; auto; discriminate. Qed.
Lemma get_no_fuel : forall {T} (l : list T) i, get l i <> NoFuel.
Proof. intros T l i. unfold get. destruct (i <? 0); [discriminate|]. destruct (nth_error l (Z.to_nat i)); discriminate. Qed.
Lemma bind_no_fuel : forall {A B} (r : res A) (f : A -> res B), r <> NoFuel -> (forall a, f a <> NoFuel) -> bind r f <> NoFuel.
Proof. intros A B [a| | |] f H K; cbn; auto; discriminate. Qed.
Lemma vert16_no_fuel : forall vs v, vert16 vs v <> NoFuel.
Proof. intros vs v. unfold vert16, vec3_at. destruct (_ <? _); [discriminate|]. repeat (apply bind_no_fuel; [apply get_no_fuel|intros ?]). discriminate. Qed.
Lemma vert16_ok : forall vs v, 0 <= v -> 3 * v + 3 <= zlen vs -> 3 * v + 3 <= 65535 -> exists w, vert16 vs v = Ok w.
Proof.
  intros vs v H1 H2 H3. unfold vert16, vec3_at. assert (U : u16 (v * 3) = v * 3) by (apply Z.mod_small; lia). rewrite U.
  assert (U' : u16 (v * 3 + 3) = v * 3 + 3) by (apply Z.mod_small; lia). rewrite U'. destruct (Z.ltb_spec (v * 3 + 3) (v * 3)); [lia|].
  destruct (get_in_range vs (v * 3)) as (a & ->); [lia|]. destruct (get_in_range vs (v * 3 + 1)) as (b & ->); [lia|]. destruct (get_in_range vs (v * 3 + 2)) as (c & ->); [lia|].
  cbn [bind]. eauto.
Qed.

(** The portal of a link; panics are excluded ([Bad] false) for ordinary polygons with existing edges. *)
Lemma edgeMidPoint_fine : forall Bad r p t to p' t' old c,
  LChain (tdLinks (tD t)) (pFirstLink p) c ->
  (exists c', LChain (tdLinks (tD t')) (pFirstLink p') c') ->
  Forall (fun b => fle (fabs (f_of_bits b)) (f_of_Z (2 ^ 100)) = true) (tdVerts (tD t)) ->
  Forall (fun b => fle (fabs (f_of_bits b)) (f_of_Z (2 ^ 100)) = true) (tdVerts (tD t')) ->
  Forall (fun l => is_u8 (lBMin l) /\ is_u8 (lBMax l)) (tdLinks (tD t)) ->
  (Bad \/ Type_ p <> polyTypeOffMeshConnection /\ Type_ p' <> polyTypeOffMeshConnection /\ fit_poly (zlen (tdVerts (tD t))) p /\
     forall l, In l (at_slots (tdLinks (tD t)) c) -> 0 <= lEdge l < pVertCount p) ->
  fpos old ->
  fine Bad (edgeMidPoint r p t to p' t' old) (fun x => fpos (snd x)).
Proof.
  intros Bad r p t to p' t' old c HC (c' & HC') HV HV' HB HG Hold. unfold edgeMidPoint.
  assert (P : fine Bad (portalPoints8 r p t to p' t' (f0, f0, f0) (f0, f0, f0)) (fun x => let '(_, l, rr) := x in vmag 259 l /\ vmag 259 rr)).
  { assert (Z0 : vmag 259 (f0, f0, f0)) by (split; [|split]; (split; [exact I|vm_compute; discriminate])).
    unfold portalPoints8. destruct (find_link_chain _ to _ _ HC (link_fuel (tdLinks (tD t)))) as (o & -> & Ho); [unfold link_fuel; pose proof (LChain_short _ _ _ HC); lia|].
    cbn [bind]. destruct o as [l|]; [|cbn; split; exact Z0]. destruct (Ho l eq_refl) as [Hl _]. clear Ho.
    assert (HL : is_u8 (lBMin l) /\ is_u8 (lBMax l)).
    { rewrite Forall_forall in HB. apply HB. unfold at_slots in Hl. apply in_flat_map in Hl. destruct Hl as (x & _ & Hl). destruct (get (tdLinks (tD t)) (fst x)) as [l0| | |] eqn:Eg; try contradiction.
      destruct Hl as [<-|[]]. apply get_ok in Eg. eapply nth_error_In; apply Eg. }
    destruct (Z.eqb_spec (Type_ p) polyTypeOffMeshConnection) as [T1|T1].
    { assert (B : Bad) by (destruct HG as [B|(N & _)]; [exact B|contradiction]).
      eapply fine_bind; [apply (fine_id Bad _ (fun _ => True)); [apply get_no_fuel|now left|auto]|]. intros v _ _.
      eapply fine_bind; [apply (fine_id Bad _ (vmag 249)); [apply vert16_no_fuel|now left|intros w; apply vert16_mag; exact HV]|]. intros w _ Hw.
      cbn. split; eapply vmag_le; try exact Hw; lia. }
    destruct (Z.eqb_spec (Type_ p') polyTypeOffMeshConnection) as [T2|T2].
    { assert (B : Bad) by (destruct HG as [B|(_ & N & _)]; [exact B|contradiction]).
      destruct (find_link_chain _ r _ _ HC' (link_fuel (tdLinks (tD t')))) as (o & -> & _); [unfold link_fuel; pose proof (LChain_short _ _ _ HC'); lia|].
      cbn [bind]. destruct o as [bl|]; [|cbn; split; exact Z0].
      eapply fine_bind; [apply (fine_id Bad _ (fun _ => True)); [apply get_no_fuel|now left|auto]|]. intros v _ _.
      eapply fine_bind; [apply (fine_id Bad _ (vmag 249)); [apply vert16_no_fuel|now left|intros w; apply vert16_mag; exact HV']|]. intros w _ Hw.
      cbn. split; eapply vmag_le; try exact Hw; lia. }
    assert (HG' : Bad \/ fit_poly (zlen (tdVerts (tD t))) p /\ 0 <= lEdge l < pVertCount p) by (destruct HG as [B|(_ & _ & F & N)]; [now left|right; split; [exact F|auto]]).
    assert (GV : forall j, 0 <= j < pVertCount p -> fit_poly (zlen (tdVerts (tD t))) p -> exists v, get (pVerts p) j = Ok v /\ exists w, vert16 (tdVerts (tD t)) v = Ok w).
    { intros j Hj (F1 & _ & F3 & F4). destruct (get_in_range (pVerts p) j) as (v & Ev); [unfold zlen; lia|]. exists v. split; [exact Ev|]. destruct (F4 j v Hj Ev) as (V1 & V2 & V3). now apply vert16_ok. }
    eapply fine_bind; [apply (fine_id Bad _ (fun v => Bad \/ exists w, vert16 (tdVerts (tD t)) v = Ok w)); [apply get_no_fuel| |]|].
    { destruct HG' as [B|[F He]]; [now left|right]. destruct (GV _ He F) as (v & Ev & _). eauto. }
    { intros v Ev. destruct HG' as [B|[F He]]; [now left|right]. destruct (GV _ He F) as (v' & Ev' & w & Ew). exists w. congruence. }
    intros v0 _ Hv0.
    eapply fine_bind; [apply (fine_id Bad _ (fun e1 => Bad \/ 0 <= e1 < pVertCount p)); unfold next_edge; [destruct (_ =? _); discriminate| |]|].
    { destruct HG' as [B|[F He]]; [now left|right]. destruct F as (_ & _ & F3 & _). destruct (Z.eqb_spec (pVertCount p) 0); [lia|eauto]. }
    { intros e1 Ee. destruct HG' as [B|[F He]]; [now left|right]. destruct F as (_ & _ & F3 & _). destruct (Z.eqb_spec (pVertCount p) 0); [lia|]. apply Ok_inj in Ee. subst e1. apply Z.mod_pos_bound. lia. }
    intros e1 _ He1.
    eapply fine_bind; [apply (fine_id Bad _ (fun v => Bad \/ exists w, vert16 (tdVerts (tD t)) v = Ok w)); [apply get_no_fuel| |]|].
    { destruct HG' as [B|[F _]]; [now left|]. destruct He1 as [B|He]; [now left|right]. destruct (GV _ He F) as (v & Ev & _). eauto. }
    { intros v Ev. destruct HG' as [B|[F _]]; [now left|]. destruct He1 as [B|He]; [now left|right]. destruct (GV _ He F) as (v' & Ev' & w & Ew). exists w. congruence. }
    intros v1 _ Hv1.
    eapply fine_bind; [apply (fine_id Bad _ (vmag 249)); [apply vert16_no_fuel|exact Hv0|intros w; apply vert16_mag; exact HV]|]. intros a _ Ha.
    eapply fine_bind; [apply (fine_id Bad _ (vmag 249)); [apply vert16_no_fuel|exact Hv1|intros w; apply vert16_mag; exact HV]|]. intros b _ Hb.
    destruct (_ && _); cbn [fine].
    - split; apply vlerp_mag; tauto.
    - split; eapply vmag_le; try eassumption; lia. }
  eapply fine_bind; [exact P|]. intros [[st l] rr] _ [Hl Hr]. destruct (StatusFailed st); [exact Hold|]. cbn [fine snd].
  destruct l as [[lx ly] lz], rr as [[rx ry] rz], Hl as (L1 & L2 & L3), Hr as (R1 & R2 & R3). cbn [fst snd] in *.
  split; [|split]; apply mid_mag; assumption.
Qed.

(** ** Meshes made by AddTile and RemoveTile *)
Lemma valid_poly : forall m A r t p, Inv m A -> IsValidPolyRef m r = Ok true -> polygon_at m r t p ->
  exists k h, nth_error (mTiles m) k = Some t /\ tHeader t = Some h /\ nth_error (tdPolys (tD t)) (Z.to_nat (decodePolyIDPoly (mBits m) r)) = Some p.
Proof.
  intros m A r t p HI E [H1 H2]. unfold IsValidPolyRef in E. destruct (r =? 0); [discriminate|]. unfold DecodePolyID in E. destruct (_ <=? _); [discriminate|].
  rewrite H1 in E. cbn [bind] in E. destruct (tHeader t) as [h|] eqn:Eh; [|discriminate]. apply get_ok in H1, H2. exists (Z.to_nat (decodePolyIDTile (mBits m) r)), h. tauto.
Qed.
Lemma valid_exists : forall m A r, Inv m A -> IsValidPolyRef m r = Ok true -> exists t p, polygon_at m r t p.
Proof.
  intros m A r HI E. unfold IsValidPolyRef in E. destruct (r =? 0); [discriminate|]. unfold DecodePolyID in E. destruct (_ <=? _); [discriminate|].
  apply bind_ok in E as (t & Et & E). destruct (tHeader t) as [h|] eqn:Eh; [|discriminate]. destruct (negb _); [discriminate|].
  destruct (Z.leb_spec (u32 (hPolyCount h)) (decodePolyIDPoly (mBits m) r)) as [|L]; [discriminate|]. pose proof Et as Eg. apply get_ok in Et.
  pose proof (tileOK_polys _ _ (iv_tile _ _ HI _ _ _ (proj2 Et) Eh)) as Hn. pose proof (zlen_nonneg (tdPolys (tD t))).
  assert (U : u32 (hPolyCount h) <= hPolyCount h) by (apply Z.mod_le; lia).
  destruct (inv_bits _ _ HI) as (B1 & B2 & B3 & _).
  destruct (get_in_range (tdPolys (tD t)) (decodePolyIDPoly (mBits m) r)) as (p & Ep).
  - split; [|lia]. unfold decodePolyIDPoly. apply Z.land_nonneg. right. unfold u32. apply Z.mod_pos_bound. lia.
  - exists t, p. split; assumption.
Qed.
Lemma valid_total : forall m A r, Inv m A -> exists v, IsValidPolyRef m r = Ok v.
Proof.
  intros m A r HI. unfold IsValidPolyRef. destruct (r =? 0); [eauto|]. unfold DecodePolyID. destruct (Z.leb_spec (u32 (mMaxTiles m)) (decodePolyIDTile (mBits m) r)) as [|L]; [eauto|].
  destruct (iv_ok _ _ HI) as (Hmx & _). pose proof (zlen_nonneg (mTiles m)). assert (U : u32 (mMaxTiles m) <= mMaxTiles m) by (apply Z.mod_le; lia).
  destruct (inv_dec_tile _ _ r HI) as [D _].
  destruct (get_in_range (mTiles m) (decodePolyIDTile (mBits m) r)) as (t & ->); [lia|]. cbn [bind].
  destruct (tHeader t); [|eauto]. destruct (negb _); [eauto|]. destruct (_ <=? _); eauto.
Qed.
Lemma valid_links : forall m A r t p, Run sound m A -> IsValidPolyRef m r = Ok true -> polygon_at m r t p ->
  exists c, LChain (tdLinks (tD t)) (pFirstLink p) c /\ forall x, In x c -> IsValidPolyRef m (pay_ref (snd x)) = Ok true.
Proof.
  intros m A r t p HR E Hp. pose proof (Run_inv _ _ _ HR) as HI. destruct (valid_poly m A r t p HI E Hp) as (k & h & Ht & Hh & Hq).
  destruct (LinksIn_run m A HR k t h Ht Hh) as (fl & cs & HV & Hrel). pose proof HV as (_ & HP & _).
  destruct (Forall2_nth _ _ _ _ _ HP Hq) as (c & Hc & HL). exists c. split; [exact HL|]. intros x Hx. apply nth_error_In in Hc.
  eapply rel_valid; [exact HI|apply (Run_sound _ _ HR)|]. exact (Hrel c x Hc Hx).
Qed.

Lemma FindPath_run : forall (Bad : Prop) m A flt np q a b pa pb path, Run sound m A -> small_mesh m -> fair flt ->
  (Bad \/ fits m A /\ edges_named m /\ never_panics flt) ->
  QOk np q -> 0 < np_maxNodes np -> finite_pool np -> finite_pos pa -> finite_pos pb ->
  exists n0, fine Bad (FindPath n0 m np q flt a b pa pb path) (fun x => let '(np', _, _, _, _) := x in finite_pool np').
Proof.
  intros Bad m A flt np q a b pa pb path HR HS HF HB HQ Hm Hfp Ha Hb. pose proof (Run_inv _ _ _ HR) as HI.
  destruct (FindPath_fine m flt a b pb Bad (fun r => IsValidPolyRef m r = Ok true)) with (np := np) (q := q) (startPos := pa) (path := path) as (n0 & E); auto.
  - intros r Hr. right. now apply (valid_exists m A).
  - intros r t p Hr Hp. destruct (valid_links m A r t p HR Hr Hp) as (c & HC & Hv). exists c. split; [exact HC|]. intros l Hl N0.
    assert (Vl : IsValidPolyRef m (lRef l) = Ok true).
    { pose proof (in_at_slots _ _ _ _ HC Hl) as Hin. apply in_map_iff in Hin. destruct Hin as (x & <- & Hx). now apply Hv. }
    split; [exact Vl|]. intros t' p' old Hp' Hold.
    destruct (valid_poly m A r t p HI Hr Hp) as (k & h & Ht & Hh & Hq). destruct (valid_poly m A (lRef l) t' p' HI Vl Hp') as (k' & h' & Ht' & Hh' & Hq').
    destruct (HS k t h Ht Hh) as [S1 S2]. destruct (HS k' t' h' Ht' Hh') as [S1' _].
    destruct (valid_links m A _ t' p' HR Vl Hp') as (c' & HC' & _).
    apply (edgeMidPoint_fine Bad r p t (lRef l) p' t' old c); auto; [eauto|].
    destruct HB as [B|(HA & HE & _)]; [now left|right].
    destruct (HE k t h p Ht Hh ltac:(eapply nth_error_In; exact Hq)) as [Tp Te]. destruct (HE k' t' h' p' Ht' Hh' ltac:(eapply nth_error_In; exact Hq')) as [Tp' _].
    split; [exact Tp|]. split; [exact Tp'|]. split.
    + pose proof (inv_fitM _ _ HI HA k t h Ht Hh) as [(_ & _ & _ & F) _]. rewrite Forall_forall in F. apply F. eapply nth_error_In; exact Hq.
    + intros l0 Hl0. unfold at_slots in Hl0. apply in_flat_map in Hl0. destruct Hl0 as ([s0 y] & Hx & Hl0). destruct (LSeg_at _ _ _ _ _ HC Hx) as (l1 & Hg & Hpay).
      rewrite Hg in Hl0. destruct Hl0 as [<-|[]]. cbn [snd] in Hpay. subst y. eapply Te; [exact HC|exact Hx].
  - intros qa qb prev r t p next Hqa Hqb _ _. specialize (HF qa qb prev (r, Some (t, p)) next (proj2 (fpos_finite _) Hqa) (proj2 (fpos_finite _) Hqb)).
    destruct HB as [B|(_ & _ & N)].
    + destruct (qCost flt qa qb prev (r, Some (t, p)) next); cbn; auto. now apply nonneg32_nn.
    + destruct (N qa qb prev r t p next) as (x & Ex). rewrite Ex in *. now apply nonneg32_nn.
  - now apply fpos_finite.
  - intros n Hn. apply fpos_finite. now apply Hfp.
  - now apply fpos_finite.
  - right. eapply valid_total; exact HI.
  - right. eapply valid_total; exact HI.
  - exists n0. eapply fine_and; [exact E|]. intros [[[[np' q'] p'] n'] st'] _ H. intros n Hn. apply fpos_finite. now apply H.
Qed.

(** ** The standard filter and new queries *)
Lemma fmul_pos : forall a b, nn a -> finite32 b -> F32.flt f0 b = true -> nn (fmul a b).
Proof.
  intros a b Ha Hb Hp. apply finite32_fin in Hb. destruct (fin_cases b Hb) as [(s & ->)|(s & mb & eb & -> & N)]; [discriminate|].
  destruct s; [discriminate|]. destruct Hb as [_ L]. apply fmul_nn; auto; [right|left; lia]. cbn [V]. pose proof (bounded_spec _ _ N) as (E & _).
  pose proof (pow149 eb ltac:(lia)). lia.
Qed.
Lemma standard_fair : forall qf, Forall (fun c => finite32 c /\ F32.flt f0 c = true) (areaCost qf) -> fair (standard qf).
Proof.
  intros qf H pa pb prev cur next Ha Hb. cbn [standard qCost]. destruct (snd cur) as [[t p]|]; [|exact I]. unfold Cost.
  destruct (get (areaCost qf) (Area p)) as [c| | |] eqn:E; cbn [bind]; auto; [|eapply get_no_fuel; exact E].
  apply nonneg32_nn. apply get_ok in E. rewrite Forall_forall in H. destruct (H c) as [H1 H2]; [eapply nth_error_In; apply E|].
  apply fmul_pos; auto. apply vdist_nn; now apply fpos_finite.
Qed.
Lemma standard_total : forall qf, length (areaCost qf) = 64%nat -> never_panics (standard qf).
Proof.
  intros qf H pa pb prev r t p next. cbn [standard qCost snd]. unfold Cost, Area. 
  assert (0 <= Z.land (pAreaAndType p) 63 < 64) as B. { change 63 with (Z.ones 6). rewrite Z.land_ones by lia. apply Z.mod_pos_bound. lia. }
  destruct (get_in_range (areaCost qf) (Z.land (pAreaAndType p) 63)) as (c & ->); [unfold zlen; lia|]. cbn [bind]. eauto.
Qed.
Lemma new_query_finite : forall mx np q, 4 <= mx -> NewNavMeshQuery mx = Ok (Some (np, q)) -> finite_pool np /\ 0 < np_maxNodes np.
Proof.
  intros mx np q Hm E. destruct (new_query_ok mx np q Hm E) as (_ & Em & En). split; [|lia]. intros n Hn. rewrite En in Hn. apply repeat_spec in Hn. subst n.
  split; [|split]; split; reflexivity || exact I.
Qed.
Lemma FindPath_max : forall fuel m np q flt a b pa pb path np' q' path' n st, QOk np q ->
  FindPath fuel m np q flt a b pa pb path = Ok (np', q', path', n, st) -> 0 < np_maxNodes np -> 0 < np_maxNodes np'.
Proof.
  intros fuel m np q flt a b pa pb path np' q' path' n st HQ E Hm. unfold FindPath in E.
  apply bind_ok in E as (vs & Es & E). apply bind_ok in E as (ve & Ee & E).
  destruct (negb vs || negb ve || (zlen path =? 0)) eqn:G; [apply Ok_inj in E; injection E as <- _ _ _ _; exact Hm|].
  destruct (a =? b); [apply bind_ok in E as (p1 & _ & E); apply Ok_inj in E; injection E as <- _ _ _ _; exact Hm|].
  apply bind_ok in E as (s0 & E0 & E). pose proof (start_spec m flt np q a b pa pb HQ) as SS.
  destruct (np_maxNodes np =? 0); [rewrite SS in E0; discriminate|]. destruct SS as (s0' & Es0 & HI0 & _). rewrite E0 in Es0. apply Ok_inj in Es0. subst s0'.
  apply bind_ok in E as (s & El & E). apply bind_ok in E as ([[p1 c1] st1] & Ep & E). apply bind_ok in E as (lastn & Eln & E). apply Ok_inj in E. injection E as <- _ _ _ _.
  assert (HI : exists x, SInv m flt a b x s /\ exists kb nb, node_at (sPool s) kb nb).
  { destruct (search_inv _ _ _ _ _ _ _ _ HI0 El) as [(kb & nb & HI & Eb & Hb & _)|[HI _]]; [eauto 6|].
    destruct (si_best _ _ _ _ _ _ HI) as (kb & nb & _ & Hb). eauto 6. }
  destruct HI as (x & HI & kb & nb & [Hk _]). pose proof (pi_count _ (so_pool _ _ (si_ok _ _ _ _ _ _ HI))). lia.
Qed.
Lemma QueryState_max : forall np q, QueryState np q -> 0 < np_maxNodes np.
Proof.
  intros np q H. induction H as [mx np q Hm E|fuel m np q flt a b pa pb path np' q' path' n st HQ IH E].
  - destruct (new_query_ok mx np q Hm E) as (_ & Em & _). lia.
  - eapply FindPath_max; [apply (QueryState_ok _ _ HQ)|exact E|exact IH].
Qed.
