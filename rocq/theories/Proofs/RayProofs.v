(** Raycast follows the trace of the ray. *)
From Coq Require Import ZArith List Lia Bool.
From Verif.Base Require Import Res GoNum F32 Num Grid Bits.
From Verif.Model Require Import Status Poly PolyRef MeshTypes Geom MeshLinks MeshTiles FindPath Raycast.
From Verif.Spec Require Import LinkSpec PathSpec RaySpec.
From Verif.Proofs Require Import LinkProofs SearchStep SearchInv.
Import ListNotations.
Open Scope Z_scope.

Lemma load_verts_nth : forall vs pv n i l, 0 <= i -> load_verts vs pv n i = Ok l ->
  length l = n /\ forall j v, nth_error l j = Some v -> exists k, nth_error pv (Z.to_nat i + j) = Some k /\ vert16 vs k = Ok v.
Proof.
  induction n as [|n IH]; intros i l Hi H; cbn [load_verts] in H.
  - injection H as <-. split; [reflexivity|]. intros [|j] v E; discriminate.
  - apply bind_ok in H as (k & Ek & H). apply bind_ok in H as (w & Ew & H). apply bind_ok in H as (l' & El & H). injection H as <-.
    apply IH in El; [|lia]. destruct El as [L1 L2]. split; [cbn [length]; lia|].
    intros [|j] v E; cbn [nth_error] in E.
    + injection E as <-. exists k. split; [|exact Ew]. apply get_ok in Ek. rewrite Nat.add_0_r. tauto.
    + destruct (L2 j v E) as (k' & E1 & E2). exists k'. split; [|exact E2]. rewrite <- E1. f_equal. lia.
Qed.
Lemma load_corners : forall t p vs, load_verts (tdVerts (tD t)) (pVerts p) (Z.to_nat (pVertCount p)) 0 = Ok vs -> corners t p vs.
Proof.
  intros t p vs H. apply load_verts_nth in H; [|lia]. destruct H as [L N]. split; [exact L|].
  intros j v E. destruct (N j v E) as (k & Ek & Ev). exists k. unfold vert16, vec3_at in Ev.
  destruct (_ <? _); [discriminate|]. replace (u16 (k * 3)) with (3 * k mod 65536) in Ev by (unfold u16; rewrite Z.mul_comm; reflexivity).
  apply bind_ok in Ev as (x & Ex & Ev). apply bind_ok in Ev as (y & Ey & Ev). apply bind_ok in Ev as (z & Ez & Ev). injection Ev as <-.
  exists x, y, z. auto.
Qed.
Lemma corners_det : forall t p vs vs', corners t p vs -> corners t p vs' -> vs = vs'.
Proof.
  intros t p vs vs' [L N] [L' N'].
  assert (G : forall j v v', nth_error vs j = Some v -> nth_error vs' j = Some v' -> v = v').
  { intros j v v' E E'. destruct (N j v E) as (i & x & y & z & A & B & C & D & ->). destruct (N' j v' E') as (i' & x' & y' & z' & A' & B' & C' & D' & ->).
    rewrite A in A'. injection A' as <-. rewrite B in B'. rewrite C in C'. rewrite D in D'. injection B' as <-. injection C' as <-. injection D' as <-. reflexivity. }
  clear N N'. assert (LL : length vs = length vs') by congruence. clear L L'. revert vs' LL G.
  induction vs as [|v vs IH]; intros [|v' vs'] LL G; try discriminate; [reflexivity|]. f_equal; [apply (G O); reflexivity|].
  apply IH; [cbn in LL; lia|]. intros j; apply (G (S j)).
Qed.

(** The edge where the ray leaves is a real edge. *)
Lemma segPoly_edge : forall p0 dir l st sp ok, segPoly_loop numF p0 dir st l = (sp, ok) ->
  spSegMax sp = spSegMax st \/ In (spSegMax sp) (map fst l).
Proof.
  induction l as [|[j [vj vi]] l IH]; intros st sp ok H; cbn [segPoly_loop] in H; [injection H as <- _; auto|].
  assert (S1 : forall st', (segPoly_step numF p0 dir st j vj vi = inl st' \/ segPoly_step numF p0 dir st j vj vi = inr st') -> spSegMax st' = spSegMax st \/ spSegMax st' = j).
  { intros st'. unfold segPoly_step. cbv zeta. repeat (match goal with |- context [if ?b then _ else _] => destruct b end);
      intros [E|E]; try discriminate E; injection E as <-; auto. }
  destruct (segPoly_step numF p0 dir st j vj vi) as [st'|st'] eqn:E.
  - injection H as <- _. cbn [map fst In]. destruct (S1 st') as [->| ->]; auto.
  - apply IH in H. cbn [map fst In]. destruct H as [->|H]; [destruct (S1 st') as [->| ->]; auto|auto].
Qed.
Lemma crosses_edge : forall a b vs sp, crosses a b vs sp -> spSegMax sp = -1 \/ 0 <= spSegMax sp < zlen vs.
Proof.
  intros a b vs sp H. unfold crosses, IntersectSegmentPoly2D in H. apply segPoly_edge in H. cbn [spSegMax] in H. destruct H as [H|H]; [auto|]. right.
  destruct vs as [|v vs]; [destruct H|]. cbn [edge_order] in H. cbv zeta in H. cbn [map fst In] in H. change (vec f32) with fvec in H. unfold zlen. cbn [length] in *.
  destruct H as [H|H]; [rewrite <- H; lia|].
  apply in_map_iff in H as ([j q] & E & H). cbn [fst] in E. apply in_combine_l in H. apply in_map_iff in H as (k & Ek & Hk). apply in_seq in Hk. lia.
Qed.

Section Ray.
Variables (m : NavMesh) (flt : QueryFilter) (a b : fvec).

Lemma edge_reads : forall t p vs e v0 e1 v1 u v, corners t p vs -> 0 <= pVertCount p <= 255 -> 0 <= e < zlen vs ->
  get (pVerts p) e = Ok v0 -> next_edge p e = Ok e1 -> get (pVerts p) e1 = Ok v1 ->
  vert16 (tdVerts (tD t)) v0 = Ok u -> vert16 (tdVerts (tD t)) v1 = Ok v -> edge_of vs e u v.
Proof using.
  clear m flt a b.
  intros t p vs e v0 e1 v1 u v [L N] B R E0 E1 E2 Eu Ev.
  assert (G : forall j k w, 0 <= j < zlen vs -> get (pVerts p) j = Ok k -> vert16 (tdVerts (tD t)) k = Ok w -> get vs j = Ok w).
  { intros j k w Hj Hk Hw. destruct (get_in_range vs j Hj) as [x Hx]. rewrite Hx. f_equal. apply get_ok in Hx. destruct Hx as [_ Hx].
    destruct (N _ _ Hx) as (i & x0 & y & z & A1 & A2 & A3 & A4 & ->). apply get_ok in Hk. destruct Hk as [_ Hk]. rewrite A1 in Hk. injection Hk as <-.
    unfold vert16, vec3_at in Hw. destruct (_ <? _) in Hw; [discriminate|]. replace (u16 (i * 3)) with (3 * i mod 65536) in Hw by (unfold u16; rewrite Z.mul_comm; reflexivity).
    rewrite A2, A3, A4 in Hw. cbn [bind] in Hw. apply Ok_inj in Hw. exact Hw. }
  split; [exact (G _ _ _ R E0 Eu)|]. unfold next_edge in E1. destruct (Z.eqb_spec (pVertCount p) 0); [discriminate|]. apply Ok_inj in E1.
  assert (ZL : zlen vs = pVertCount p) by (unfold zlen; rewrite L; lia).
  replace (if e =? zlen vs - 1 then 0 else e + 1) with e1.
  - apply (G _ v1); [|exact E2|exact Ev]. subst e1. rewrite ZL. apply Z.mod_pos_bound. lia.
  - subst e1. rewrite ZL in *. unfold u8. rewrite (Z.mod_small (e + 1) 256) by lia. destruct (Z.eqb_spec e (pVertCount p - 1)) as [->|].
    + replace (pVertCount p - 1 + 1) with (pVertCount p) by lia. apply Z.mod_same. lia.
    + apply Z.mod_small. lia.
Qed.

Lemma within_between : forall (c : fvec -> f32) u v s bmin bmax,
  (let lmin := fadd (c u) (fmul (fsub (c v) (c u)) (fmul (f_of_Z bmin) (f_ratio 1 255))) in
   let lmax := fadd (c u) (fmul (fsub (c v) (c u)) (fmul (f_of_Z bmax) (f_ratio 1 255))) in
   let '(lmin, lmax) := if fgt lmin lmax then (lmax, lmin) else (lmin, lmax) in
   let x := fadd (c a) (fmul (fsub (c b) (c a)) s) in fge x lmin && fle x lmax) = true <-> covers c u v a b bmin bmax s.
Proof using.
  clear m flt. intros c u v s bmin bmax. unfold covers, between. cbv zeta.
  set (lo := fadd (c u) (fmul (fsub (c v) (c u)) (fmul (f_of_Z bmin) (f_ratio 1 255)))).
  set (hi := fadd (c u) (fmul (fsub (c v) (c u)) (fmul (f_of_Z bmax) (f_ratio 1 255)))).
  change (F32.flt hi lo) with (fgt lo hi). destruct (fgt lo hi); rewrite andb_true_iff; reflexivity.
Qed.

Lemma in_partial_spec : forall t p vs l s r, corners t p vs -> 0 <= pVertCount p <= 255 -> 0 <= lEdge l < zlen vs ->
  in_partial a b s t p l = Ok r ->
  (r = true <-> exists u v, edge_of vs (lEdge l) u v /\
     (((lSide l = 0 \/ lSide l = 4) /\ covers vz u v a b (lBMin l) (lBMax l) s) \/
      ((lSide l = 2 \/ lSide l = 6) /\ covers vx u v a b (lBMin l) (lBMax l) s))).
Proof using.
  clear m flt. intros t p vs l s r HC HB HR H. unfold in_partial in H.
  apply bind_ok in H as (v0 & E0 & H). apply bind_ok in H as (e1 & E1 & H). apply bind_ok in H as (v1 & E2 & H).
  apply bind_ok in H as (u & Eu & H). apply bind_ok in H as (v & Ev & H).
  pose proof (edge_reads _ _ _ _ _ _ _ _ _ HC HB HR E0 E1 E2 Eu Ev) as EE.
  assert (UU : forall u' v', edge_of vs (lEdge l) u' v' -> u' = u /\ v' = v).
  { intros u' v' [A B]. destruct EE as [A' B']. rewrite A in A'. rewrite B in B'. injection A' as ->. injection B' as ->. auto. }
  cbv zeta in H.
  assert (OR : forall x y, (lSide l =? x) || (lSide l =? y) = true <-> lSide l = x \/ lSide l = y).
  { intros x y. rewrite orb_true_iff, !Z.eqb_eq. reflexivity. }
  destruct ((lSide l =? 0) || (lSide l =? 4)) eqn:D.
  - apply Ok_inj in H. subst r. apply OR in D. rewrite (within_between vz u v s (lBMin l) (lBMax l)). split.
    + intros W. exists u, v. auto.
    + intros (u' & v' & E & [[_ W]|[[|] W]]); [|lia|lia]. apply UU in E. destruct E as [-> ->]. exact W.
  - assert (D' : ~ (lSide l = 0 \/ lSide l = 4)) by (rewrite <- OR; congruence). clear D.
    destruct ((lSide l =? 2) || (lSide l =? 6)) eqn:D.
    + apply Ok_inj in H. subst r. apply OR in D. rewrite (within_between vx u v s (lBMin l) (lBMax l)). split.
      * intros W. exists u, v. auto.
      * intros (u' & v' & E & [[D2 _]|[_ W]]); [tauto|]. apply UU in E. destruct E as [-> ->]. exact W.
    + apply Ok_inj in H. subst r. split; [discriminate|]. intros (u' & v' & _ & [[D2 _]|[D2 _]]); [tauto|]. apply OR in D2. congruence.
Qed.

Lemma ray_link_spec : forall vs sp t p, corners t p vs -> 0 <= pVertCount p <= 255 -> 0 <= spSegMax sp < zlen vs ->
  forall fuel i nx r nx', ray_link fuel m flt a b sp t p i nx = Ok (r, nx') ->
  exists c, Forall (fun x => ~ takes m flt a b vs sp (snd x)) c /\
   ((r = 0 /\ LChain (tdLinks (tD t)) i c) \/
    exists s l k, LSeg (tdLinks (tD t)) i (c ++ [(s, l)]) k /\ takes m flt a b vs sp l /\ pay_ref l = r /\ polygon_at m r (fst nx') (snd nx')).
Proof using.
  intros vs sp t p HC HB HR. induction fuel as [|f IH]; intros i nx r nx' H; cbn [ray_link] in H.
  - destruct (Z.eqb_spec i nullLink); [|discriminate]. apply Ok_inj in H. injection H as <- <-. exists []. split; [constructor|]. left. subst i. split; [reflexivity|constructor].
  - destruct (Z.eqb_spec i nullLink) as [->|Ni].
    { apply Ok_inj in H. injection H as <- <-. exists []. split; [constructor|]. left. split; [reflexivity|constructor]. }
    apply bind_ok in H as (l & El & H).
    assert (SKIP : ~ takes m flt a b vs sp (pay l) -> forall nx, ray_link f m flt a b sp t p (lNext l) nx = Ok (r, nx') ->
       exists c, Forall (fun x => ~ takes m flt a b vs sp (snd x)) c /\
       ((r = 0 /\ LChain (tdLinks (tD t)) i c) \/
        exists s l k, LSeg (tdLinks (tD t)) i (c ++ [(s, l)]) k /\ takes m flt a b vs sp l /\ pay_ref l = r /\ polygon_at m r (fst nx') (snd nx'))).
    { intros NT nx0 Hn. destruct (IH _ _ _ _ Hn) as (c & Hc & HH). exists ((i, pay l) :: c). split; [constructor; [exact NT|exact Hc]|].
      destruct HH as [[-> HL]|(s & l' & k & HL & HH)]; [left|right].
      - split; [reflexivity|]. econstructor; [exact Ni|exact El|exact HL].
      - exists s, l', k. split; [|exact HH]. cbn [app]. econstructor; [exact Ni|exact El|exact HL]. }
    assert (STOP : takes m flt a b vs sp (pay l) -> r = lRef l -> polygon_at m r (fst nx') (snd nx') ->
       exists c, Forall (fun x => ~ takes m flt a b vs sp (snd x)) c /\
       ((r = 0 /\ LChain (tdLinks (tD t)) i c) \/
        exists s l k, LSeg (tdLinks (tD t)) i (c ++ [(s, l)]) k /\ takes m flt a b vs sp l /\ pay_ref l = r /\ polygon_at m r (fst nx') (snd nx'))).
    { intros T -> P. exists []. split; [constructor|]. right. exists i, (pay l), (lNext l). split; [|auto]. cbn [app]. econstructor; [exact Ni|exact El|constructor]. }
    destruct (Z.eqb_spec (lEdge l) (spSegMax sp)) as [Ee|Ne]; cbn [negb] in H.
    2:{ apply (SKIP (fun T => Ne (proj1 T)) _ H). }
    apply bind_ok in H as ([t' p'] & Ep & H). apply TileAndPolyByRefUnsafe_ok in Ep. cbn [fst snd] in H.
    destruct (Z.eqb_spec (Type_ p') polyTypeOffMeshConnection) as [Eo|No].
    { apply (fun N => SKIP N _ H). intros (_ & (t2 & p2 & P2 & N2 & _) & _). destruct (polygon_at_det _ _ _ _ _ _ P2 Ep) as [-> ->]. auto. }
    destruct (qPass flt (lRef l) t' p') eqn:Eq; cbn [negb] in H.
    2:{ apply (fun N => SKIP N _ H). intros (_ & (t2 & p2 & P2 & _ & N2) & _). destruct (polygon_at_det _ _ _ _ _ _ P2 Ep) as [-> ->]. congruence. }
    assert (G : exists t p, polygon_at m (lRef l) t p /\ Type_ p <> polyTypeOffMeshConnection /\ qPass flt (lRef l) t p = true) by (exists t', p'; auto).
    destruct (Z.eqb_spec (lSide l) 255) as [Es|Ns].
    { apply Ok_inj in H. injection H as <- <-. apply STOP; [|reflexivity|exact Ep]. unfold pay, takes. auto. }
    destruct ((lBMin l =? 0) && (lBMax l =? 255)) eqn:Ew.
    { apply Ok_inj in H. injection H as <- <-. apply STOP; [|reflexivity|exact Ep]. unfold pay, takes. apply andb_true_iff in Ew. rewrite !Z.eqb_eq in Ew. auto. }
    apply bind_ok in H as (ins & Ei & H). apply (in_partial_spec t p vs) in Ei; [|assumption|assumption|rewrite Ee; assumption].
    destruct ins.
    + apply Ok_inj in H. injection H as <- <-. apply STOP; [|reflexivity|exact Ep]. unfold pay, takes. split; [exact Ee|]. split; [exact G|]. right; right. apply Ei. reflexivity.
    + apply (fun N => SKIP N _ H). unfold pay, takes. intros (_ & _ & [X|[[X Y]|X]]); [auto| |].
      * rewrite X, Y in Ew. discriminate.
      * apply Ei in X. discriminate.
Qed.

Lemma wall_normal_spec : forall vs e n, 0 <= e < zlen vs -> wall_normal vs e = Ok n ->
  exists u v, edge_of vs e u v /\ n = normalize (fsub (vz v) (vz u), f0, fopp (fsub (vx v) (vx u))).
Proof using.
  clear m flt a b. intros vs e n R H. unfold wall_normal in H. apply bind_ok in H as (u & Eu & H). apply bind_ok in H as (v & Ev & H). apply Ok_inj in H.
  exists u, v. split; [|symmetry; exact H]. split; [exact Eu|].
  destruct (Z.ltb_spec (e + 1) (zlen vs)), (Z.eqb_spec e (zlen vs - 1)); try lia; exact Ev.
Qed.

Definition room (hit : RaycastHit) (n : Z) : Z := Z.max 0 (rMaxPath hit - n).
Definition Result (hit : RaycastHit) (n st : Z) (tr : list (Z * @SegPoly f32)) (e : ray_end) (hit' : RaycastHit) (st' : Z) : Prop :=
  let k := Z.min (zlen tr) (room hit n) in
  rCount hit' = n + k /\
  rPath hit' = firstn (Z.to_nat n) (rPath hit) ++ firstn (Z.to_nat k) (map fst tr) ++ skipn (Z.to_nat (n + k)) (rPath hit) /\
  (k = 0 \/ n + k <= zlen (rPath hit)) /\
  st' = (if zlen tr <=? room hit n then st else Z.lor st BufferTooSmall) /\
  rT hit' = match e with Inside => maxFloat32 | _ => furthest (rT hit) (map (fun x => spMax (snd x)) tr) end /\
  rNormal hit' = match e with Wall v => v | _ => rNormal hit end /\
  rEdge hit' = last (map (fun x => spSegMax (snd x)) tr) (rEdge hit) /\
  rMaxPath hit' = rMaxPath hit.

Lemma upd_firstn : forall {A} (l : list A) n x, (n < length l)%nat -> firstn (S n) (upd l n x) = firstn n l ++ [x].
Proof using. clear m flt a b. induction l as [|y l IH]; intros [|n] x H; cbn [length] in H; try lia; [reflexivity|]. cbn [upd]. rewrite !firstn_cons. rewrite IH by lia. reflexivity. Qed.
Lemma upd_skipn : forall {A} (l : list A) n x k, (n < k)%nat -> skipn k (upd l n x) = skipn k l.
Proof using. clear m flt a b. induction l as [|y l IH]; intros [|n] x [|k] H; try lia; try reflexivity. cbn [upd skipn]. apply IH. lia. Qed.

(** One polygon crossed, then the rest. *)
Lemma last_cons_default : forall {A} (l : list A) x d, last (x :: l) d = last l x.
Proof using. clear m flt a b. induction l as [|y l IH]; intros x d; [reflexivity|]. transitivity (last (y :: l) d); [reflexivity|]. rewrite IH. symmetry. apply IH. Qed.

Lemma Result_cons : forall hit n st r sp tr e hit1 n1 st1 hit' st' path,
  0 <= n ->
  (if n <? rMaxPath hit then set (rPath hit) n r = Ok path /\ n1 = n + 1 /\ st1 = st else path = rPath hit /\ n1 = n /\ st1 = Z.lor st BufferTooSmall) ->
  rT hit1 = (if F32.flt (rT hit) (spMax sp) then spMax sp else rT hit) -> rNormal hit1 = rNormal hit -> rEdge hit1 = spSegMax sp ->
  rPath hit1 = path -> rMaxPath hit1 = rMaxPath hit ->
  Result hit1 n1 st1 tr e hit' st' -> Result hit n st ((r, sp) :: tr) e hit' st'.
Proof using.
  clear m flt a b.
  intros hit n st r sp tr e hit1 n1 st1 hit' st' path Hn HS ET EN EE EP EM (C1 & C2 & C3 & C4 & C5 & C6 & C7 & C8).
  unfold Result. cbv zeta in *. unfold room in *. rewrite EM in *.
  assert (ZT : zlen ((r, sp) :: tr) = zlen tr + 1) by (unfold zlen; cbn [length]; lia).
  assert (0 <= zlen tr) by (unfold zlen; lia). cbn [map fst snd]. rewrite last_cons_default. rewrite EE in C7. rewrite EN in C6. cbn [furthest]. rewrite ET in C5.
  split; [|split; [|split; [|split; [|split; [exact C5|split; [exact C6|split; [exact C7|exact C8]]]]]]].
  - rewrite C1. destruct (Z.ltb_spec n (rMaxPath hit)); destruct HS as (_ & -> & _); lia.
  - rewrite C2, EP. destruct (Z.ltb_spec n (rMaxPath hit)); destruct HS as (S1 & -> & _).
    + apply set_ok in S1. destruct S1 as (R & ->).
      replace (Z.to_nat (n + 1)) with (S (Z.to_nat n)) by lia.
      rewrite upd_firstn by (unfold zlen in R; lia). rewrite upd_skipn by lia. rewrite <- app_assoc. f_equal.
      replace (Z.to_nat (Z.min (zlen ((r, sp) :: tr)) (Z.max 0 (rMaxPath hit - n)))) with (S (Z.to_nat (Z.min (zlen tr) (Z.max 0 (rMaxPath hit - (n + 1)))))) by lia.
      rewrite firstn_cons. cbn [app]. f_equal. f_equal. f_equal. lia.
    + subst path. replace (Z.max 0 (rMaxPath hit - n)) with 0 by lia. rewrite !Z.min_r by lia. reflexivity.
  - rewrite EP in C3. destruct (Z.ltb_spec n (rMaxPath hit)); destruct HS as (S1 & -> & _).
    + apply set_ok in S1. destruct S1 as (R & ->). right. assert (E : zlen (upd (rPath hit) (Z.to_nat n) r) = zlen (rPath hit)) by (unfold zlen; rewrite upd_length; reflexivity). rewrite E in C3. lia.
    + left. lia.
  - rewrite C4. destruct (Z.ltb_spec n (rMaxPath hit)); destruct HS as (_ & -> & ->).
    + destruct (Z.leb_spec (zlen tr) (Z.max 0 (rMaxPath hit - (n + 1)))), (Z.leb_spec (zlen ((r, sp) :: tr)) (Z.max 0 (rMaxPath hit - n))); try lia; reflexivity.
    + destruct (Z.leb_spec (zlen ((r, sp) :: tr)) (Z.max 0 (rMaxPath hit - n))); [lia|].
      destruct (zlen tr <=? Z.max 0 (rMaxPath hit - n)); [reflexivity|]. rewrite <- Z.lor_assoc, Z.lor_diag. reflexivity.
Qed.
Lemma Result_nil : forall hit n st, 0 <= n -> Result hit n st [] Missed (hit_count n hit) st.
Proof using.
  clear m flt a b. intros hit n st Hn. unfold Result. cbv zeta. unfold room. change (zlen (@nil (Z * @SegPoly f32))) with 0. rewrite Z.min_l by lia.
  rewrite Z.add_0_r. cbn [map Z.to_nat firstn app]. rewrite firstn_skipn. cbn. destruct (Z.leb_spec 0 (Z.max 0 (rMaxPath hit - n))); [|lia]. auto 10.
Qed.

Lemma ray_loop_spec : byte_counts m -> forall options fuel hit n st cur tp prev nx pos hit' st',
  ray_loop fuel m flt a b options hit n st cur tp prev nx pos = Ok (hit', st') ->
  cur <> 0 -> polygon_at m cur (fst tp) (snd tp) -> 0 <= n ->
  exists tr e, Trace m flt a b cur tr e /\ Result hit n st tr e hit' st' /\ (use_costs options = false -> rCost hit' = rCost hit).
Proof using.
  intros HB options. induction fuel as [|f IH]; intros hit n st cur [t p] prev nx pos hit' st' H Nc Hp Hn; cbn [ray_loop] in H;
    (destruct (Z.eqb_spec cur 0); [contradiction|]); [discriminate|].
  cbn [fst snd] in Hp. pose proof (HB _ _ _ Hp) as HB1.
  apply bind_ok in H as (vs & Ev & H). apply load_corners in Ev.
  destruct (IntersectSegmentPoly2D numF a b vs) as [sp ok] eqn:EI. destruct ok; cbn [negb] in H.
  2:{ apply Ok_inj in H. injection H as <- <-. exists [], Missed. split; [|split; [apply Result_nil; exact Hn|reflexivity]].
      econstructor; [exact Hp|exact Ev|]. intros sp' C. unfold crosses in C. congruence. }
  assert (CR : crosses a b vs sp) by exact EI. clear EI.
  set (hit1 := if fgt (spMax sp) (rT (hit_edge (spSegMax sp) hit)) then _ else _) in H.
  assert (H1 : rT hit1 = (if F32.flt (rT hit) (spMax sp) then spMax sp else rT hit) /\ rNormal hit1 = rNormal hit /\ rEdge hit1 = spSegMax sp /\ rPath hit1 = rPath hit /\ rMaxPath hit1 = rMaxPath hit /\ rCost hit1 = rCost hit /\ rCount hit1 = rCount hit).
  { unfold hit1. cbn [hit_edge rT]. change (fgt (spMax sp) (rT hit)) with (F32.flt (rT hit) (spMax sp)). destruct (F32.flt (rT hit) (spMax sp)); cbn; auto 10. }
  clearbody hit1. destruct H1 as (A1 & A2 & A3 & A4 & A5 & A6 & A7).
  apply bind_ok in H as ([[hit2 n2] st2] & E2 & H).
  assert (H2 : exists path, (if n <? rMaxPath hit then set (rPath hit) n cur = Ok path /\ n2 = n + 1 /\ st2 = st else path = rPath hit /\ n2 = n /\ st2 = Z.lor st BufferTooSmall) /\
     rT hit2 = rT hit1 /\ rNormal hit2 = rNormal hit1 /\ rEdge hit2 = rEdge hit1 /\ rPath hit2 = path /\ rMaxPath hit2 = rMaxPath hit1 /\ rCost hit2 = rCost hit1 /\ 0 <= n2).
  { rewrite A5, A4 in E2. destruct (n <? rMaxPath hit).
    - apply bind_ok in E2 as (path & Es & E2). exists path. assert (hit2 = hit_path path hit1 /\ n2 = n + 1 /\ st2 = st) as (-> & -> & ->) by (split; [|split]; congruence). cbn. split; [auto|]. repeat (split; [reflexivity|]). lia.
    - exists (rPath hit). assert (hit2 = hit1 /\ n2 = n /\ st2 = Z.lor st BufferTooSmall) as (-> & -> & ->) by (split; [|split]; congruence). split; [auto|]. rewrite A4. repeat (split; [reflexivity|]). exact Hn. }
  clear E2. destruct H2 as (path & HS & B1 & B2 & B3 & B4 & B5 & B6 & Hn2).
  assert (CONS : forall hit3 tr e, rT hit3 = rT hit2 -> rNormal hit3 = rNormal hit2 -> rEdge hit3 = rEdge hit2 -> rPath hit3 = rPath hit2 -> rMaxPath hit3 = rMaxPath hit2 ->
     Result hit3 n2 st2 tr e hit' st' -> Result hit n st ((cur, sp) :: tr) e hit' st').
  { intros hit3 tr e X1 X2 X3 X4 X5 R. eapply Result_cons; [exact Hn|exact HS| | | | | |exact R]; congruence. }
  (* a trace of one polygon that ends the loop *)
  assert (ONE : forall e, rCount hit' = n2 -> rPath hit' = rPath hit2 -> st' = st2 -> rMaxPath hit' = rMaxPath hit2 -> rEdge hit' = rEdge hit2 ->
     rT hit' = match e with Inside => maxFloat32 | _ => rT hit2 end -> rNormal hit' = match e with Wall v => v | _ => rNormal hit2 end ->
     Result hit n st [(cur, sp)] e hit' st').
  { intros e X1 X2 -> X4 X5 X6 X7. apply (CONS hit2); try reflexivity. unfold Result. cbv zeta. unfold room. change (zlen (@nil (Z * @SegPoly f32))) with 0.
    rewrite Z.min_l by lia. rewrite Z.add_0_r. cbn [map Z.to_nat firstn app furthest last]. rewrite firstn_skipn. destruct (Z.leb_spec 0 (Z.max 0 (rMaxPath hit2 - n2))); [|lia]. auto 10. }
  destruct (Z.eqb_spec (spSegMax sp) (-1)) as [Em|Nm].
  - cbv zeta in H. destruct (use_costs options) eqn:EU.
    + apply bind_ok in H as (c & _ & H). apply Ok_inj in H. injection H as <- <-.
      exists [(cur, sp)], Inside. split; [econstructor; eassumption|]. split; [|discriminate]. apply ONE; reflexivity.
    + apply Ok_inj in H. injection H as <- <-.
      exists [(cur, sp)], Inside. split; [econstructor; eassumption|]. split; [apply ONE; reflexivity|]. intros _. cbn. congruence.
  - destruct (crosses_edge _ _ _ _ CR) as [?|HR]; [contradiction|].
    apply bind_ok in H as ([nref nx1] & El & H). apply (ray_link_spec vs sp t p Ev HB1 HR) in El. destruct El as (c & Hc & El).
    apply bind_ok in H as ([hit3 pos3] & E3 & H).
    assert (H3 : rT hit3 = rT hit2 /\ rNormal hit3 = rNormal hit2 /\ rEdge hit3 = rEdge hit2 /\ rPath hit3 = rPath hit2 /\ rMaxPath hit3 = rMaxPath hit2 /\ (use_costs options = false -> rCost hit3 = rCost hit2)).
    { destruct (use_costs options).
      - apply bind_ok in E3 as (pos' & _ & E3). apply bind_ok in E3 as (cst & _ & E3). apply Ok_inj in E3. injection E3 as <- _. cbn. split; [reflexivity|]. repeat (split; [reflexivity|]). discriminate.
      - apply Ok_inj in E3. injection E3 as <- _. auto 10. }
    clear E3. destruct H3 as (C1 & C2 & C3 & C4 & C5 & C6).
    destruct (Z.eqb_spec nref 0) as [->|Nr].
    + apply bind_ok in H as (nrm & Ew & H). apply Ok_inj in H. injection H as <- <-.
      apply wall_normal_spec in Ew; [|exact HR]. destruct Ew as (u & v & Eu & ->).
      exists [(cur, sp)], (Wall (normalize (fsub (vz v) (vz u), f0, fopp (fsub (vx v) (vx u))))). split.
      * eapply Trace_wall; try eassumption. destruct El as [[_ HL]|(s & l & k & HL & HT & E0 & _)]; [left; exists c; auto|right]. exists l. split; [|exact E0]. exists c, s, k. auto.
      * split; [|cbn; intros U; rewrite (C6 U); congruence]. apply ONE; cbn; congruence.
    + destruct El as [[-> _]|(s & l & k & HL & HT & E0 & HP1)]; [contradiction|].
      apply IH in H; [|exact Nr|exact HP1|exact Hn2]. destruct H as (tr & e & HTr & HR1 & HCo).
      exists ((cur, sp) :: tr), e. split.
      * eapply (Trace_step m flt a b cur t p vs sp l); try eassumption; [exists c, s, k; auto|congruence|]. rewrite E0. exact HTr.
      * split; [|intros U; rewrite (HCo U), (C6 U); congruence]. apply (CONS hit3); assumption.
Qed.

(** The trace is unique. *)
Lemma takes_first_det : forall t p vs sp l l', first_link m flt a b t p vs sp l -> first_link m flt a b t p vs sp l' -> l = l'.
Proof using.
  intros t p vs sp l l' (c & s & k & HS & HT & HF) (c' & s' & k' & HS' & HT' & HF'). revert HS HS' HF HF'. generalize (pFirstLink p). revert c'.
  induction c as [|x c IH]; intros c' i HS HS' HF HF'.
  - cbn [app] in HS. inversion HS as [|? l1 ? ? N E _]; subst. destruct c' as [|x' c'].
    + cbn [app] in HS'. inversion HS' as [|? l2 ? ? N' E' _]; subst. rewrite E in E'. injection E' as ->. reflexivity.
    + cbn [app] in HS'. inversion HS' as [|? l2 ? ? N' E' _]; subst. rewrite E in E'. injection E' as ->. inversion HF' as [|? ? T _]; subst. cbn [snd] in T. contradiction.
  - cbn [app] in HS. inversion HS as [|? l1 ? ? N E HS1]; subst. destruct c' as [|x' c'].
    + cbn [app] in HS'. inversion HS' as [|? l2 ? ? N' E' _]; subst. rewrite E in E'. injection E' as ->. inversion HF as [|? ? T _]; subst. cbn [snd] in T. contradiction.
    + cbn [app] in HS'. inversion HS' as [|? l2 ? ? N' E' HS1']; subst. rewrite E in E'. injection E' as ->. inversion HF; inversion HF'; subst. eapply IH; eassumption.
Qed.
Lemma no_link_first : forall t p vs sp l, no_link m flt a b t p vs sp -> first_link m flt a b t p vs sp l -> False.
Proof using.
  intros t p vs sp l (c & HC & HF) (c' & s & k & HS & HT & _). revert HC HS HF. unfold LChain. generalize (pFirstLink p). revert c'.
  induction c as [|x c IH]; intros c' i HC HS HF.
  - inversion HC; subst. destruct c'; cbn [app] in HS; inversion HS; congruence.
  - inversion HC as [|? l1 ? ? N E HC1]; subst. inversion HF as [|? ? T HF1]; subst. cbn [snd] in T. destruct c' as [|x' c']; cbn [app] in HS; inversion HS as [|? l2 ? ? N' E' HS1]; subst.
    + rewrite E in E'. injection E' as ->. contradiction.
    + rewrite E in E'. injection E' as ->. eapply IH; eassumption.
Qed.
Lemma Trace_det : forall r tr e, Trace m flt a b r tr e -> forall tr' e', Trace m flt a b r tr' e' -> tr = tr' /\ e = e'.
Proof using.
  assert (SP : forall vs sp sp', crosses a b vs sp -> crosses a b vs sp' -> sp = sp').
  { unfold crosses. intros vs sp sp' X Y. congruence. }
  Ltac same := repeat match goal with
    | P : polygon_at _ ?r ?t ?p, Q : polygon_at _ ?r ?t' ?p' |- _ => destruct (polygon_at_det _ _ _ _ _ _ P Q) as [<- <-]; clear Q
    | P : corners ?t ?p ?vs, Q : corners ?t ?p ?vs' |- _ => pose proof (corners_det _ _ _ _ P Q); subst vs'; clear Q
    | P : crosses _ _ ?vs ?sp, Q : crosses _ _ ?vs ?sp' |- _ => assert (sp = sp') by (unfold crosses in P, Q; congruence); subst sp'; clear Q
    end.
  intros r tr e H. induction H as [r t p vs P C N|r t p vs sp P C X E|r t p vs sp u v P C X E S G|r t p vs sp l tr e P C X E F N H IH]; intros tr' e' H';
    inversion H' as [r2 t2 p2 vs2 P2 C2 N2|r2 t2 p2 vs2 sp2 P2 C2 X2 E2|r2 t2 p2 vs2 sp2 u2 v2 P2 C2 X2 E2 S2 G2|r2 t2 p2 vs2 sp2 l2 tr2 e2 P2 C2 X2 E2 F2 N2 H2]; subst; same;
    try solve [auto]; try solve [exfalso; eapply N; eassumption]; try solve [exfalso; eapply N2; eassumption]; try contradiction.
  - destruct G as [G1 G3], G2 as [G4 G5]. rewrite G1 in G4. rewrite G3 in G5. injection G4 as <-. injection G5 as <-. auto.
  - exfalso. destruct S as [S|(l' & S & S0)]; [eapply no_link_first; eassumption|]. pose proof (takes_first_det _ _ _ _ _ _ S F2). subst. contradiction.
  - exfalso. destruct S2 as [S|(l' & S & S0)]; [eapply no_link_first; eassumption|]. pose proof (takes_first_det _ _ _ _ _ _ S F). subst. contradiction.
  - pose proof (takes_first_det _ _ _ _ _ _ F F2). subst l2. destruct (IH _ _ H2) as [-> ->]. auto.
Qed.

End Ray.
