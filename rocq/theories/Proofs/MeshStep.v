(** What the linking functions do to a mesh: the tile table stays, links are only prepended. *)
From Coq Require Import ZArith List Bool Lia Permutation.
From Verif.Base Require Import Res GoNum F32 Num Grid.
From Verif.Model Require Import Poly PolyRef Bounds Geom MeshTypes Serial MeshLinks MeshTiles.
From Verif.Spec Require Import LinkSpec.
From Verif.Proofs Require Import LinkProofs IntLinkProofs.
Import ListNotations.
Open Scope Z_scope.

(** [c'] is [c] with new links in front, whose references satisfy [Q]. *)
Definition ext_chain (Q : Z -> Prop) (c' c : list (Z * payload)) : Prop :=
  exists p, c' = p ++ c /\ Forall (fun x => Q (pay_ref (snd x))) p.
Definition tstep (Q : Z -> Prop) (t t' : MeshTile) : Prop :=
  frame t t' /\ forall fl cs, LinkView t fl cs -> exists fl' cs', LinkView t' fl' cs' /\ Forall2 (ext_chain Q) cs' cs.
Definition table (m : NavMesh) := set_mTiles m [].
Definition mstep (Q : nat -> Z -> Prop) (m m' : NavMesh) : Prop :=
  table m' = table m /\ length (mTiles m') = length (mTiles m) /\
  forall i t, nth_error (mTiles m) i = Some t -> exists t', nth_error (mTiles m') i = Some t' /\ tstep (Q i) t t'.

Lemma ext_chain_refl : forall Q c, ext_chain Q c c.
Proof. intros. exists []. split; auto. Qed.
Lemma ext_chain_trans : forall Q a b c, ext_chain Q a b -> ext_chain Q b c -> ext_chain Q a c.
Proof.
  intros Q a b c (p & -> & Hp) (q & -> & Hq). exists (p ++ q). split; [apply app_assoc|]. apply Forall_app. auto.
Qed.
Lemma Forall2_refl' : forall {A} (R : A -> A -> Prop) l, (forall x, R x x) -> Forall2 R l l.
Proof. induction l; constructor; auto. Qed.
Lemma Forall2_trans' : forall {A} (R : A -> A -> Prop) a b c, (forall x y z, R x y -> R y z -> R x z) ->
  Forall2 R a b -> Forall2 R b c -> Forall2 R a c.
Proof.
  intros A R a b c HR H. revert c. induction H; intros c Hc; inversion Hc; subst; constructor; eauto.
Qed.
Lemma Forall2_impl' : forall {A B} (P Q : A -> B -> Prop) l k, (forall x y, P x y -> Q x y) -> Forall2 P l k -> Forall2 Q l k.
Proof. intros A B P Q l k HI H. induction H; constructor; auto. Qed.

Lemma tstep_refl : forall Q t, tstep Q t t.
Proof. intros Q t. split; [apply frame_refl|]. intros fl cs H. exists fl, cs. split; auto. apply Forall2_refl', ext_chain_refl. Qed.
Lemma tstep_trans : forall Q a b c, tstep Q a b -> tstep Q b c -> tstep Q a c.
Proof.
  intros Q a b c (F1 & V1) (F2 & V2). split; [eapply frame_trans; eassumption|]. intros fl cs H.
  destruct (V1 fl cs H) as (fl1 & cs1 & H1 & E1). destruct (V2 fl1 cs1 H1) as (fl2 & cs2 & H2 & E2).
  exists fl2, cs2. split; auto. eapply Forall2_trans'; [apply ext_chain_trans|eassumption|eassumption].
Qed.
Lemma tstep_impl : forall (P Q : Z -> Prop) a b, (forall r, P r -> Q r) -> tstep P a b -> tstep Q a b.
Proof.
  intros P Q a b HI (F & V). split; auto. intros fl cs H. destruct (V fl cs H) as (fl' & cs' & H' & E).
  exists fl', cs'. split; auto. eapply Forall2_impl'; [|exact E]. intros x y (p & -> & Hp). exists p. split; auto.
  eapply Forall_impl; [|exact Hp]. auto.
Qed.
Lemma mstep_refl : forall Q m, mstep Q m m.
Proof. intros Q m. split; auto. split; auto. intros i t H. exists t. split; auto. apply tstep_refl. Qed.
Lemma mstep_trans : forall Q a b c, mstep Q a b -> mstep Q b c -> mstep Q a c.
Proof.
  intros Q a b c (T1 & L1 & S1) (T2 & L2 & S2). split; [congruence|]. split; [congruence|]. intros i t H.
  destruct (S1 i t H) as (t1 & H1 & E1). destruct (S2 i t1 H1) as (t2 & H2 & E2). exists t2. split; auto.
  eapply tstep_trans; eassumption.
Qed.
Lemma mstep_impl : forall (P Q : nat -> Z -> Prop) a b, (forall i r, P i r -> Q i r) -> mstep P a b -> mstep Q a b.
Proof.
  intros P Q a b HI (T & L & S). split; auto. split; auto. intros i t H. destruct (S i t H) as (t' & H' & E).
  exists t'. split; auto. eapply tstep_impl; [|exact E]. apply HI.
Qed.

Lemma table_mBits : forall m m', table m' = table m -> mBits m' = mBits m.
Proof. intros m m' H. apply (f_equal mBits) in H. exact H. Qed.

Lemma tile_of_nth : forall m i t, tile_of m i = Ok t <-> nth_error (mTiles m) i = Some t.
Proof. intros. apply getn_ok. Qed.

Lemma mstep_tile : forall Q m m' i t, mstep Q m m' -> tile_of m i = Ok t -> exists t', tile_of m' i = Ok t' /\ tstep (Q i) t t'.
Proof. intros Q m m' i t (_ & _ & S) H. apply tile_of_nth in H. destruct (S i t H) as (t' & H' & E). exists t'. split; auto. now apply tile_of_nth. Qed.

Lemma mstep_tile_rev : forall Q m m' i t', mstep Q m m' -> tile_of m' i = Ok t' -> exists t, tile_of m i = Ok t /\ tstep (Q i) t t'.
Proof.
  intros Q m m' i t' HS H. pose proof HS as (_ & L & _). apply tile_of_nth in H.
  destruct (nth_error_in_range (mTiles m) i) as (t & Ht); [rewrite <- L; apply nth_error_Some; congruence|].
  apply tile_of_nth in Ht. destruct (mstep_tile _ _ _ _ _ HS Ht) as (t1 & H1 & E). apply tile_of_nth in H1. rewrite H in H1. inversion H1; subst.
  eauto.
Qed.

Lemma mstep_set : forall (Q : nat -> Z -> Prop) m i t t', tile_of m i = Ok t -> tstep (Q i) t t' -> mstep Q m (set_tile m i t').
Proof.
  intros Q m i t t' H HS. apply tile_of_nth in H. split; [reflexivity|]. cbn [set_tile mTiles set_mTiles]. split; [apply upd_length|].
  intros k s Hk. rewrite nth_error_upd. destruct (Nat.eqb_spec k i) as [->|Hne].
  - rewrite H. exists t'. split; auto. rewrite H in Hk. inversion Hk; subst. exact HS.
  - exists s. split; auto. apply tstep_refl.
Qed.

Lemma frame_skel : forall t t', frame t t' -> skel t' = skel t.
Proof. intros t t' H. apply H. Qed.
Lemma frame_salt : forall t t', frame t t' -> tSalt t' = tSalt t.
Proof. intros t t' H. apply frame_skel in H. unfold skel in H. congruence. Qed.
Lemma frame_header : forall t t', frame t t' -> tHeader t' = tHeader t.
Proof. intros t t' H. apply frame_skel in H. unfold skel in H. congruence. Qed.
Lemma frame_polys : forall t t', frame t t' -> length (tdPolys (tD t')) = length (tdPolys (tD t)).
Proof. intros t t' (_ & H & _). apply (f_equal (@length _)) in H. now rewrite !map_length in H. Qed.

(** The header data agrees with the sections and names existing polygons. *)
Definition wfT (t : MeshTile) (h : MeshHeader) : Prop :=
  hPolyCount h = zlen (tdPolys (tD t)) /\
  (forall n, In n (tdBv (tD t)) -> bI n < hPolyCount h) /\
  (forall p j, In p (tdPolys (tD t)) -> internal_edge p j = true -> nth (Z.to_nat j) (pNeis p) 0 - 1 < hPolyCount h).
Lemma internal_edge_static : forall p q, static_poly p = static_poly q -> internal_edge p = internal_edge q /\ pNeis p = pNeis q.
Proof. intros p q H. unfold static_poly in H. unfold internal_edge. inversion H. now rewrite H2. Qed.
Lemma wfT_frame : forall t t' h, frame t t' -> wfT t h -> wfT t' h.
Proof.
  intros t t' h F (H1 & H2 & H3). pose proof (frame_polys _ _ F) as Hl. destruct F as (_ & Hp & _ & _ & _ & _ & _ & _ & Hb & _).
  split; [unfold zlen in *; rewrite Hl; exact H1|]. split; [rewrite Hb; exact H2|].
  intros p j Hin Hj. assert (In (static_poly p) (map static_poly (tdPolys (tD t')))) as Hs by (apply in_map; assumption).
  rewrite Hp in Hs. apply in_map_iff in Hs. destruct Hs as (q & E & Hq). destruct (internal_edge_static _ _ E) as (E1 & E2).
  rewrite <- E2. apply H3; auto. rewrite E1. exact Hj.
Qed.
Lemma frame_sym_wfT : forall t t' h, frame t t' -> wfT t' h -> wfT t h.
Proof.
  intros t t' h F. apply wfT_frame. unfold frame in *. destruct F as (A1 & A2 & A3 & A4 & A5 & A6 & A7 & A8 & A9 & A10).
  repeat (split; [try congruence; intros; symmetry; apply A5; congruence|]). congruence.
Qed.

(** [r] names a polygon of tile [j]; an existing one when the tile's data is in order. *)
Definition polyref_of (m : NavMesh) (j : nat) (r : Z) : Prop :=
  exists t h ip, tile_of m j = Ok t /\ tHeader t = Some h /\ 0 <= ip /\ (wfT t h -> ip < hPolyCount h) /\
    r = Z.lor (encodePolyID (mBits m) (tSalt t) (Z.of_nat j) 0) ip.
Lemma polyref_mstep : forall Q m m' j r, mstep Q m m' -> polyref_of m' j r -> polyref_of m j r.
Proof.
  intros Q m m' j r HS (t' & h & ip & Ht & Hh & H0 & Hip & ->). destruct (mstep_tile_rev _ _ _ _ _ HS Ht) as (t & Ht1 & F & _).
  exists t, h, ip. split; auto. rewrite (frame_header _ _ F) in Hh. split; auto. split; auto. split.
  - intros W. apply Hip. eapply wfT_frame; eassumption.
  - rewrite (frame_salt _ _ F). destruct HS as (T & _). now rewrite (table_mBits _ _ T).
Qed.

(** ** Elementary steps *)
Lemma Forall2_ext_upd : forall Q cs n c c', nth_error cs n = Some c -> ext_chain Q c' c -> Forall2 (ext_chain Q) (upd cs n c') cs.
Proof.
  intros Q cs n c c' H HE. rewrite <- (upd_self cs n c H) at 2.
  apply (Forall2_upd eq).
  - apply Forall2_refl'. reflexivity.
  - intros j x y _ _ _ ->. apply ext_chain_refl.
  - exact HE.
Qed.
Lemma push_tstep : forall (Q : Z -> Prop) t ip ref edge side b t', push_link t ip ref edge side b = Ok t' -> Q ref -> tstep Q t t'.
Proof.
  intros Q t ip ref edge side b t' H HQ. split; [eapply push_frame; eassumption|]. intros fl cs HV.
  destruct (push_view _ _ _ _ _ _ _ _ _ HV H) as [(-> & ->)|(x & px & fl' & p & c & bb & -> & Hp & Hc & _ & HV')].
  - exists [], cs. split; auto. apply Forall2_refl', ext_chain_refl.
  - eexists _, _. split; [exact HV'|]. eapply Forall2_ext_upd; [exact Hc|]. eexists [_]. split; [reflexivity|].
    constructor; [exact HQ|constructor].
Qed.
Lemma get_nonempty : forall {A} (l : list A) i x, get l i = Ok x -> l <> [].
Proof. intros A l i x H. apply get_range in H. intros ->. unfold zlen in H. cbn in H. lia. Qed.
Lemma assign_tstep : forall Q t idx v t', tdCons (tD t) <> [] -> assign_vert t idx v = Ok t' -> tstep Q t t'.
Proof.
  intros Q t idx v t' Hcn H. unfold assign_vert in H. apply bind_ok in H. destruct H as (a & Ha & H).
  apply bind_ok in H. destruct H as (b & Hb & H). apply bind_ok in H. destruct H as (c & Hc & H). apply Ok_inj in H. subst t'.
  apply set_ok_upd in Ha, Hb, Hc. destruct Ha as [_ ->]. destruct Hb as [_ ->]. destruct Hc as [_ ->]. split.
  - unfold frame. split; [reflexivity|]. split; [reflexivity|]. split; [reflexivity|]. cbn [tD set_tD set_tdVerts tdVerts].
    split; [now rewrite !upd_length|]. split; [intros E; contradiction|]. repeat (split; [reflexivity|]). reflexivity.
  - intros fl cs HV. exists fl, cs. split; [exact HV|]. apply Forall2_refl', ext_chain_refl.
Qed.

Lemma base_of_tile : forall m i t, tile_of m i = Ok t -> polyRefBase m i = Ok (encodePolyID (mBits m) (tSalt t) (Z.of_nat i) 0).
Proof. intros m i t H. unfold polyRefBase. rewrite H. reflexivity. Qed.

(** ** References found by the queries *)
Lemma findConnectingPolys_refs : forall m va vb it side k l, findConnectingPolys m va vb it side k = Ok l ->
  Forall (fun x => polyref_of m it (fst x)) l.
Proof.
  intros m va vb it side k l H. unfold findConnectingPolys in H.
  apply bind_ok in H. destruct H as ([amin amax] & _ & H). apply bind_ok in H. destruct H as (apos & _ & H).
  apply bind_ok in H. destruct H as (t & Ht & H). apply bind_ok in H. destruct H as (h & Hh & H).
  apply bind_ok in H. destruct H as (base & Hb & H).
  rewrite (base_of_tile _ _ _ Ht) in Hb. apply Ok_inj in Hb. subst base.
  apply (foldM_ok_pres _ (fun acc => Forall (fun x => polyref_of m it (fst x)) acc)) in H; auto.
  intros i acc acc' Hi Hacc E. apply bind_ok in E. destruct E as (p & Hp & E). apply bind_ok in E. destruct E as (c & _ & E).
  apply in_zseq in Hi. destruct c as [area|]; [|apply Ok_inj in E; subst; assumption].
  destruct (_ <? _); apply Ok_inj in E; subst; auto. apply Forall_app. split; auto. constructor; [|constructor].
  cbn [fst]. unfold hdr_of in Hh. destruct (tHeader t) as [h'|] eqn:Eh; cbn in Hh; [|discriminate]. apply Ok_inj in Hh. subst h'.
  exists t, h, i. split; [exact Ht|]. split; [exact Eh|]. split; [lia|]. split; [intros _; lia|reflexivity].
Qed.

Lemma upd_Forall : forall {A} (P : A -> Prop) l n v, Forall P l -> P v -> Forall P (upd l n v).
Proof.
  intros A P l n v H Hv. revert n. induction H; intros [|n]; cbn; constructor; auto.
Qed.
Definition ref0 (m : NavMesh) (it : nat) (r : Z) : Prop := r = 0 \/ polyref_of m it r.
Lemma bv_query_refs : forall m it t h fuel bv qmin qmax endIdx maxp idx n polys n' polys',
  tile_of m it = Ok t -> tHeader t = Some h -> (forall x, In x bv -> In x (tdBv (tD t))) ->
  bv_query fuel bv qmin qmax (encodePolyID (mBits m) (tSalt t) (Z.of_nat it) 0) endIdx maxp idx n polys = Ok (n', polys') ->
  Forall (ref0 m it) polys -> Forall (ref0 m it) polys'.
Proof.
  intros m it t h. induction fuel as [|fuel IH]; intros bv qmin qmax endIdx maxp idx n polys n' polys' Ht Hh Hin H Hp; [discriminate|].
  cbn [bv_query] in H. destruct (idx <? endIdx).
  - apply bind_ok in H. destruct H as (node & Hnode & H). apply bind_ok in H. destruct H as ([n1 p1] & E1 & H).
    apply IH in H; auto.
    destruct (_ && _) eqn:Ec in E1.
    + apply bind_ok in E1. destruct E1 as (p2 & E2 & E1). apply Ok_inj in E1. inversion E1; subst. apply set_ok_upd in E2. destruct E2 as [_ ->].
      apply upd_Forall; auto. right. exists t, h, (bI node). split; auto. split; auto.
      rewrite !andb_true_iff in Ec. destruct Ec as ((Hleaf & _) & _). apply Z.leb_le in Hleaf. split; auto. split; auto.
      intros (_ & Hb & _). apply Hb. apply Hin. apply get_ok in Hnode. destruct Hnode as [_ Hnode]. eapply nth_error_In; exact Hnode.
    + apply Ok_inj in E1. inversion E1; subst. assumption.
  - apply Ok_inj in H. inversion H; subst. assumption.
Qed.
Lemma queryInTile_refs : forall m it qmin qmax polys k n polys', mesh_queryPolygonsInTile m it qmin qmax polys k = Ok (n, polys') ->
  Forall (ref0 m it) polys -> Forall (ref0 m it) polys'.
Proof.
  intros m it qmin qmax polys k n polys' H Hp. unfold mesh_queryPolygonsInTile in H.
  apply bind_ok in H. destruct H as (t & Ht & H). apply bind_ok in H. destruct H as (h & Hh & H).
  apply bind_ok in H. destruct H as (base & Hb & H). rewrite (base_of_tile _ _ _ Ht) in Hb. apply Ok_inj in Hb. subst base.
  unfold hdr_of in Hh. destruct (tHeader t) as [h'|] eqn:Eh; cbn in Hh; [|discriminate]. apply Ok_inj in Hh. subst h'.
  destruct (tdBv (tD t)) as [|b0 bv0] eqn:Ebv.
  - pose (I := fun s : Z * list Z => Forall (ref0 m it) (snd s)). change (I (n, polys')).
    eapply (foldM_ok_pres _ I); [exact H|exact Hp|].
    intros i [n1 p1] [n2 p2] Hi Hp1 E. apply in_zseq in Hi. unfold I in *. cbn [snd] in *.
    apply bind_ok in E. destruct E as (p & Hpp & E). destruct (_ =? _); [apply Ok_inj in E; inversion E; subst; assumption|].
    apply bind_ok in E. destruct E as (v0 & _ & E). apply bind_ok in E. destruct E as (bb & _ & E). apply bind_ok in E. destruct E as ([bmin bmax] & _ & E).
    destruct (_ && _).
    + apply bind_ok in E. destruct E as (p3 & E3 & E). apply Ok_inj in E. inversion E; subst. apply set_ok_upd in E3. destruct E3 as [_ ->].
      apply upd_Forall; auto. right. exists t, h, i. split; auto. split; auto. split; [lia|]. split; [intros _; lia|reflexivity].
    + apply Ok_inj in E. inversion E; subst. assumption.
  - rewrite <- Ebv in H. eapply bv_query_refs; [exact Ht|exact Eh| |exact H|exact Hp]. auto.
Qed.
Lemma FindNearest_ref : forall m it c e r pt, mesh_FindNearestPolyInTile m it c e = Ok (r, pt) -> ref0 m it r.
Proof.
  intros m it c e r pt H. unfold mesh_FindNearestPolyInTile in H.
  apply bind_ok in H. destruct H as (t & Ht & H). apply bind_ok in H. destruct H as (h & Hh & H).
  apply bind_ok in H. destruct H as ([n polys] & Hq & H). apply queryInTile_refs in Hq.
  2:{ apply Forall_forall. intros x Hx. apply repeat_spec in Hx. left. assumption. }
  apply bind_ok in H. destruct H as ([[best nearest] pt'] & Hf & H). apply Ok_inj in H. inversion H; subst. clear H.
  pose (I := fun s : f32 * Z * fvec => ref0 m it (snd (fst s))). change (I (best, r, pt)).
  eapply (foldM_ok_pres _ I); [exact Hf|left; reflexivity|].
  intros i [[b1 n1] p1] [[b2 n2] p2] _ H1 E. unfold I in *. cbn [fst snd] in *.
  apply bind_ok in E. destruct E as (ref & Hr & E). apply bind_ok in E. destruct E as ([cl ov] & _ & E).
  destruct (fle _ _) in E; apply Ok_inj in E; inversion E; subst; auto.
  apply get_ok in Hr. destruct Hr as [_ Hr]. apply nth_error_In in Hr. rewrite Forall_forall in Hq. apply Hq. assumption.
Qed.

(** ** The linking functions *)
Definition has_cons (m : NavMesh) (k : nat) : Prop := exists t, tile_of m k = Ok t /\ tdCons (tD t) <> [].
Lemma has_cons_mstep : forall Q m m' k, mstep Q m m' -> has_cons m' k <-> has_cons m k.
Proof.
  intros Q m m' k HS. split; intros (t & Ht & Hc).
  - destruct (mstep_tile_rev _ _ _ _ _ HS Ht) as (t0 & Ht0 & F & _). exists t0. split; auto. destruct F as (_ & _ & _ & _ & _ & _ & _ & _ & _ & Ec). congruence.
  - destruct (mstep_tile _ _ _ _ _ HS Ht) as (t0 & Ht0 & F & _). exists t0. split; auto. destruct F as (_ & _ & _ & _ & _ & _ & _ & _ & _ & Ec). congruence.
Qed.
Lemma hdr_ok : forall t h, hdr_of t = Ok h -> tHeader t = Some h.
Proof. intros t h H. unfold hdr_of in H. destruct (tHeader t); cbn in H; [|discriminate]. apply Ok_inj in H. now subst. Qed.

Lemma baseOffMeshLinks_mstep : forall m it m', baseOffMeshLinks m it = Ok m' ->
  mstep (fun i r => i = it /\ polyref_of m it r /\ has_cons m it) m m'.
Proof.
  intros m it m' H. unfold baseOffMeshLinks in H.
  apply bind_ok in H. destruct H as (t0 & Ht0 & H). apply bind_ok in H. destruct H as (h0 & Hh0 & H).
  apply bind_ok in H. destruct H as (base & Hb & H). rewrite (base_of_tile _ _ _ Ht0) in Hb. apply Ok_inj in Hb. subst base. apply hdr_ok in Hh0.
  set (Q := fun (i : nat) r => i = it /\ polyref_of m it r /\ has_cons m it).
  eapply (foldM_ok_pres _ (fun s => mstep Q m s)); [exact H|apply mstep_refl|].
  intros i s s' _ HS E. unfold baseOffMeshLink in E.
  apply bind_ok in E. destruct E as (t & Ht & E). apply bind_ok in E. destruct E as (con & Hcon & E).
  apply bind_ok in E. destruct E as (poly & Hpoly & E). apply bind_ok in E. destruct E as (p & _ & E).
  apply bind_ok in E. destruct E as ([ref pt] & Hn & E).
  destruct (Z.eqb_spec ref 0) as [_|Hr]; [apply Ok_inj in E; subst; assumption|].
  destruct (fgt _ _); [apply Ok_inj in E; subst; assumption|].
  apply bind_ok in E. destruct E as (v0 & _ & E). destruct (_ <? _); [discriminate|].
  apply bind_ok in E. destruct E as (t1 & Ha & E). apply bind_ok in E. destruct E as (t2 & Hp1 & E).
  apply bind_ok in E. destruct E as (t3 & Hp2 & E). apply Ok_inj in E. subst s'.
  assert (HC : has_cons m it) by (apply (has_cons_mstep _ _ _ _ HS); exists t; split; [exact Ht|eapply get_nonempty; exact Hcon]).
  eapply mstep_trans; [exact HS|]. eapply mstep_set; [exact Ht|].
  apply FindNearest_ref in Hn. destruct Hn as [Hn|Hn]; [contradiction|]. apply (polyref_mstep _ _ _ _ _ HS) in Hn.
  eapply tstep_trans; [eapply assign_tstep; [eapply get_nonempty; exact Hcon|exact Ha]|].
  eapply tstep_trans; [eapply push_tstep; [exact Hp1|]|eapply push_tstep; [exact Hp2|]].
  - split; auto.
  - split; auto. split; auto. destruct (mstep_tile_rev _ _ _ _ _ HS Ht) as (t' & Ht' & F & _). rewrite Ht0 in Ht'. apply Ok_inj in Ht'. subst t'.
    exists t0, h0, (ocPoly con). split; [exact Ht0|]. split; [exact Hh0|]. apply get_range in Hpoly. split; [lia|]. split; [|reflexivity].
    intros (W & _). rewrite W. pose proof (frame_polys _ _ F) as Hl. unfold zlen in *. lia.
Qed.

Lemma connectExtOffMeshLinks_mstep : forall m it itarget side m', connectExtOffMeshLinks m it itarget side = Ok m' ->
  mstep (fun i r => i = itarget /\ polyref_of m it r /\ has_cons m itarget \/ i = it /\ polyref_of m itarget r /\ has_cons m itarget) m m'.
Proof.
  intros m it itarget side m' H. unfold connectExtOffMeshLinks in H.
  apply bind_ok in H. destruct H as (t0 & Ht0 & H). apply bind_ok in H. destruct H as (h0 & Hh0 & H). apply hdr_ok in Hh0.
  set (Q := fun (i : nat) r => i = itarget /\ polyref_of m it r /\ has_cons m itarget \/ i = it /\ polyref_of m itarget r /\ has_cons m itarget).
  eapply (foldM_ok_pres _ (fun s => mstep Q m s)); [exact H|apply mstep_refl|].
  intros i s s' _ HS E. unfold connectExtOffMeshLink in E.
  apply bind_ok in E. destruct E as (tg & Htg & E). apply bind_ok in E. destruct E as (con & Hcon & E).
  destruct (negb _); [apply Ok_inj in E; subst; assumption|].
  apply bind_ok in E. destruct E as (tpoly & Hpoly & E). destruct (_ =? nullLink); [apply Ok_inj in E; subst; assumption|].
  apply bind_ok in E. destruct E as (p & _ & E). apply bind_ok in E. destruct E as ([ref pt] & Hn & E).
  destruct (Z.eqb_spec ref 0) as [_|Hr]; [apply Ok_inj in E; subst; assumption|].
  destruct (fgt _ _); [apply Ok_inj in E; subst; assumption|].
  apply bind_ok in E. destruct E as (v1 & _ & E). apply bind_ok in E. destruct E as (t1 & Ha & E). apply bind_ok in E. destruct E as (t2 & Hp1 & E).
  apply FindNearest_ref in Hn. destruct Hn as [Hn|Hn]; [contradiction|]. apply (polyref_mstep _ _ _ _ _ HS) in Hn.
  assert (HC : has_cons m itarget) by (apply (has_cons_mstep _ _ _ _ HS); exists tg; split; [exact Htg|eapply get_nonempty; exact Hcon]).
  assert (HS2 : mstep Q m (set_tile s itarget t2)).
  { eapply mstep_trans; [exact HS|]. eapply mstep_set; [exact Htg|]. eapply tstep_trans; [eapply assign_tstep; [eapply get_nonempty; exact Hcon|exact Ha]|].
    eapply push_tstep; [exact Hp1|]. left. auto. }
  destruct (_ =? 0); [apply Ok_inj in E; subst; exact HS2|].
  apply bind_ok in E. destruct E as (t & Ht & E). apply bind_ok in E. destruct E as (tbase & Hb & E).
  apply bind_ok in E. destruct E as (t3 & Hp2 & E). apply Ok_inj in E. subst s'.
  eapply mstep_trans; [exact HS2|]. eapply mstep_set; [exact Ht|]. eapply push_tstep; [exact Hp2|]. right. split; auto. split; auto.
  destruct (mstep_tile_rev _ _ _ _ _ HS Htg) as (t' & Ht' & F & _). rewrite Ht0 in Ht'. apply Ok_inj in Ht'. subst t'.
  destruct (mstep_tile _ _ _ _ _ HS2 Ht0) as (t4 & Ht4 & F4 & _). rewrite (base_of_tile _ _ _ Ht4) in Hb. apply Ok_inj in Hb. subst tbase.
  exists t0, h0, (ocPoly con). split; [exact Ht0|]. split; [exact Hh0|]. apply get_range in Hpoly. split; [lia|]. split.
  - intros (W & _). rewrite W. pose proof (frame_polys _ _ F) as Hl. unfold zlen in *. lia.
  - rewrite (frame_salt _ _ F4). destruct HS2 as (T & _). now rewrite (table_mBits _ _ T).
Qed.

Lemma connectExtLinks_mstep : forall m it itarget side m', connectExtLinks m it itarget side = Ok m' ->
  mstep (fun i r => i = it /\ polyref_of m itarget r) m m'.
Proof.
  intros m it itarget side m' H. unfold connectExtLinks in H.
  apply bind_ok in H. destruct H as (t0 & Ht0 & H). apply bind_ok in H. destruct H as (h0 & Hh0 & H).
  set (Q := fun (i : nat) r => i = it /\ polyref_of m itarget r).
  eapply (foldM_ok_pres _ (fun s => mstep Q m s)); [exact H|apply mstep_refl|].
  intros i s s' _ HS E. apply bind_ok in E. destruct E as (t & Ht & E). apply bind_ok in E. destruct E as (p & Hp & E).
  eapply (foldM_ok_pres _ (fun s => mstep Q m s)); [exact E|exact HS|]. clear E HS Hp Ht. clear s s' t.
  intros j s s' _ HS E. unfold connectExtEdge in E.
  apply bind_ok in E. destruct E as (t & Ht & E). apply bind_ok in E. destruct E as (p1 & Hp1 & E).
  apply bind_ok in E. destruct E as (nei & Hnei & E).
  destruct (_ =? 0); [apply Ok_inj in E; subst; assumption|]. destruct (_ && _); [apply Ok_inj in E; subst; assumption|].
  apply bind_ok in E. destruct E as (v & _ & E). apply bind_ok in E. destruct E as (w & _ & E).
  apply bind_ok in E. destruct E as (va & _ & E). apply bind_ok in E. destruct E as (vb & _ & E).
  apply bind_ok in E. destruct E as (neis & Hn & E). apply bind_ok in E. destruct E as (t1 & Hf & E). apply Ok_inj in E. subst s'.
  eapply mstep_trans; [exact HS|]. eapply mstep_set; [exact Ht|].
  apply findConnectingPolys_refs in Hn. rewrite Forall_forall in Hn.
  eapply (foldM_ok_pres _ (fun x => tstep (Q it) t x)); [exact Hf|apply tstep_refl|].
  intros [ref area] x x' Hin Hx E. destruct (_ =? _); [apply Ok_inj in E; subst; assumption|].
  apply bind_ok in E. destruct E as (lim & _ & E). eapply tstep_trans; [exact Hx|]. eapply push_tstep; [exact E|].
  split; auto. apply (polyref_mstep _ _ _ _ _ HS). apply (Hn (ref, area) Hin).
Qed.
