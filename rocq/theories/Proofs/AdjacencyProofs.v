From Coq Require Import ZArith List Bool Lia.
From Verif.Base Require Import Res GoNum Bits Grid Bytes.
From Verif.Model Require Import PolyMeshOps.
From Verif.Spec Require Import MeshOpsSpec.
From Verif.Proofs Require Import TriangulateProofs MergeProofs.
Import ListNotations.
Open Scope Z_scope.

(** * The table *)
Definition block (nvp : Z) (l : list Z) : list Z := l ++ repeat 65535 (Z.to_nat nvp - length l) ++ repeat 65535 (Z.to_nat nvp).
Lemma block_length : forall nvp l, 0 <= nvp -> zlen l <= nvp -> zlen (block nvp l) = 2 * nvp.
Proof. intros nvp l H0 H. unfold block, zlen in *. rewrite !app_length, !repeat_length. lia. Qed.
Lemma get_app_l : forall {A} (a b : list A) i, i < zlen a -> get (a ++ b) i = get a i.
Proof. intros A a b i H. unfold get, zlen in *. destruct (Z.ltb_spec i 0); [reflexivity|]. now rewrite nth_error_app1 by lia. Qed.
Lemma get_app_r : forall {A} (a b : list A) i, 0 <= i -> get (a ++ b) (zlen a + i) = get b i.
Proof.
  intros A a b i H. unfold get, zlen in *. destruct (Z.ltb_spec (Z.of_nat (length a) + i) 0); [lia|]. destruct (Z.ltb_spec i 0); [lia|].
  rewrite nth_error_app2 by lia. do 2 f_equal. lia.
Qed.
Lemma get_table : forall nvp P rest i j l, 0 <= nvp -> Forall (fun l => zlen l <= nvp) P ->
  nth_error P i = Some l -> 0 <= j < 2 * nvp ->
  get (table nvp P ++ rest) (Z.of_nat i * nvp * 2 + j) = get (block nvp l) j.
Proof.
  intros nvp P rest i j l H0 HP. revert i. induction HP as [|l0 P Hl HP IH]; intros i Hi Hj; [now destruct i|].
  change (table nvp (l0 :: P)) with (block nvp l0 ++ table nvp P). rewrite <- app_assoc.
  pose proof (block_length nvp l0 H0 Hl) as BL.
  destruct i as [|i].
  - inversion Hi; subst. replace (Z.of_nat 0 * nvp * 2 + j) with j by lia. apply get_app_l. lia.
  - replace (Z.of_nat (S i) * nvp * 2 + j) with (zlen (block nvp l0) + (Z.of_nat i * nvp * 2 + j)) by lia.
    rewrite get_app_r by nia. apply IH; assumption.
Qed.
Lemma table_length : forall nvp P, 0 <= nvp -> Forall (fun l => zlen l <= nvp) P -> zlen (table nvp P) = zlen P * (2 * nvp).
Proof.
  intros nvp P H0. induction 1 as [|l P Hl HP IH]; [reflexivity|].
  change (table nvp (l :: P)) with (block nvp l ++ table nvp P). rewrite zlen_app, zlen_cons, IH, block_length by assumption. lia.
Qed.
Lemma get_block : forall nvp l j, 0 <= nvp -> zlen l <= nvp -> 0 <= j < 2 * nvp ->
  get (block nvp l) j = Ok (if j <? zlen l then cyc l j else 65535).
Proof.
  intros nvp l j H0 Hl Hj. unfold block. destruct (Z.ltb_spec j (zlen l)) as [C|C].
  - rewrite get_app_l by assumption. rewrite <- (app_nil_r l) at 1. apply get_pad. lia.
  - replace j with (zlen l + (j - zlen l)) by lia. rewrite get_app_r by lia. rewrite <- repeat_app.
    apply get_ok. split; [lia|]. rewrite (nth_error_nth' _ 65535) by (rewrite repeat_length; unfold zlen in *; lia). now rewrite nth_repeat.
Qed.

(** * The edges in the order of the loops *)
Definition ev : Type := (Z * Z * Z * Z)%type.
Definition evs (P : list (list Z)) (i : Z) : list ev :=
  let l := nth (Z.to_nat i) P [] in map (fun j => (i, j, cyc l j, cyc l (j + 1))) (zseq (length l)).
Definition events (P : list (list Z)) : list ev := flat_map (evs P) (zseq (length P)).

Lemma in_events : forall P i j a b, In (i, j, a, b) (events P) <-> goes P i j a b.
Proof.
  intros P i j a b. unfold events, goes. rewrite in_flat_map. split.
  - intros (i' & Hi & H). apply in_zseq in Hi. unfold evs in H. apply in_map_iff in H. destruct H as (j' & E & Hj).
    inversion E; subst. apply in_zseq in Hj. split; [lia|]. exists (nth (Z.to_nat i) P []).
    split; [apply nth_error_nth'; lia|]. split; [lia|]. auto.
  - intros (Hi & l & Hl & Hj & <- & <-). exists i.
    assert (Z.to_nat i < length P)%nat by (apply nth_error_Some; congruence).
    split; [apply in_zseq; lia|]. unfold evs. rewrite (nth_error_nth _ _ [] Hl).
    apply in_map_iff. exists j. split; [reflexivity|]. apply in_zseq. lia.
Qed.
Definition key (e : ev) : Z * Z := let '(i, j, _, _) := e in (i, j).
Lemma NoDup_map_inv' : forall {A B} (f : A -> B) l, NoDup l -> (forall x y, In x l -> In y l -> f x = f y -> x = y) -> NoDup (map f l).
Proof.
  induction 1 as [|x l Hx Hl IH]; intros H; cbn [map]; constructor.
  - intros F. apply in_map_iff in F. destruct F as (y & E & Hy). apply Hx. rewrite <- (H y x); auto; [now right|now left].
  - apply IH. intros; apply H; auto; now right.
Qed.
Lemma NoDup_flat_map' : forall {A B} (f : A -> list B) l, NoDup l -> (forall a, In a l -> NoDup (f a)) ->
  (forall a b x, In a l -> In b l -> In x (f a) -> In x (f b) -> a = b) -> NoDup (flat_map f l).
Proof.
  induction 1 as [|x l Hx Hl IH]; intros H1 H2; cbn [flat_map]; [constructor|].
  assert (forall u v : list B, NoDup u -> NoDup v -> (forall x, In x u -> ~ In x v) -> NoDup (u ++ v)) as App.
  { induction 1 as [|a u Ha Hu IHu]; intros Hv Hd; [exact Hv|]. cbn [app]. constructor.
    - rewrite in_app_iff. intros [F|F]; [contradiction|]. apply (Hd a); [now left|exact F].
    - apply IHu; auto. intros y Hy. apply Hd. now right. }
  apply App; [apply H1; now left| |].
  - apply IH; [intros; apply H1; now right|]. intros a b y Ha Hb. apply H2; now right.
  - intros y Hy F. apply in_flat_map in F. destruct F as (a & Ha & Hya). apply Hx. rewrite (H2 x a y); auto; [now left|now right].
Qed.
Lemma events_nodup : forall P, NoDup (map key (events P)).
Proof.
  intros P. unfold events. rewrite flat_map_concat_map, concat_map, map_map, <- flat_map_concat_map.
  apply NoDup_flat_map'.
  - apply NoDup_zseq.
  - intros i _. unfold evs. rewrite map_map. apply NoDup_map_inv'; [apply NoDup_zseq|]. intros x y _ _ E. cbn in E. congruence.
  - intros a b x _ _ Ha Hb. unfold evs in *. rewrite map_map in *. apply in_map_iff in Ha, Hb.
    destruct Ha as (? & E1 & _), Hb as (? & E2 & _). cbn in *. congruence.
Qed.
Lemma NoDup_map_inj : forall {A B} (f : A -> B) l x y, NoDup (map f l) -> In x l -> In y l -> f x = f y -> x = y.
Proof.
  induction l as [|z l IH]; intros x y Hn Hx Hy E; [contradiction|]. cbn [map] in Hn. inversion Hn; subst.
  destruct Hx as [->|Hx], Hy as [->|Hy]; auto.
  - exfalso. apply H1. rewrite E. now apply in_map.
  - exfalso. apply H1. rewrite <- E. now apply in_map.
Qed.

Lemma foldM_flat_map : forall {S A B} (f : S -> B -> res S) (g : A -> list B) l s,
  foldM f (flat_map g l) s = foldM (fun s a => foldM f (g a) s) l s.
Proof. induction l as [|a l IH]; intros s; cbn [flat_map foldM]; [reflexivity|]. rewrite foldM_app. destruct (foldM f (g a) s); cbn [bind]; auto. Qed.
Lemma foldM_map' : forall {S A B} (f : S -> B -> res S) (g : A -> B) l s, foldM f (map g l) s = foldM (fun s a => f s (g a)) l s.
Proof. induction l as [|a l IH]; intros s; cbn [map foldM]; [reflexivity|]. destruct (f s (g a)); cbn [bind]; auto. Qed.
Lemma foldM_ext_in : forall {S A} (f g : S -> A -> res S) l s, (forall s a, In a l -> f s a = g s a) -> foldM f l s = foldM g l s.
Proof.
  induction l as [|a l IH]; intros s H; cbn [foldM]; [reflexivity|]. rewrite H by now left.
  destruct (g s a); cbn [bind]; auto. apply IH. intros; apply H; now right.
Qed.

Section Table.
  Variables (nvp : Z) (P : list (list Z)) (rest : list Z).
  Hypothesis Hnvp : 0 <= nvp.
  Hypothesis HP : Forall (fun l => zlen l <= nvp /\ ~ In 65535 l) P.
  Let polys := table nvp P ++ rest.

  Lemma HP1 : Forall (fun l => zlen l <= nvp) P.
  Proof. eapply Forall_impl; [|exact HP]. cbn. tauto. Qed.

  Lemma polyEdge_ok : forall i l j, nth_error P (Z.to_nat i) = Some l -> 0 <= i -> 0 <= j < nvp ->
    polyEdge polys nvp i j = Ok (if j <? zlen l then Some (cyc l j, cyc l (j + 1)) else None).
  Proof.
    intros i l j Hl Hi Hj. unfold polyEdge, polys.
    assert (zlen l <= nvp /\ ~ In 65535 l) as [Lz Hn] by (rewrite Forall_forall in HP; apply HP; eapply nth_error_In; eauto).
    assert (forall k, 0 <= k < nvp -> get (table nvp P ++ rest) (i * nvp * 2 + k) = Ok (if k <? zlen l then cyc l k else 65535)) as G.
    { intros k Hk. rewrite <- (Z2Nat.id i) by lia. rewrite (get_table nvp P rest (Z.to_nat i) k l Hnvp HP1 Hl) by lia. apply get_block; lia. }
    rewrite G by lia. cbn [bind]. unfold meshNullIdx. destruct (Z.ltb_spec j (zlen l)) as [C|C]; [|reflexivity].
    assert (forall k, cyc l k <> 65535) as N by (intros k F; apply Hn; rewrite <- F; apply cyc_in; lia).
    destruct (Z.eqb_spec (cyc l j) 65535) as [F|_]; [now apply N in F|].
    pose proof (G 0) as G0. rewrite Z.add_0_r in G0. rewrite G0 by lia. cbn [bind]. destruct (Z.ltb_spec 0 (zlen l)); [|lia].
    assert (j + 1 = zlen l -> cyc l (j + 1) = cyc l 0) as W.
    { intros E. rewrite E. replace (zlen l) with (0 + 1 * zlen l) by lia. apply cyc_add. intros F. subst. unfold zlen in C. cbn in C. lia. }
    rewrite Z.geb_leb. destruct (Z.leb_spec nvp (j + 1)).
    - rewrite W by lia. reflexivity.
    - rewrite G by lia. cbn [bind]. destruct (Z.ltb_spec (j + 1) (zlen l)).
      + destruct (Z.eqb_spec (cyc l (j + 1)) 65535) as [F|_]; [now apply N in F|reflexivity].
      + rewrite Z.eqb_refl, W by lia. reflexivity.
  Qed.
  Lemma forEdges_ok : forall {S} (f : S -> Z -> Z -> Z -> res S) i l, nth_error P (Z.to_nat i) = Some l -> 0 <= i ->
    forall cnt j s, Z.of_nat cnt + Z.of_nat j = nvp -> (j <= length l)%nat ->
    forEdges polys nvp i f cnt (Z.of_nat j) s =
    foldM (fun s j => f s j (cyc l j) (cyc l (j + 1))) (map (fun k => Z.of_nat j + k) (zseq (length l - j))) s.
  Proof.
    intros S f i l Hl Hi. assert (zlen l <= nvp) as Lz by (pose proof HP1 as H; rewrite Forall_forall in H; apply H; eapply nth_error_In; eauto).
    induction cnt as [|cnt IH]; intros j s E Hj; cbn [forEdges].
    - replace (length l - j)%nat with 0%nat by (unfold zlen in *; lia). reflexivity.
    - rewrite (polyEdge_ok i l) by (auto; lia). cbn [bind]. destruct (Z.ltb_spec (Z.of_nat j) (zlen l)) as [C|C].
      + replace (length l - j)%nat with (1 + (length l - Datatypes.S j))%nat by (unfold zlen in *; lia).
        rewrite zseq_app. cbn [map app foldM]. change (zseq 1) with [0]. cbn [map app foldM]. rewrite Z.add_0_r.
        destruct (f s (Z.of_nat j) (cyc l (Z.of_nat j)) (cyc l (Z.of_nat j + 1))) as [s'| | |]; cbn [bind]; auto.
        replace (Z.of_nat j + 1) with (Z.of_nat (Datatypes.S j)) by lia. rewrite IH by (unfold zlen in *; lia).
        f_equal. rewrite map_map. apply map_ext. intros k. lia.
      + replace (length l - j)%nat with 0%nat by (unfold zlen in *; lia). reflexivity.
  Qed.
  Lemma forAllEdges_ok : forall {S} (f : S -> Z -> Z -> Z -> Z -> res S) s,
    forAllEdges polys (zlen P) nvp f s = foldM (fun s (e : ev) => let '(i, j, a, b) := e in f s i j a b) (events P) s.
  Proof.
    intros S f s. unfold forAllEdges, events. rewrite foldM_flat_map. unfold zlen at 1. rewrite Nat2Z.id.
    apply foldM_ext_in. intros s1 i Hi. apply in_zseq in Hi.
    assert (nth_error P (Z.to_nat i) = Some (nth (Z.to_nat i) P [])) as Hl by (apply nth_error_nth'; lia).
    change 0 with (Z.of_nat 0) at 1. rewrite (forEdges_ok _ i _ Hl) by lia. unfold evs. rewrite foldM_map', Nat.sub_0_r.
    rewrite foldM_map'. apply foldM_ext_in. intros s2 j _. reflexivity.
  Qed.
End Table.

(** * The lists of edges per vertex *)
Inductive walkE (tbl : list Z) (nv : Z) : Z -> list nat -> Prop :=
| walkE_nil : walkE tbl nv 65535 []
| walkE_cons k e l : (Z.of_nat k < 65535) -> get tbl (nv + Z.of_nat k) = Ok e -> walkE tbl nv e l -> walkE tbl nv (Z.of_nat k) (k :: l).
Definition startsAt (D : list medge) (v : Z) (k : nat) : bool :=
  match nth_error D k with Some d => me_v0 d =? v | None => false end.
Definition idxs (D : list medge) (v : Z) : list nat := filter (startsAt D v) (rev (seq 0 (length D))).
Lemma idxs_in : forall D v k, In k (idxs D v) <-> exists d, nth_error D k = Some d /\ me_v0 d = v.
Proof.
  intros D v k. unfold idxs. rewrite filter_In, <- in_rev, in_seq. unfold startsAt. split.
  - intros [_ H]. destruct (nth_error D k) as [d|]; [|discriminate]. exists d. split; [reflexivity|]. now apply Z.eqb_eq.
  - intros (d & E & H). split; [assert (k < length D)%nat by (apply nth_error_Some; congruence); lia|]. rewrite E. now apply Z.eqb_eq.
Qed.
Lemma idxs_len : forall D v, (length (idxs D v) <= length D)%nat.
Proof.
  intros. unfold idxs. rewrite <- (seq_length (length D) 0) at 2. rewrite <- (rev_length (seq 0 (length D))).
  generalize (rev (seq 0 (length D))). induction l as [|x l IH]; [cbn; lia|]. cbn [filter]. destruct (startsAt D v x); cbn [length]; lia.
Qed.
Lemma idxs_snoc : forall D d v, idxs (D ++ [d]) v = (if me_v0 d =? v then [length D] else []) ++ idxs D v.
Proof.
  intros D d v. unfold idxs. rewrite app_length. cbn [length]. rewrite Nat.add_1_r, seq_S, rev_app_distr. cbn [rev app filter Nat.add].
  assert (filter (startsAt (D ++ [d]) v) (rev (seq 0 (length D))) = filter (startsAt D v) (rev (seq 0 (length D)))) as E.
  { apply filter_ext_in. intros i Hi. apply in_rev in Hi. apply in_seq in Hi. unfold startsAt. rewrite nth_error_app1 by lia. reflexivity. }
  rewrite E. unfold startsAt at 1. rewrite nth_error_app2, Nat.sub_diag by lia. cbn [nth_error].
  destruct (me_v0 d =? v); reflexivity.
Qed.
Lemma walkE_upd : forall tbl nv o v e l, 0 <= o -> 0 <= nv -> walkE tbl nv e l -> (forall k, In k l -> nv + Z.of_nat k <> o) ->
  walkE (upd tbl (Z.to_nat o) v) nv e l.
Proof.
  intros tbl nv o v e l Ho Hnv. induction 1 as [|k e l Hk Hg Hw IH]; intros Hn; [constructor|].
  econstructor; [assumption| |apply IH; intros; apply Hn; now right].
  rewrite get_upd by lia. destruct (Z.eqb_spec (nv + Z.of_nat k) o); [exfalso; eapply Hn; eauto; now left|exact Hg].
Qed.

Definition fwd (e : ev) : bool := let '(_, _, a, b) := e in a <? b.
Definition mkE (e : ev) : medge := let '(i, j, a, b) := e in mkMEdge a b i i j 0.
Definition ev_ok (nverts : Z) (e : ev) : Prop :=
  let '(i, j, a, b) := e in 0 <= i < 65535 /\ 0 <= j < 65535 /\ 0 <= a < nverts /\ 0 <= b < nverts.

Lemma filter_snoc : forall {A} (f : A -> bool) l x, filter f (l ++ [x]) = filter f l ++ (if f x then [x] else []).
Proof. intros. rewrite filter_app. reflexivity. Qed.
Lemma phase1 : forall nverts maxE E, 0 <= nverts -> 0 <= maxE <= 65535 -> zlen E <= maxE -> Forall (ev_ok nverts) E ->
  exists tbl, foldM (fun s (e : ev) => let '(i, j, a, b) := e in insertEdge nverts maxE s i j a b) E
     (repeat meshNullIdx (Z.to_nat nverts) ++ repeat 0 (Z.to_nat maxE), []) = Ok (tbl, map mkE (filter fwd E)) /\
   forall v, 0 <= v < nverts -> exists e, get tbl v = Ok e /\ walkE tbl nverts e (idxs (map mkE (filter fwd E)) v).
Proof.
  intros nverts maxE E Hnv HmE HE Hok.
  destruct (foldM_inv (fun s (e : ev) => let '(i, j, a, b) := e in insertEdge nverts maxE s i j a b)
    (fun pre st => snd st = map mkE (filter fwd pre) /\ zlen (fst st) = nverts + maxE /\
      forall v, 0 <= v < nverts -> exists e, get (fst st) v = Ok e /\ walkE (fst st) nverts e (idxs (map mkE (filter fwd pre)) v))
    E (repeat meshNullIdx (Z.to_nat nverts) ++ repeat 0 (Z.to_nat maxE), [])) as ([tbl D] & EF & HD & _ & HW).
  - cbn [fst snd filter map]. split; [reflexivity|]. split; [unfold zlen; rewrite app_length, !repeat_length; lia|].
    intros v Hv. exists 65535. split; [|constructor]. apply get_ok. split; [lia|].
    rewrite nth_error_app1 by (rewrite repeat_length; lia). rewrite (nth_error_nth' _ 65535) by (rewrite repeat_length; lia). now rewrite nth_repeat.
  - intros pre [[[i j] a] b] post [tbl D] El (HD & HL & HW). cbn [fst snd] in *.
    assert (ev_ok nverts (i, j, a, b)) as (Hi & Hj & Ha & Hb) by (rewrite Forall_forall in Hok; apply Hok; rewrite El; apply in_or_app; right; now left).
    rewrite filter_snoc. unfold insertEdge. cbn [fwd].
    destruct (Z.ltb_spec a b) as [C|C].
    2:{ eexists. split; [reflexivity|]. cbn [fst snd]. rewrite app_nil_r. auto. }
    assert (zlen D < maxE) as HDl.
    { rewrite HD. unfold zlen in *. rewrite map_length. rewrite El, app_length in HE. cbn [length] in HE.
      assert (length (filter fwd pre) <= length pre)%nat; [|lia].
      clear. induction pre as [|x l IH]; [cbn; lia|]. cbn [filter]. destruct (fwd x); cbn [length]; lia. }
    rewrite Z.geb_leb. destruct (Z.leb_spec maxE (zlen D)); [lia|].
    destruct (HW a Ha) as (f & Hf & Hwf). rewrite Hf. cbn [bind].
    pose proof (zlen_nonneg D) as D0.
    rewrite set_in_range by lia. cbn [bind]. rewrite set_in_range by (rewrite zlen_upd; lia). cbn [bind].
    eexists. split; [reflexivity|]. cbn [fst snd]. rewrite map_app. cbn [map mkE].
    rewrite !u16_id by (unfold is_u16; lia). rewrite <- HD.
    split; [reflexivity|]. split; [rewrite !zlen_upd; exact HL|].
    intros v Hv. rewrite idxs_snoc. cbn [me_v0].
    assert (forall e l, (forall k, In k l -> (k < length D)%nat) -> walkE tbl nverts e l ->
      walkE (upd (upd tbl (Z.to_nat (nverts + zlen D)) f) (Z.to_nat a) (zlen D)) nverts e l) as G.
    { intros e l Hl Hw. apply walkE_upd; [lia|lia| |].
      - apply walkE_upd; [lia|lia|exact Hw|]. intros k Hk. apply Hl in Hk. unfold zlen. lia.
      - intros k Hk. lia. }
    assert (forall v k, In k (idxs D v) -> (k < length D)%nat) as IL.
    { intros w k Hk. apply idxs_in in Hk. destruct Hk as (d & Hd & _). apply nth_error_Some. congruence. }
    rewrite get_upd by lia. rewrite zlen_upd, HL. destruct (Z.eqb_spec v a) as [->|N].
    + rewrite Z.eqb_refl. destruct (Z.ltb_spec a (nverts + maxE)); [|lia]. cbn [andb app].
      exists (zlen D). split; [reflexivity|]. change (zlen D) with (Z.of_nat (length D)) at 2.
      apply walkE_cons with (e := f); [unfold zlen in *; lia| |].
      * rewrite get_upd by lia. destruct (Z.eqb_spec (nverts + Z.of_nat (length D)) a); [lia|]. cbn [andb].
        change (Z.of_nat (length D)) with (zlen D). rewrite get_upd by lia. rewrite Z.eqb_refl.
        destruct (Z.ltb_spec (nverts + zlen D) (zlen tbl)); [reflexivity|lia].
      * apply G; [apply IL|]. rewrite HD. exact Hwf.
    + destruct (Z.eqb_spec a v); [congruence|]. cbn [andb app]. rewrite get_upd by lia.
      destruct (Z.eqb_spec v (nverts + zlen D)); [lia|]. cbn [andb].
      destruct (HW v Hv) as (e & He & Hwe). exists e. split; [exact He|]. apply G; [apply IL|]. rewrite HD. exact Hwe.
  - exists tbl. cbn [fst snd] in *. subst D. auto.
Qed.

(** * Matching *)
Definition free (v0 : Z) (D : list medge) (k : nat) : bool :=
  match nth_error D k with Some d => (me_v1 d =? v0) && (me_p0 d =? me_p1 d) | None => false end.
Definition setMatch (d : medge) (i j : Z) : medge := mkMEdge (me_v0 d) (me_v1 d) (me_p0 d) i (me_e0 d) j.
Lemma matchHalf_ok : forall nverts tbl i j v0 D l e fuel, walkE tbl nverts e l -> (length l < fuel)%nat ->
  (forall k, In k l -> (k < length D)%nat) -> 0 <= i < 65535 -> 0 <= j < 65535 ->
  matchHalf fuel nverts tbl i j v0 e D =
  Ok (match find (free v0 D) l with
      | Some k => match nth_error D k with Some d => upd D k (setMatch d i j) | None => D end
      | None => D end).
Proof.
  intros nverts tbl i j v0 D l e fuel Hw. revert fuel. induction Hw as [|k e l Hk Hg Hw IH]; intros fuel Hf Hl Hi Hj.
  - destruct fuel; reflexivity.
  - destruct fuel as [|fuel]; [cbn in Hf; lia|]. cbn [matchHalf]. unfold meshNullIdx. destruct (Z.eqb_spec (Z.of_nat k) 65535); [lia|].
    destruct (nth_error_in_range D k) as [d Hd]; [apply Hl; now left|].
    assert (get D (Z.of_nat k) = Ok d) as G by (apply get_ok; split; [lia|now rewrite Nat2Z.id]).
    rewrite G. cbn [bind find]. unfold free at 1. rewrite Hd.
    destruct ((me_v1 d =? v0) && (me_p0 d =? me_p1 d)).
    + rewrite Hd. rewrite set_in_range by (assert (k < length D)%nat by (apply Hl; now left); unfold zlen; lia).
      rewrite Nat2Z.id, !u16_id by (unfold is_u16; lia). reflexivity.
    + rewrite Hg. cbn [bind]. apply IH; auto; [cbn in Hf; lia|intros; apply Hl; now right].
Qed.

Definition linked (d : medge) : Prop := me_p0 d <> me_p1 d.
Definition noself (E : list ev) : Prop := forall i j j' a b, In (i, j, a, b) E -> In (i, j', b, a) E -> a = b.
(** State of the matching loop after the events [pre]. *)
Record matching (D0 : list medge) (E pre : list ev) (D : list medge) : Prop := {
  mt_len : length D = length D0;
  mt_same : forall k d0 d, nth_error D0 k = Some d0 -> nth_error D k = Some d ->
    me_v0 d = me_v0 d0 /\ me_v1 d = me_v1 d0 /\ me_p0 d = me_p0 d0 /\ me_e0 d = me_e0 d0;
  mt_from : forall k d, nth_error D k = Some d -> linked d -> In (me_p1 d, me_e1 d, me_v1 d, me_v0 d) pre;
  mt_inj : forall k k' d d', nth_error D k = Some d -> nth_error D k' = Some d' -> linked d -> linked d' ->
    me_p1 d = me_p1 d' -> me_e1 d = me_e1 d' -> k = k';
  mt_done : noself E -> forall i j a b, In (i, j, b, a) pre -> a < b ->
    (exists k d, nth_error D k = Some d /\ linked d /\ me_p1 d = i /\ me_e1 d = j) \/
    (forall k d, nth_error D k = Some d -> me_v0 d = a -> me_v1 d = b -> linked d) }.

Lemma idxs_same : forall D D0 v, length D = length D0 ->
  (forall k d0 d, nth_error D0 k = Some d0 -> nth_error D k = Some d -> me_v0 d = me_v0 d0) -> idxs D v = idxs D0 v.
Proof.
  intros D D0 v HL H. unfold idxs. rewrite HL. apply filter_ext_in. intros k Hk. apply in_rev in Hk. apply in_seq in Hk.
  unfold startsAt. destruct (nth_error_in_range D0 k) as [d0 E0]; [lia|]. destruct (nth_error_in_range D k) as [d E1]; [lia|].
  rewrite E0, E1, (H k d0 d E0 E1). reflexivity.
Qed.

Lemma phase2 : forall nverts tbl E, Forall (ev_ok nverts) E -> NoDup (map key E) ->
  let D0 := map mkE (filter fwd E) in
  (forall v, 0 <= v < nverts -> exists e, get tbl v = Ok e /\ walkE tbl nverts e (idxs D0 v)) ->
  exists D, foldM (fun s (e : ev) => let '(i, j, a, b) := e in matchEdges nverts tbl s i j a b) E D0 = Ok D /\ matching D0 E E D.
Proof.
  intros nverts tbl E Hok Hnd D0 HW.
  apply (foldM_inv _ (fun pre D => matching D0 E pre D)).
  - constructor; auto.
    + intros k d0 d E0 E1. rewrite E0 in E1. inversion E1; subst. auto.
    + intros k d Hd Hl. exfalso. apply Hl. apply nth_error_In in Hd. unfold D0 in Hd. apply in_map_iff in Hd.
      destruct Hd as ([[[i j] a] b] & <- & _). reflexivity.
    + intros k k' d d' Hd _ Hl. exfalso. apply Hl. apply nth_error_In in Hd. unfold D0 in Hd. apply in_map_iff in Hd.
      destruct Hd as ([[[i j] a] b] & <- & _). reflexivity.
    + intros _ i j a b [].
  - intros pre [[[i j] v0] v1] post D El M.
    assert (In (i, j, v0, v1) E) as Hin by (rewrite El; apply in_or_app; right; now left).
    assert (ev_ok nverts (i, j, v0, v1)) as (Hi & Hj & Ha & Hb) by (rewrite Forall_forall in Hok; apply Hok; exact Hin).
    unfold matchEdges. rewrite Z.gtb_ltb. destruct (Z.ltb_spec v1 v0) as [C|C].
    2:{ exists D. split; [reflexivity|]. destruct M as [M1 M2 M3 M4 M5]. constructor; auto.
        - intros k d Hd Hl. apply in_or_app. left. eauto.
        - intros Hs i' j' a b Hp Hab. apply in_app_iff in Hp. destruct Hp as [Hp|[Hp|[]]]; [eauto|]. inversion Hp; subst. lia. }
    destruct (HW v1 Hb) as (e & He & Hw). rewrite He. cbn [bind].
    assert (idxs D v1 = idxs D0 v1) as EI.
    { apply idxs_same; [apply (mt_len _ _ _ _ M)|]. intros k d0 d E0 E1. now apply (mt_same _ _ _ _ M k d0 d). }
    rewrite <- EI in Hw.
    rewrite (matchHalf_ok nverts tbl i j v0 D (idxs D v1) e (S (length D)) Hw); [|pose proof (idxs_len D v1); lia| |exact Hi|exact Hj].
    2:{ intros k Hk. apply idxs_in in Hk. destruct Hk as (d & Hd & _). apply nth_error_Some. congruence. }
    eexists. split; [reflexivity|].
    assert (forall i' j' b a, In (i', j', b, a) pre -> (i', j') <> (i, j)) as Hfresh.
    { intros i' j' b a Hp Ek. rewrite El, map_app in Hnd. cbn [map key] in Hnd. apply NoDup_remove_2 in Hnd. apply Hnd.
      apply in_or_app. left. rewrite <- Ek. change (i', j') with (key (i', j', b, a)). now apply in_map. }
    destruct (find (free v0 D) (idxs D v1)) as [k|] eqn:Ef.
    + apply find_some in Ef. destruct Ef as [Hk Hfree]. apply idxs_in in Hk. destruct Hk as (d & Hd & Hv0).
      unfold free in Hfree. rewrite Hd in Hfree. apply andb_true_iff in Hfree. destruct Hfree as [F1 F2].
      apply Z.eqb_eq in F1, F2. rewrite Hd.
      assert (k < length D)%nat as Kl by (apply nth_error_Some; congruence).
      assert (forall k' d', nth_error (upd D k (setMatch d i j)) k' = Some d' ->
        (k' = k /\ d' = setMatch d i j) \/ (k' <> k /\ nth_error D k' = Some d')) as U.
      { intros k' d' H. destruct (Nat.eq_dec k' k) as [->|N].
        - rewrite nth_error_upd_eq in H by exact Kl. inversion H. auto.
        - rewrite nth_error_upd_neq in H by auto. auto. }
      constructor.
      * rewrite upd_length. apply (mt_len _ _ _ _ M).
      * intros k' d0 d' E0 E1. apply U in E1. destruct E1 as [[-> ->]|[N E1]].
        -- cbn. apply (mt_same _ _ _ _ M k d0 d E0 Hd).
        -- apply (mt_same _ _ _ _ M k' d0 d' E0 E1).
      * intros k' d' E1 Hl. apply in_or_app. apply U in E1. destruct E1 as [[-> ->]|[N E1]].
        -- right. left. cbn. rewrite F1, Hv0. reflexivity.
        -- left. apply (mt_from _ _ _ _ M k' d' E1 Hl).
      * intros k1 k2 d1 d2 E1 E2 L1 L2 Ep Ee. apply U in E1, E2.
        destruct E1 as [[-> ->]|[N1 E1]], E2 as [[-> ->]|[N2 E2]]; auto.
        -- exfalso. cbn in Ep, Ee. apply (Hfresh _ _ _ _ (mt_from _ _ _ _ M k2 d2 E2 L2)). congruence.
        -- exfalso. cbn in Ep, Ee. apply (Hfresh _ _ _ _ (mt_from _ _ _ _ M k1 d1 E1 L1)). congruence.
        -- eapply (mt_inj _ _ _ _ M k1 k2); eauto.
      * intros Hs i' j' a b Hp Hab.
        assert (me_p0 d <> i) as Hself.
        { intros Es. destruct (nth_error_in_range D0 k) as [d0 Hd0]; [rewrite <- (mt_len _ _ _ _ M); exact Kl|].
          destruct (mt_same _ _ _ _ M k d0 d Hd0 Hd) as (S1 & S2 & S3 & S4). pose proof Hd0 as Hd0'. apply nth_error_In in Hd0.
          unfold D0 in Hd0. apply in_map_iff in Hd0. destruct Hd0 as ([[[x y] u] w] & <- & Hin0). cbn in S1, S2, S3, S4.
          apply filter_In in Hin0. destruct Hin0 as [Hin0 _].
          assert (In (x, j, w, u) E) as Hin1.
          { replace x with i by congruence. replace w with v0 by congruence. replace u with v1 by congruence. exact Hin. }
          pose proof (Hs x y j u w Hin0 Hin1). lia. }
        apply in_app_iff in Hp. destruct Hp as [Hp|[Hp|[]]].
        -- destruct (mt_done _ _ _ _ M Hs i' j' a b Hp Hab) as [(k' & d' & Hd' & Hl' & A & B)|All].
           ++ left. exists k', d'. split; [|auto]. rewrite nth_error_upd_neq; [exact Hd'|]. intros ->. rewrite Hd in Hd'. inversion Hd'; subst. contradiction.
           ++ right. intros k' d' E1 A B. apply U in E1. destruct E1 as [[-> ->]|[N E1]]; [exact Hself|]. eauto.
        -- inversion Hp; subst i' j' b a. left. exists k, (setMatch d i j). rewrite nth_error_upd_eq by exact Kl.
           split; [reflexivity|]. split; [exact Hself|]. auto.
    + destruct M as [M1 M2 M3 M4 M5]. constructor; auto.
      * intros k d Hd Hl. apply in_or_app. left. eauto.
      * intros Hs i' j' a b Hp Hab. apply in_app_iff in Hp. destruct Hp as [Hp|[Hp|[]]]; [eauto|]. inversion Hp; subst i' j' b a.
        right. intros k d Hd A B F. pose proof (find_none _ _ Ef k) as N. unfold free in N. rewrite Hd in N.
        assert (In k (idxs D v1)) as Hk by (apply idxs_in; eauto). apply N in Hk. rewrite B, Z.eqb_refl in Hk. cbn [andb] in Hk.
        apply Z.eqb_neq in Hk. contradiction.
Qed.

(** * Storing *)
Definition slot (nvp p e : Z) : Z := p * nvp * 2 + (nvp + e).
Definition writes (nvp : Z) (d : medge) : list (Z * Z) :=
  if me_p0 d =? me_p1 d then [] else [(slot nvp (me_p0 d) (me_e0 d), me_p1 d); (slot nvp (me_p1 d) (me_e1 d), me_p0 d)].
Lemma store_writes : forall nvp D polys,
  foldM (storeEdge nvp) D polys = foldM (fun t w => set t (fst w) (snd w)) (flat_map (writes nvp) D) polys.
Proof.
  intros nvp D polys. rewrite foldM_flat_map. apply foldM_ext_in. intros t d _. unfold storeEdge, writes.
  destruct (me_p0 d =? me_p1 d); [reflexivity|]. cbn [foldM fst snd]. unfold slot.
  destruct (set t _ _) as [t1| | |]; cbn [bind]; auto. destruct (set t1 _ _); reflexivity.
Qed.
Lemma writes_ok : forall W t, NoDup (map fst W) -> Forall (fun w : Z * Z => 0 <= fst w < zlen t) W ->
  exists t', foldM (fun t (w : Z * Z) => set t (fst w) (snd w)) W t = Ok t' /\ length t' = length t /\
    (forall o v, In (o, v) W -> get t' o = Ok v) /\ (forall o, ~ In o (map fst W) -> 0 <= o -> get t' o = get t o).
Proof.
  induction W as [|[o v] W IH]; intros t Hn Hr; cbn [foldM].
  - exists t. split; [reflexivity|]. split; [reflexivity|]. split; [intros o v []|auto].
  - inversion Hn as [|? ? Ho Hn']; subst. inversion Hr as [|? ? R1 R2]; subst. cbn [fst snd] in *.
    rewrite set_in_range by assumption. cbn [bind].
    destruct (IH (upd t (Z.to_nat o) v)) as (t' & E & HL & H1 & H2); [assumption|rewrite zlen_upd; assumption|].
    exists t'. split; [exact E|]. split; [rewrite HL; apply upd_length|]. split.
    + intros o' v' [F|F]; [|auto]. inversion F; subst. rewrite H2 by (auto; lia). rewrite get_upd by lia. rewrite Z.eqb_refl.
      destruct (Z.ltb_spec o' (zlen t)); [reflexivity|lia].
    + intros o' F F0. cbn [map fst] in F. rewrite H2 by (auto; intros G; apply F; now right). rewrite get_upd by lia.
      destruct (Z.eqb_spec o' o); [exfalso; apply F; now left|reflexivity].
Qed.
Lemma NoDup_flat_map_pos : forall {A B} (f : A -> list B) l, (forall a, In a l -> NoDup (f a)) ->
  (forall k k' a b x, nth_error l k = Some a -> nth_error l k' = Some b -> In x (f a) -> In x (f b) -> k = k') -> NoDup (flat_map f l).
Proof.
  induction l as [|a l IH]; intros H1 H2; cbn [flat_map]; [constructor|].
  assert (forall u v : list B, NoDup u -> NoDup v -> (forall x, In x u -> ~ In x v) -> NoDup (u ++ v)) as App.
  { induction 1 as [|c u Ha Hu IHu]; intros Hv Hd; [exact Hv|]. cbn [app]. constructor.
    - rewrite in_app_iff. intros [F|F]; [contradiction|]. apply (Hd c); [now left|exact F].
    - apply IHu; auto. intros y Hy. apply Hd. now right. }
  apply App; [apply H1; now left| |].
  - apply IH; [intros; apply H1; now right|]. intros k k' b c x E1 E2 I1 I2.
    pose proof (H2 (S k) (S k') b c x E1 E2 I1 I2). lia.
  - intros x Hx F. apply in_flat_map in F. destruct F as (b & Hb & Hxb). apply In_nth_error in Hb. destruct Hb as [k Hk].
    pose proof (H2 0%nat (S k) a b x eq_refl Hk Hx Hxb). lia.
Qed.
Lemma slot_inj : forall nvp p e p' e', 0 <= e < nvp -> 0 <= e' < nvp -> slot nvp p e = slot nvp p' e' -> p = p' /\ e = e'.
Proof. intros nvp p e p' e' H H' E. unfold slot in E. assert (p = p') by (destruct (Z.lt_trichotomy p p') as [|[|]]; nia). subst. lia. Qed.

Lemma nth_error_filter_inj : forall {A} (f : A -> bool) l k k' x, NoDup l -> nth_error (filter f l) k = Some x ->
  nth_error (filter f l) k' = Some x -> k = k'.
Proof.
  intros A f l k k' x Hn H1 H2. apply NoDup_filter with (f := f) in Hn. rewrite NoDup_nth_error in Hn.
  apply Hn; [apply nth_error_Some; congruence|congruence].
Qed.

Lemma adjacency_ok : forall P nvp nverts rest,
  Forall (fun l => zlen l <= nvp /\ Forall (fun v => 0 <= v < nverts) l) P ->
  0 <= nvp -> 0 <= nverts <= 65535 -> zlen P * nvp <= 65535 -> zlen P <= 65535 -> nvp <= 65535 ->
  exists t, buildMeshAdjacency (table nvp P ++ rest) (zlen P) nverts nvp = Ok t /\
    length t = length (table nvp P ++ rest) /\
    (forall i j, 0 <= i < zlen P -> 0 <= j < nvp ->
       get t (i * nvp * 2 + j) = get (table nvp P ++ rest) (i * nvp * 2 + j)) /\
    (forall i j k, 0 <= i < zlen P -> 0 <= j < nvp -> get t (slot nvp i j) = Ok k -> k <> 65535 ->
       exists j' a b, goes P i j a b /\ goes P k j' b a /\ k <> i /\ get t (slot nvp k j') = Ok i) /\
    ((forall i j j' a b, goes P i j a b -> goes P i j' b a -> a = b) ->
     forall i j k j' a b, goes P i j a b -> goes P k j' b a -> a < b ->
       exists x y, get t (slot nvp i j) = Ok x /\ get t (slot nvp k j') = Ok y /\ (x <> 65535 \/ y <> 65535)).
Proof.
  intros P nvp nverts rest HP H0 Hnv Hsz Hnp Hnvp.
  assert (Forall (fun l => zlen l <= nvp /\ ~ In 65535 l) P) as HP'.
  { eapply Forall_impl; [|exact HP]. cbn. intros l [L V]. split; [exact L|]. intros F. rewrite Forall_forall in V. apply V in F. lia. }
  assert (Forall (fun l => zlen l <= nvp) P) as HP1 by (eapply Forall_impl; [|exact HP']; cbn; tauto).
  set (E := events P). set (D0 := map mkE (filter fwd E)).
  assert (Forall (ev_ok nverts) E) as Hok.
  { apply Forall_forall. intros [[[i j] a] b] H. apply in_events in H. destruct H as (Hi & l & Hl & Hj & <- & <-). cbn.
    assert (Z.to_nat i < length P)%nat by (apply nth_error_Some; congruence).
    rewrite Forall_forall in HP. destruct (HP l) as [L V]; [eapply nth_error_In; eauto|]. rewrite Forall_forall in V.
    unfold zlen in *. split; [lia|]. split; [nia|]. split; apply V, cyc_in; unfold zlen; lia. }
  assert (zlen E <= zlen P * nvp) as HEl.
  { unfold E, events. assert (forall l, (forall i, In i l -> 0 <= i) -> zlen (flat_map (evs P) l) <= zlen l * nvp) as G.
    { induction l as [|i l IH]; intros Hl; [reflexivity|]. cbn [flat_map]. rewrite zlen_app, zlen_cons.
      assert (zlen (evs P i) <= nvp).
      { unfold evs. unfold zlen at 1. rewrite map_length, zseq_length. fold (zlen (nth (Z.to_nat i) P [])).
        destruct (nth_in_or_default (Z.to_nat i) P []) as [F|F]; [|rewrite F; unfold zlen; cbn; lia].
        rewrite Forall_forall in HP1. auto. }
      assert (zlen (flat_map (evs P) l) <= zlen l * nvp) by (apply IH; intros; apply Hl; now right). lia. }
    specialize (G (zseq (length P))). assert (zlen (zseq (length P)) = zlen P) as Z1 by (unfold zlen; now rewrite zseq_length).
    rewrite Z1 in G. apply G. intros i Hi. apply in_zseq in Hi. lia. }
  assert (0 <= zlen P) as Pz by apply zlen_nonneg.
  destruct (phase1 nverts (zlen P * nvp) E) as (tbl & E1 & HW); [lia|nia|lia|exact Hok|].
  destruct (phase2 nverts tbl E Hok (events_nodup P) HW) as (D & E2 & M). fold D0 in E2, M.
  unfold buildMeshAdjacency. rewrite (forAllEdges_ok nvp P rest H0 HP'). fold E. rewrite E1. cbn [bind]. fold D0.
  rewrite (forAllEdges_ok nvp P rest H0 HP'). fold E. rewrite E2. cbn [bind]. rewrite store_writes.
  set (polys := table nvp P ++ rest).
  (* facts about matched edges *)
  assert (forall k d, nth_error D k = Some d -> exists i j a b, nth_error (filter fwd E) k = Some (i, j, a, b) /\ In (i, j, a, b) E /\ a < b /\
     me_v0 d = a /\ me_v1 d = b /\ me_p0 d = i /\ me_e0 d = j) as Fw.
  { intros k d Hd. destruct (nth_error_in_range D0 k) as [d0 Hd0].
    { rewrite <- (mt_len _ _ _ _ M). apply nth_error_Some. congruence. }
    destruct (mt_same _ _ _ _ M k d0 d Hd0 Hd) as (S1 & S2 & S3 & S4).
    unfold D0 in Hd0. rewrite nth_error_map in Hd0. destruct (nth_error (filter fwd E) k) as [[[[i j] a] b]|] eqn:Ek; [|discriminate].
    cbn in Hd0. inversion Hd0; subst d0. cbn in S1, S2, S3, S4. exists i, j, a, b. split; [reflexivity|].
    apply nth_error_In in Ek. apply filter_In in Ek. destruct Ek as [Ein Ef]. cbn in Ef. apply Z.ltb_lt in Ef. auto 10. }
  assert (forall i j a b, In (i, j, a, b) E -> 0 <= i < zlen P /\ 0 <= j < nvp) as Rng.
  { intros i j a b H. apply in_events in H. destruct H as (Hi & l & Hl & Hj & _).
    assert (Z.to_nat i < length P)%nat by (apply nth_error_Some; congruence).
    rewrite Forall_forall in HP1. specialize (HP1 l (nth_error_In _ _ Hl)). unfold zlen in *. lia. }
  assert (forall x y, In x E -> In y E -> key x = key y -> x = y) as KI.
  { intros x y. apply NoDup_map_inj. apply events_nodup. }
  assert (NoDup (map fst (flat_map (writes nvp) D))) as Hnd.
  { rewrite flat_map_concat_map, concat_map, map_map, <- flat_map_concat_map. apply NoDup_flat_map_pos.
    - intros d Hd. apply In_nth_error in Hd. destruct Hd as [k Hd]. unfold writes. destruct (Z.eqb_spec (me_p0 d) (me_p1 d)) as [_|N]; [constructor|].
      cbn [map fst]. constructor; [|constructor; [intros []|constructor]]. intros [F|[]].
      destruct (Fw k d Hd) as (i & j & a & b & _ & Hin & Hab & A1 & A2 & A3 & A4).
      pose proof (mt_from _ _ _ _ M k d Hd N) as Hin2. destruct (Rng _ _ _ _ Hin) as [R1 R2]. destruct (Rng _ _ _ _ Hin2) as [R3 R4].
      apply slot_inj in F; [|lia|lia]. destruct F as [F _]. congruence.
    - intros k k' d d' x Hd Hd' Hx Hx'.
      assert (forall k d x, nth_error D k = Some d -> In x (map fst (writes nvp d)) -> linked d /\
        ((exists i j a b, nth_error (filter fwd E) k = Some (i, j, a, b) /\ In (i, j, a, b) E /\ a < b /\ x = slot nvp i j) \/
         (exists a b, In (me_p1 d, me_e1 d, b, a) E /\ a < b /\ x = slot nvp (me_p1 d) (me_e1 d)))) as Sx.
      { clear k k' d d' x Hd Hd' Hx Hx'. intros k d x Hd Hx. unfold writes in Hx. destruct (Z.eqb_spec (me_p0 d) (me_p1 d)) as [_|N]; [contradiction|].
        split; [exact N|]. destruct (Fw k d Hd) as (i & j & a & b & B0 & Hin & Hab & A1 & A2 & A3 & A4).
        cbn [map fst] in Hx. destruct Hx as [Hx|[Hx|[]]].
        - left. exists i, j, a, b. subst. auto.
        - right. exists a, b. split; [|auto]. rewrite <- A1, <- A2. apply (mt_from _ _ _ _ M k d Hd N). }
      destruct (Sx k d x Hd Hx) as [L1 [(i & j & a & b & B0 & Hin & Hab & X1)|(a & b & Hin & Hab & X1)]];
      destruct (Sx k' d' x Hd' Hx') as [L2 [(i' & j' & a' & b' & B0' & Hin' & Hab' & X2)|(a' & b' & Hin' & Hab' & X2)]];
      destruct (Rng _ _ _ _ Hin) as [R1 R2]; destruct (Rng _ _ _ _ Hin') as [R3 R4];
      rewrite X1 in X2; apply slot_inj in X2; try lia; destruct X2 as [Xa Xb].
      + pose proof (KI _ _ Hin Hin') as Q. cbn in Q. assert ((i, j, a, b) = (i', j', a', b')) as Q' by (apply Q; congruence).
        rewrite <- Q' in B0'. eapply nth_error_filter_inj; [|exact B0|exact B0']. 
        apply NoDup_map_inv with (f := key). apply events_nodup.
      + exfalso. pose proof (KI _ _ Hin Hin') as Q. cbn in Q. assert ((i, j, a, b) = (me_p1 d', me_e1 d', b', a')) as Q' by (apply Q; congruence).
        inversion Q'. lia.
      + exfalso. pose proof (KI _ _ Hin Hin') as Q. cbn in Q. assert ((me_p1 d, me_e1 d, b, a) = (i', j', a', b')) as Q' by (apply Q; congruence).
        inversion Q'. lia.
      + eapply (mt_inj _ _ _ _ M k k'); eauto. }
  assert (Forall (fun w => 0 <= fst w < zlen polys) (flat_map (writes nvp) D)) as Hrw.
  { apply Forall_forall. intros w Hw. apply in_flat_map in Hw. destruct Hw as (d & Hd & Hw). apply In_nth_error in Hd. destruct Hd as [k Hd].
    unfold writes in Hw. destruct (Z.eqb_spec (me_p0 d) (me_p1 d)) as [_|N]; [contradiction|].
    destruct (Fw k d Hd) as (i & j & a & b & B0 & Hin & Hab & A1 & A2 & A3 & A4). apply Rng in Hin.
    pose proof (mt_from _ _ _ _ M k d Hd N) as Hin2. apply Rng in Hin2.
    unfold polys. rewrite zlen_app, table_length by assumption. pose proof (zlen_nonneg rest).
    destruct Hw as [<-|[<-|[]]]; cbn [fst]; unfold slot; nia. }
  destruct (writes_ok (flat_map (writes nvp) D) polys Hnd Hrw) as (t & Et & Lt & W1 & W2).
  exists t. split; [exact Et|]. split; [exact Lt|].
  assert (forall k d, nth_error D k = Some d -> linked d ->
    get t (slot nvp (me_p0 d) (me_e0 d)) = Ok (me_p1 d) /\ get t (slot nvp (me_p1 d) (me_e1 d)) = Ok (me_p0 d)) as Got.
  { intros k d Hd N. unfold linked in N. split; apply W1; apply in_flat_map; exists d; (split; [eapply nth_error_In; eauto|]); unfold writes;
      destruct (Z.eqb_spec (me_p0 d) (me_p1 d)); try contradiction; cbn; auto. }
  split; [|split].
  - intros i j Hi Hj. apply W2; [|nia]. intros F. apply in_map_iff in F. destruct F as (w & Fw1 & Hw).
    apply in_flat_map in Hw. destruct Hw as (d & Hd & Hw). apply In_nth_error in Hd. destruct Hd as [k Hd].
    unfold writes in Hw. destruct (Z.eqb_spec (me_p0 d) (me_p1 d)) as [_|N]; [contradiction|].
    destruct (Fw k d Hd) as (i' & j' & a & b & B0 & Hin & Hab & A1 & A2 & A3 & A4). apply Rng in Hin.
    pose proof (mt_from _ _ _ _ M k d Hd N) as Hin2. apply Rng in Hin2.
    destruct Hw as [<-|[<-|[]]]; cbn [fst] in Fw1; unfold slot in Fw1.
    + destruct (Z.lt_trichotomy (me_p0 d) i) as [|[|]]; nia.
    + destruct (Z.lt_trichotomy (me_p1 d) i) as [|[|]]; nia.
  - intros i j k Hi Hj Hg Hk.
    assert (In (slot nvp i j) (map fst (flat_map (writes nvp) D)) \/ ~ In (slot nvp i j) (map fst (flat_map (writes nvp) D))) as [F|F]
      by (destruct (in_dec Z.eq_dec (slot nvp i j) (map fst (flat_map (writes nvp) D))); auto).
    + apply in_map_iff in F. destruct F as (w & Fw1 & Hw). apply in_flat_map in Hw. destruct Hw as (d & Hd & Hw).
      apply In_nth_error in Hd. destruct Hd as [n Hd]. unfold writes in Hw. destruct (Z.eqb_spec (me_p0 d) (me_p1 d)) as [_|N]; [contradiction|].
      destruct (Fw n d Hd) as (i' & j' & a & b & B0 & Hin & Hab & A1 & A2 & A3 & A4). pose proof (Rng _ _ _ _ Hin) as R1.
      pose proof (mt_from _ _ _ _ M n d Hd N) as Hin2. pose proof (Rng _ _ _ _ Hin2) as R2.
      destruct (Got n d Hd N) as [G1 G2]. rewrite A1, A2 in Hin2. apply in_events in Hin, Hin2.
      destruct Hw as [<-|[<-|[]]]; cbn [fst] in Fw1; apply slot_inj in Fw1; try lia; destruct Fw1 as [<- <-].
      * rewrite G1 in Hg. apply Ok_inj in Hg. subst k. exists (me_e1 d), a, b. rewrite A3, A4. split; [exact Hin|]. split; [exact Hin2|].
        split; [congruence|]. rewrite G2. congruence.
      * rewrite G2 in Hg. apply Ok_inj in Hg. subst k. exists (me_e0 d), b, a. split; [exact Hin2|]. rewrite A3, A4. split; [exact Hin|].
        split; [congruence|]. rewrite <- A3, <- A4. exact G1.
    + exfalso. apply Hk. rewrite W2 in Hg by (auto; unfold slot; nia).
      destruct (nth_error_in_range P (Z.to_nat i)) as [l Hl]; [unfold zlen in *; lia|].
      unfold polys, slot in Hg. rewrite <- (Z2Nat.id i) in Hg by lia. rewrite (get_table nvp P rest _ (nvp + j) l H0 HP1 Hl) in Hg by lia.
      assert (zlen l <= nvp) by (rewrite Forall_forall in HP1; apply HP1; eapply nth_error_In; eauto).
      rewrite get_block in Hg by lia. destruct (Z.ltb_spec (nvp + j) (zlen l)); [lia|]. apply Ok_inj in Hg. congruence.
  - intros Hs i j k j' a b G1 G2 Hab. apply in_events in G1, G2. fold E in G1, G2.
    assert (noself E) as Hns by (intros x y y' u v I1 I2; eapply Hs; apply in_events; eauto).
    pose proof (Rng _ _ _ _ G1) as R1. pose proof (Rng _ _ _ _ G2) as R2.
    assert (forall i j, 0 <= i < zlen P -> 0 <= j < nvp -> exists x, get t (slot nvp i j) = Ok x) as Ex.
    { intros x y X Y. apply get_in_range. replace (zlen t) with (zlen polys) by (unfold zlen; now rewrite Lt). unfold polys. rewrite zlen_app, table_length by assumption.
      pose proof (zlen_nonneg rest). unfold slot. nia. }
    destruct (Ex i j) as [x Hx]; [lia|lia|]. destruct (Ex k j') as [y Hy]; [lia|lia|]. exists x, y. split; [exact Hx|]. split; [exact Hy|].
    destruct (mt_done _ _ _ _ M Hns k j' a b G2 Hab) as [(n & d & Hd & N & A & B)|All].
    + right. destruct (Got n d Hd N) as [_ Q]. rewrite A, B, Hy in Q. apply Ok_inj in Q.
      destruct (Fw n d Hd) as (i' & j'' & a' & b' & _ & Hin & _ & _ & _ & A3 & _). apply Rng in Hin. lia.
    + left. assert (@In ev (i, j, a, b) (filter fwd E)) as Hf by (apply filter_In; split; [exact G1|]; now apply Z.ltb_lt).
      apply In_nth_error in Hf. destruct Hf as [n Hn].
      assert (n < length D0)%nat as Ln by (unfold D0; rewrite map_length; apply nth_error_Some; congruence).
      destruct (nth_error_in_range D n) as [d Hd]; [rewrite (mt_len _ _ _ _ M); exact Ln|].
      destruct (Fw n d Hd) as (i' & j'' & a' & b' & Hn' & Hin & _ & A1 & A2 & A3 & A4). rewrite Hn in Hn'. assert (i' = i /\ j'' = j /\ a' = a /\ b' = b) as (I1 & I2 & I3 & I4) by (inversion Hn'; auto).
      assert (linked d) as N by (eapply All; eauto; congruence). destruct (Got n d Hd N) as [Q _]. rewrite A3, A4, I1, I2, Hx in Q. apply Ok_inj in Q.
      pose proof (mt_from _ _ _ _ M n d Hd N) as Hin2. apply Rng in Hin2. lia.
Qed.
