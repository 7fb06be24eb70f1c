(** BuildPolyMesh: adjacency and portals. *)
From Coq Require Import ZArith List Bool Lia.
From Verif.Base Require Import Res GoNum Grid.
From Verif.Model Require Import Heightfield Contour Triangulate PolyMeshOps BuildMesh.
From Verif.Spec Require Import AreaSpec MeshOpsSpec BuildSpec.
From Verif.Proofs Require Import TriangulateProofs WeldProofs MergeProofs AdjacencyProofs EdgeProofs MergeLoop.
From Verif.Properties Require PolyMesh.
Import ListNotations.
Open Scope Z_scope.

Lemma portalSide_lies : forall w h a b,
  match portalSide w h a b with
  | Some k => exists s, k = 32768 + s /\ lies_on w h s a b
  | None => forall s, ~ lies_on w h s a b
  end.
Proof.
  intros w h [ax az] [bx bz]. unfold portalSide. cbn [fst snd].
  destruct (Z.eqb_spec ax 0), (Z.eqb_spec bx 0); cbn [andb]; try (exists 0; split; [reflexivity|]; repeat split; cbn; lia);
  destruct (Z.eqb_spec az h), (Z.eqb_spec bz h); cbn [andb];
    try (exists 1; split; [reflexivity|]; repeat split; cbn; try lia; intros s Hs; assert (s = 0) as -> by lia; cbn; lia);
  destruct (Z.eqb_spec ax w), (Z.eqb_spec bx w); cbn [andb];
    try (exists 2; split; [reflexivity|]; repeat split; cbn; try lia; intros s Hs; assert (s = 0 \/ s = 1) as [-> | ->] by lia; cbn; lia);
  destruct (Z.eqb_spec az 0), (Z.eqb_spec bz 0); cbn [andb];
    try (exists 3; split; [reflexivity|]; repeat split; cbn; try lia; intros s Hs; assert (s = 0 \/ s = 1 \/ s = 2) as [-> | [-> | ->]] by lia; cbn; lia);
  intros s (Hs & A & B & _); assert (s = 0 \/ s = 1 \/ s = 2 \/ s = 3) as [-> | [-> | [-> | ->]]] by lia; cbn in A, B; lia.
Qed.
Lemma portalSide_val : forall w h a b k, portalSide w h a b = Some k -> 32768 <= k <= 32771.
Proof.
  intros w h a b k H. pose proof (portalSide_lies w h a b) as L. rewrite H in L. destruct L as (s & -> & L & _). lia.
Qed.

(** The vertex part of the table. *)
Definition vpart (nvp : Z) (P : list (list Z)) (t : list Z) : Prop :=
  zlen t = zlen P * (2 * nvp) /\
  forall i l j, nth_error P i = Some l -> 0 <= j < nvp ->
    get t (vslot nvp (Z.of_nat i) j) = Ok (if j <? zlen l then cyc l j else 65535).
Lemma vpart_upd : forall nvp P t i j v, vpart nvp P t -> 0 <= i -> 0 <= j < nvp -> vpart nvp P (upd t (Z.to_nat (nslot nvp i j)) v).
Proof.
  intros nvp P t i j v [L H] Hi Hj. split; [rewrite zlen_upd; exact L|]. intros i' l j' Hl Hj'.
  rewrite get_upd by (unfold nslot, vslot; nia). destruct (Z.eqb_spec (vslot nvp (Z.of_nat i') j') (nslot nvp i j)) as [E|E]; [|cbn [andb]; auto].
  exfalso. unfold vslot, nslot in E. set (d := Z.of_nat i' - i). assert (nvp * 2 * d = nvp + j - j') by (unfold d; nia).
  destruct (Z_le_gt_dec d 0); nia.
Qed.

(** The new entry of edge [j] of a polygon [l]. *)
Definition marked (w h : Z) (verts l : list Z) (j k : Z) : Z :=
  if (j <? zlen l) && (k =? 65535)
  then match portalSide w h (at_xz verts (cyc l j)) (at_xz verts (cyc l (j + 1))) with Some v => v | None => k end
  else k.

Lemma cyc_0 : forall l, cyc l (zlen l) = cyc l 0.
Proof. intros l. unfold cyc. fold (zlen l). rewrite Zmod_0_l. destruct (Z.eq_dec (zlen l) 0) as [->|N]; [reflexivity|]. rewrite Z_mod_same_full. reflexivity. Qed.

Lemma markPortals_ok : forall nvp w h verts P i l, nth_error P i = Some l -> 3 <= zlen l <= nvp -> Forall (ok_vert verts) l ->
  forall cnt j t, vpart nvp P t -> 0 <= j -> Z.of_nat cnt + j = nvp ->
  exists t', markPortals cnt nvp w h (Z.of_nat i) verts j t = Ok t' /\ vpart nvp P t' /\
    forall i' j' k, 0 <= i' -> 0 <= j' < nvp -> get t (nslot nvp i' j') = Ok k ->
      get t' (nslot nvp i' j') = Ok (if (i' =? Z.of_nat i) && (j <=? j') then marked w h verts l j' k else k).
Proof.
  intros nvp w h verts P i l Hl Ll Fv. induction cnt as [|cnt IH]; intros j t HV Hj Hc.
  - exists t. split; [reflexivity|]. split; [exact HV|]. intros i' j' k Hi Hj' E. destruct (Z.leb_spec j j'); [lia|]. rewrite andb_false_r. exact E.
  - cbn [markPortals]. replace (Z.of_nat i * 2 * nvp + j) with (vslot nvp (Z.of_nat i) j) by (unfold vslot; ring).
    rewrite (proj2 HV i l j Hl) by lia. cbn [bind]. change meshNullIdx with 65535.
    destruct (Z.ltb_spec j (zlen l)) as [Lj|Lj].
    2:{ cbn. exists t. split; [reflexivity|]. split; [exact HV|]. intros i' j' k Hi Hj' E.
        destruct (Z.leb_spec j j'); [|rewrite andb_false_r; exact E]. unfold marked. destruct (Z.ltb_spec j' (zlen l)); [lia|].
        cbn [andb]. destruct ((i' =? Z.of_nat i) && true); exact E. }
    assert (forall q, ok_vert verts (cyc l q)) as OKc by (intros q; rewrite Forall_forall in Fv; apply Fv, cyc_in; lia).
    destruct (Z.eqb_spec (cyc l j) 65535) as [F|_]; [destruct (OKc j); lia|].
    replace (Z.of_nat i * 2 * nvp + (nvp + j)) with (nslot nvp (Z.of_nat i) j) by (unfold nslot; ring).
    assert (Z.of_nat i < zlen P) as Li by (assert (i < length P)%nat by (apply nth_error_Some; congruence); unfold zlen; lia).
    assert (0 <= nslot nvp (Z.of_nat i) j < zlen t) as Rs by (rewrite (proj1 HV); unfold nslot; nia).
    destruct (get_in_range t _ Rs) as (nb & En). rewrite En. cbn [bind].
    assert (forall t1 x, vpart nvp P t1 -> (forall i' j' k, 0 <= i' -> 0 <= j' < nvp -> get t (nslot nvp i' j') = Ok k ->
       get t1 (nslot nvp i' j') = Ok (if (i' =? Z.of_nat i) && (j =? j') then x else k)) -> x = marked w h verts l j nb ->
      exists t', markPortals cnt nvp w h (Z.of_nat i) verts (j + 1) t1 = Ok t' /\ vpart nvp P t' /\
      forall i' j' k, 0 <= i' -> 0 <= j' < nvp -> get t (nslot nvp i' j') = Ok k ->
        get t' (nslot nvp i' j') = Ok (if (i' =? Z.of_nat i) && (j <=? j') then marked w h verts l j' k else k)) as Step.
    { intros t1 x HV1 Ht1 Hx. destruct (IH (j + 1) t1 HV1) as (t' & E' & HV' & H'); [lia|lia|]. exists t'. split; [exact E'|]. split; [exact HV'|].
      intros i' j' k Hi' Hj' E. specialize (Ht1 i' j' k Hi' Hj' E). apply H' in Ht1; [|assumption|assumption]. rewrite Ht1. f_equal.
      destruct (Z.eqb_spec i' (Z.of_nat i)) as [->|]; cbn [andb]; [|reflexivity].
      destruct (Z.eqb_spec j j') as [<-|N].
      - rewrite En in E. apply Ok_inj in E. subst nb. destruct (Z.leb_spec (j + 1) j); [lia|]. destruct (Z.leb_spec j j); [exact Hx|lia].
      - destruct (Z.leb_spec (j + 1) j'), (Z.leb_spec j j'); reflexivity || lia. }
    destruct (Z.eqb_spec nb 65535) as [->|N]; cbn [negb].
    2:{ apply (Step t nb HV).
        - intros i' j' k Hi' Hj' E. rewrite E. f_equal. destruct (Z.eqb_spec i' (Z.of_nat i)) as [->|]; [|reflexivity]. destruct (Z.eqb_spec j j') as [<-|]; [|reflexivity].
          rewrite En in E. apply Ok_inj in E. cbn [andb]. auto.
        - unfold marked. destruct (Z.eqb_spec nb 65535); [contradiction|]. rewrite andb_false_r. reflexivity. }
    assert (exists nj, (if j + 1 >=? nvp then Ok 0 else let* x := get t (Z.of_nat i * 2 * nvp + (j + 1)) in Ok (if x =? 65535 then 0 else j + 1)) = Ok nj /\
      0 <= nj < zlen l /\ cyc l nj = cyc l (j + 1)) as (nj & Enj & Rnj & Cnj).
    { rewrite Z.geb_leb. destruct (Z.leb_spec nvp (j + 1)) as [G|G].
      - exists 0. split; [reflexivity|]. split; [lia|]. replace (j + 1) with (zlen l) by lia. now rewrite cyc_0.
      - replace (Z.of_nat i * 2 * nvp + (j + 1)) with (vslot nvp (Z.of_nat i) (j + 1)) by (unfold vslot; ring).
        rewrite (proj2 HV i l (j + 1) Hl) by lia. cbn [bind]. destruct (Z.ltb_spec (j + 1) (zlen l)) as [L|L].
        + destruct (Z.eqb_spec (cyc l (j + 1)) 65535) as [F|_]; [destruct (OKc (j + 1)); lia|]. exists (j + 1). split; [reflexivity|]. split; [lia|reflexivity].
        + exists 0. split; [reflexivity|]. split; [lia|]. replace (j + 1) with (zlen l) by lia. now rewrite cyc_0. }
    rewrite Enj. cbn [bind]. rewrite corner_ok by apply OKc. cbn [bind].
    replace (Z.of_nat i * 2 * nvp + nj) with (vslot nvp (Z.of_nat i) nj) by (unfold vslot; ring).
    rewrite (proj2 HV i l nj Hl) by lia. cbn [bind]. destruct (Z.ltb_spec nj (zlen l)); [|lia]. rewrite Cnj. rewrite corner_ok by apply OKc. cbn [bind].
    assert (marked w h verts l j 65535 = match portalSide w h (at_xz verts (cyc l j)) (at_xz verts (cyc l (j + 1))) with Some v => v | None => 65535 end) as M.
    { unfold marked. destruct (Z.ltb_spec j (zlen l)); [|lia]. reflexivity. }
    destruct (portalSide w h (at_xz verts (cyc l j)) (at_xz verts (cyc l (j + 1)))) as [v|].
    + rewrite set_in_range by exact Rs. cbn [bind]. apply (Step _ v); [apply vpart_upd; [exact HV|lia|lia]| |auto].
      intros i' j' k Hi' Hj' E. rewrite get_upd by (unfold nslot; nia).
      destruct (Z.eqb_spec (nslot nvp i' j') (nslot nvp (Z.of_nat i) j)) as [Q|Q].
      * apply slot_inj in Q; [|lia|lia]. destruct Q as [-> ->]. rewrite !Z.eqb_refl. cbn [andb].
        destruct (Z.ltb_spec (nslot nvp (Z.of_nat i) j) (zlen t)); [reflexivity|lia].
      * cbn [andb]. rewrite E. f_equal. destruct (Z.eqb_spec i' (Z.of_nat i)) as [->|]; [|reflexivity]. destruct (Z.eqb_spec j j') as [<-|]; [contradiction|reflexivity].
    + cbn [bind]. apply (Step t 65535 HV); [|auto].
      intros i' j' k Hi' Hj' E. rewrite E. f_equal. destruct (Z.eqb_spec i' (Z.of_nat i)) as [->|]; [|reflexivity]. destruct (Z.eqb_spec j j') as [<-|]; [|reflexivity].
      rewrite En in E. apply Ok_inj in E. cbn [andb]. auto.
Qed.

Lemma allPortals_ok : forall nvp w h verts P, Forall (fun l => 3 <= zlen l <= nvp /\ Forall (ok_vert verts) l) P ->
  forall n t, (n <= length P)%nat -> vpart nvp P t ->
  exists t', foldM (fun t i => markPortals (Z.to_nat nvp) nvp w h i verts 0 t) (zseq n) t = Ok t' /\ vpart nvp P t' /\
    forall i j k l, nth_error P i = Some l -> 0 <= j < nvp -> get t (nslot nvp (Z.of_nat i) j) = Ok k ->
      get t' (nslot nvp (Z.of_nat i) j) = Ok (if (i <? n)%nat then marked w h verts l j k else k).
Proof.
  intros nvp w h verts P HP. induction n as [|n IH]; intros t Hn HV.
  - exists t. split; [reflexivity|]. split; [exact HV|]. intros i j k l Hl Hj E. exact E.
  - destruct (IH t ltac:(lia) HV) as (t1 & E1 & HV1 & H1). rewrite zseq_S, foldM_app, E1. cbn [bind foldM].
    destruct (nth_error P n) as [l|] eqn:Hl; [|apply nth_error_None in Hl; lia].
    assert (3 <= zlen l <= nvp /\ Forall (ok_vert verts) l) as [Ll Fl] by (rewrite Forall_forall in HP; apply HP; eapply nth_error_In; eauto).
    destruct (markPortals_ok nvp w h verts P n l Hl Ll Fl (Z.to_nat nvp) 0 t1 HV1) as (t2 & E2 & HV2 & H2); [lia|lia|].
    rewrite E2. cbn [bind]. exists t2. split; [reflexivity|]. split; [exact HV2|]. intros i j k l' Hl' Hj E.
    specialize (H1 i j k l' Hl' Hj E). apply H2 in H1; [|lia|lia]. rewrite H1. f_equal. destruct (Z.leb_spec 0 j); [|lia]. rewrite andb_true_r.
    destruct (Z.eqb_spec (Z.of_nat i) (Z.of_nat n)) as [Q|Q].
    + assert (i = n) as -> by lia. assert (l' = l) as -> by congruence. destruct (Nat.ltb_spec n n); [lia|]. destruct (Nat.ltb_spec n (S n)); [reflexivity|lia].
    + destruct (Nat.ltb_spec i n), (Nat.ltb_spec i (S n)); reflexivity || lia.
Qed.

Lemma polyTable_table : forall nvp (Q : list (list Z * (Z * Z))), polyTable nvp (map (rowOf nvp) Q) = table nvp (map fst Q).
Proof.
  intros nvp Q. unfold polyTable, table. induction Q as [|q Q IH]; [reflexivity|]. cbn [map flat_map]. rewrite IH. f_equal.
  unfold rowOf. cbn [fst]. rewrite <- app_assoc. reflexivity.
Qed.

(** What follows the loop over the contours and the removal of vertices. *)
Lemma finish_ok : forall nvp borderSize w h (Q : list (list Z * (Z * Z))) verts nv V, 3 <= nvp -> zlen Q * nvp <= 65535 ->
  0 <= nv <= 21845 -> nv * 3 <= zlen verts -> (forall v, 0 <= v < nv -> at_xz verts v = pos_in V v) ->
  Forall (fun q => 3 <= zlen (fst q) <= nvp /\ Forall (fun v => 0 <= v < nv) (fst q)) Q ->
  exists t, (let* t := buildMeshAdjacency (polyTable nvp (map (rowOf nvp) Q)) (zlen (map (rowOf nvp) Q)) nv nvp in
     if borderSize >? 0
     then foldM (fun t i => markPortals (Z.to_nat nvp) nvp w h i verts 0 t) (zseq (Z.to_nat (zlen (map (rowOf nvp) Q)))) t
     else Ok t) = Ok t /\ connected nvp borderSize w h V (map fst Q) t.
Proof.
  intros nvp borderSize w h Q verts nv V Hn HQ Hnv Hverts Hpos HG. rewrite polyTable_table. set (P := map fst Q).
  assert (zlen (map (rowOf (X := Z * Z) nvp) Q) = zlen P) as EL by (unfold P, zlen; now rewrite !map_length). rewrite EL.
  assert (zlen Q = zlen P) as EQ by (unfold P, zlen; now rewrite map_length).
  assert (Forall (fun l => 3 <= zlen l <= nvp /\ Forall (fun v => 0 <= v < nv) l) P) as HP.
  { apply Forall_forall. intros l Hl. unfold P in Hl. apply in_map_iff in Hl. destruct Hl as (q & <- & Hq). rewrite Forall_forall in HG. auto. }
  pose proof (zlen_nonneg P) as LP.
  assert (Forall (fun l => zlen l <= nvp /\ Forall (fun v => 0 <= v < nv) l) P) as HP1.
  { eapply Forall_impl; [|exact HP]. cbn. intros l [? ?]. split; [lia|assumption]. }
  assert (zlen P <= 65535 /\ (0 < zlen P -> nvp <= 65535)) as [S1 S2] by nia.
  destruct (Z.eq_dec (zlen P) 0) as [P0|P0].
  { (* no polygons *)
    assert (P = []) as Pn by (destruct P; [reflexivity|unfold zlen in P0; cbn in P0; lia]). rewrite Pn in *. cbn [table flat_map zlen length].
    destruct (adjacency_ok [] 0 nv [] (Forall_nil _)) as (t & E & Lt & _); try (change (zlen (A := list Z) []) with 0; lia).
    cbn [table flat_map app] in E, Lt. change (zlen []) with 0 in E |- *.
    assert (buildMeshAdjacency [] 0 nv nvp = buildMeshAdjacency [] 0 nv 0) as E0 by reflexivity. change (Z.of_nat 0) with 0. rewrite E0, E. cbn [bind].
    assert (t = []) as -> by (destruct t; [reflexivity|discriminate]).
    exists []. split; [destruct (borderSize >? 0); reflexivity|]. unfold connected.
    assert (forall i j a b, ~ goes [] i j a b) as NG by (intros i j a b (_ & l & F & _); destruct (Z.to_nat i); discriminate F).
    split; [intros [|i] ? ? F; discriminate F|]. split; [intros i j Hi; change (0 <= i < 0) in Hi; lia|]. split; [intros _ i j a b s G; destruct (NG _ _ _ _ G)|].
    intros _ i j k j' a b G. destruct (NG _ _ _ _ G). }
  destruct (adjacency_ok P nvp nv [] HP1) as (t & E & Lt & T1 & T2 & _); try lia.
  pose proof (PolyMesh.C53_complete P nvp nv [] t HP1 ltac:(lia) ltac:(lia) ltac:(lia) ltac:(lia)) as T3.
  rewrite !app_nil_r in *. rewrite E. cbn [bind]. specialize (fun H => T3 H E).
  assert (Forall (fun l => zlen l <= nvp) P) as HP2 by (eapply Forall_impl; [|exact HP1]; cbn; tauto).
  assert (vpart nvp P t) as HV.
  { split; [unfold zlen at 1; rewrite Lt; apply (table_length nvp P); [lia|exact HP2]|]. intros i l j Hl Hj.
    assert (i < length P)%nat by (apply nth_error_Some; congruence). unfold vslot. rewrite T1 by (unfold zlen; lia).
    pose proof (get_table nvp P [] i j l ltac:(lia) HP2 Hl ltac:(lia)) as G. rewrite app_nil_r in G. rewrite G. apply get_block; [lia| |lia].
    rewrite Forall_forall in HP2. apply HP2. eapply nth_error_In; eauto. }
  assert (exists t', (if borderSize >? 0 then foldM (fun t i => markPortals (Z.to_nat nvp) nvp w h i verts 0 t) (zseq (Z.to_nat (zlen P))) t else Ok t) = Ok t' /\
    vpart nvp P t' /\ forall i j k l, nth_error P i = Some l -> 0 <= j < nvp -> get t (nslot nvp (Z.of_nat i) j) = Ok k ->
      get t' (nslot nvp (Z.of_nat i) j) = Ok (if borderSize >? 0 then marked w h verts l j k else k)) as (t' & E' & HV' & H').
  { destruct (borderSize >? 0).
    - destruct (allPortals_ok nvp w h verts P) with (n := Z.to_nat (zlen P)) (t := t) as (t' & E' & HV' & H').
      + eapply Forall_impl; [|exact HP]. cbn. intros l [L F]. split; [exact L|]. eapply Forall_impl; [|exact F]. cbn. intros v Hv. unfold ok_vert. lia.
      + unfold zlen. lia.
      + exact HV.
      + exists t'. split; [exact E'|]. split; [exact HV'|]. intros i j k l Hl Hj Ek. rewrite (H' i j k l Hl Hj Ek).
        assert (i < length P)%nat by (apply nth_error_Some; congruence). destruct (Nat.ltb_spec i (Z.to_nat (zlen P))); [reflexivity|unfold zlen in *; lia].
    - exists t. split; [reflexivity|]. split; [exact HV|]. auto. }
  rewrite E'. exists t'. split; [reflexivity|]. unfold connected.
  assert (forall o k, 0 <= o -> (get t' o = Ok k <-> nth_error t' (Z.to_nat o) = Some k)) as GN by (intros o k Ho; rewrite get_ok; intuition lia).
  assert (forall i j, 0 <= i -> 0 <= j < nvp -> 0 <= nslot nvp i j) as NP by (intros i j Hi Hj; unfold nslot; nia).
  assert (forall i j a b, goes P i j a b -> 0 <= i < zlen P /\ 0 <= j < nvp) as GR.
  { intros i j a b (Hi & l & Hl & Hj & _). assert (Z.to_nat i < length P)%nat by (apply nth_error_Some; congruence).
    rewrite Forall_forall in HP. apply nth_error_In in Hl. apply HP in Hl. unfold zlen in *. lia. }
  assert (forall i j k, 0 <= i < zlen P -> 0 <= j < nvp -> get t (nslot nvp i j) = Ok k -> k <> 65535 -> get t' (nslot nvp i j) = Ok k) as Keep.
  { intros i j k Hi Hj Ek Nk. destruct (nth_error P (Z.to_nat i)) as [l|] eqn:Hl; [|apply nth_error_None in Hl; unfold zlen in Hi; lia].
    rewrite <- (Z2Nat.id i) in Ek |- * by lia. rewrite (H' _ _ _ _ Hl Hj Ek). unfold marked. destruct (Z.eqb_spec k 65535); [contradiction|].
    rewrite andb_false_r. now destruct (borderSize >? 0). }
  assert (forall i j, 0 <= i < zlen P -> 0 <= j < nvp -> exists k, get t (nslot nvp i j) = Ok k) as Ex.
  { intros i j Hi Hj. apply get_in_range. rewrite (proj1 HV). unfold nslot. nia. }
  assert (forall i j a b, goes P i j a b -> exists l, nth_error P (Z.to_nat i) = Some l /\ 0 <= j < zlen l /\ cyc l j = a /\ cyc l (j + 1) = b /\
     at_xz verts a = pos_in V a /\ at_xz verts b = pos_in V b) as GL.
  { intros i j a b (Hi & l & Hl & Hj & Ha & Hb). exists l. split; [exact Hl|]. split; [exact Hj|]. split; [exact Ha|]. split; [exact Hb|].
    rewrite Forall_forall in HP. destruct (HP l) as [L F]; [eapply nth_error_In; eauto|]. rewrite Forall_forall in F.
    split; apply Hpos, F; subst; apply cyc_in; unfold zlen; lia. }
  split; [|split; [|split]].
  - intros i l j Hl Hj. apply GN; [unfold vslot; nia|]. apply (proj2 HV'); assumption.
  - intros i j Hi Hj. destruct (Ex i j Hi Hj) as (k & Ek). destruct (Z.eq_dec k 65535) as [->|Nk].
    + destruct (nth_error P (Z.to_nat i)) as [l|] eqn:Hl; [|apply nth_error_None in Hl; lia].
      pose proof Ek as Ek'. rewrite <- (Z2Nat.id i) in Ek' by lia. apply (H' _ _ _ _ Hl Hj) in Ek'. rewrite Z2Nat.id in Ek' by lia.
      apply GN in Ek'; [|apply NP; lia]. eexists. split; [exact Ek'|].
      destruct (borderSize >? 0) eqn:B; [|auto]. unfold marked. destruct (Z.ltb_spec j (zlen l)) as [Lj|Lj]; [|auto]. cbn [andb]. rewrite Z.eqb_refl.
      assert (goes P i j (cyc l j) (cyc l (j + 1))) as G by (split; [lia|]; exists l; repeat split; auto; lia).
      destruct (GL _ _ _ _ G) as (_ & _ & _ & _ & _ & A1 & A2). rewrite A1, A2.
      pose proof (portalSide_lies w h (pos_in V (cyc l j)) (pos_in V (cyc l (j + 1)))) as PL.
      destruct (portalSide w h (pos_in V (cyc l j)) (pos_in V (cyc l (j + 1)))) as [k|]; [|auto].
      destruct PL as (s & -> & PL). right. right. split; [lia|]. exists s, (cyc l j), (cyc l (j + 1)). auto.
    + exists k. split; [apply GN; [apply NP; lia|auto]|]. right. left.
      destruct (T2 i j k Hi Hj Ek Nk) as (j' & a & b & G1 & G2 & Nki & Ei). exists j', a, b. split; [exact G1|]. split; [exact G2|]. split; [exact Nki|].
      destruct (GR _ _ _ _ G2) as [Rk Rj']. apply GN; [apply NP; lia|]. apply Keep; try assumption. unfold zlen in S1. lia.
  - intros B i j a b s G LO F. destruct (GR _ _ _ _ G) as [Ri Rj]. apply GN in F; [|apply NP; lia].
    destruct (Ex i j Ri Rj) as (k & Ek). destruct (Z.eq_dec k 65535) as [->|Nk]; [|rewrite (Keep _ _ _ Ri Rj Ek Nk) in F; apply Ok_inj in F; contradiction].
    destruct (GL _ _ _ _ G) as (l & Hl & Lj & Ea & Eb & A1 & A2).
    pose proof Ek as Ek'. rewrite <- (Z2Nat.id i) in Ek' by lia. apply (H' _ _ _ _ Hl Rj) in Ek'. rewrite Z2Nat.id in Ek' by lia.
    rewrite Ek' in F. apply Ok_inj in F. destruct (Z.gtb_spec borderSize 0); [|lia]. unfold marked in F. destruct (Z.ltb_spec j (zlen l)); [|lia].
    cbn [andb] in F. rewrite Z.eqb_refl, Ea, Eb, A1, A2 in F. pose proof (portalSide_lies w h (pos_in V a) (pos_in V b)) as PL.
    destruct (portalSide w h (pos_in V a) (pos_in V b)) as [k|] eqn:EP; [apply portalSide_val in EP; lia|]. eapply PL; eauto.
  - intros NS i j k j' a b G1 G2 Nab U1 U2. destruct (T3 NS i j k j' a b G1 G2 Nab) as [_ T]. destruct (T U1 U2) as [X Y].
    destruct (GR _ _ _ _ G1) as [Ri Rj]. destruct (GR _ _ _ _ G2) as [Rk Rj'].
    split; apply GN; try (apply NP; lia).
    + apply Keep; [exact Ri|exact Rj|exact X|lia].
    + apply Keep; [exact Rk|exact Rj'|exact Y|lia].
Qed.
