(** CreateNavMeshData needs the tree flag and detail meshes: the sections keep the lengths they
    were made with, and without the flag the buffer is too short for them. *)
From Coq Require Import ZArith List Lia Bool Permutation.
From Verif.Base Require Import Res GoNum F32 Num Grid Bits Bytes.
From Verif.Model Require Import Poly MeshTypes Geom MeshLinks BvTree Serial SegDist Create.
From Verif.Spec Require Import SerialSpec CreateSpec BvSpec.
From Verif.Proofs Require Import CompactProofs SerialProofs BvProofs FloatAdd FloatMag FloatOk CreateBase CreateProofs CreateTile CreateAll.
From Verif.Properties Require Import DetourSerial.
Import ListNotations.
Open Scope Z_scope.

Lemma putA_len : forall {A} (l : list A) off xs l', putA l off xs = Ok l' -> zlen l' = zlen l.
Proof.
  intros A l off xs l' E. unfold putA in E. destruct (Z.leb_spec 0 off); cbn [andb] in E; [|discriminate]. destruct (Z.leb_spec (off + zlen xs) (zlen l)); [|discriminate].
  apply Ok_inj in E. subst l'. unfold zlen in *. rewrite !app_length, firstn_length, skipn_length. lia.
Qed.
Lemma copyA_len : forall {A} (l : list A) off xs l', copyA l off xs = Ok l' -> zlen l' = zlen l.
Proof. intros A l off xs l' E. unfold copyA in E. destruct (_ && _); [|discriminate]. now apply putA_len in E. Qed.
Ltac inv_bind H := let a := fresh "a" in let E := fresh "E" in apply bind_ok in H as (a & E & H).

Section Len.
Variable p : CreateParams.
Lemma fillVert_len : forall l i l', fillVert p l i = Ok l' -> zlen l' = zlen l.
Proof. intros l i l' E. unfold fillVert in E. do 4 inv_bind E. now apply putA_len in E. Qed.
Lemma fillConVerts_len : forall cls st i st', fillConVerts p cls st i = Ok st' -> zlen (fst st') = zlen (fst st).
Proof.
  intros cls [l n] i st' E. unfold fillConVerts in E. inv_bind E. destruct (fst a =? 255); [|apply Ok_inj in E; now subst].
  inv_bind E. apply bind_ok in E as (l' & P & E). apply Ok_inj in E. subst st'. cbn [fst]. now apply putA_len in P.
Qed.
Lemma fillPoly_len : forall st i st', fillPoly p st i = Ok st' -> zlen (fst st') = zlen (fst st).
Proof.
  intros [l n] i st' E. unfold fillPoly in E. do 4 inv_bind E. apply bind_ok in E as (l' & P & E). inv_bind E. apply Ok_inj in E. subst st'. cbn [fst]. now apply set_zlen in P.
Qed.
Lemma fillConPoly_len : forall cls st i st', fillConPoly p cls st i = Ok st' -> zlen (fst st') = zlen (fst st).
Proof.
  intros cls [l n] i st' E. unfold fillConPoly in E. inv_bind E. destruct (fst a =? 255); [|apply Ok_inj in E; now subst].
  do 5 inv_bind E. apply bind_ok in E as (l' & P & E). apply Ok_inj in E. subst st'. cbn [fst]. now apply set_zlen in P.
Qed.
Lemma fillCon_len : forall cls st i st', fillCon p cls st i = Ok st' -> zlen (fst st') = zlen (fst st).
Proof.
  intros cls [l n] i st' E. unfold fillCon in E. inv_bind E. destruct (fst a =? 255); [|apply Ok_inj in E; now subst].
  do 4 inv_bind E. apply bind_ok in E as (l' & P & E). apply Ok_inj in E. subst st'. cbn [fst]. now apply set_zlen in P.
Qed.
Lemma fillDetail_len : forall dm polys st i st', fillDetail p dm polys st i = Ok st' ->
  zlen (fst (fst st')) = zlen (fst (fst st)) /\ zlen (snd (fst st')) = zlen (snd (fst st)).
Proof.
  intros dm polys [[l dv] n] i st' E. unfold fillDetail in E. do 5 inv_bind E. apply bind_ok in E as (l' & P & E). apply set_zlen in P.
  destruct (_ =? 0); [apply Ok_inj in E; subst st'; cbn [fst snd]; auto|]. inv_bind E. apply bind_ok in E as (dv' & Q & E). apply copyA_len in Q. apply Ok_inj in E. subst st'. cbn [fst snd]. auto.
Qed.
Lemma fillDummy_len : forall polys st i st', fillDummy polys st i = Ok st' ->
  zlen (fst (fst st')) = zlen (fst (fst st)) /\ zlen (snd (fst st')) = zlen (snd (fst st)).
Proof.
  intros polys [[l tr] n] i st' E. unfold fillDummy in E. inv_bind E. apply bind_ok in E as (l' & P & E). apply set_zlen in P.
  apply bind_ok in E as ([tr' tb'] & Q & E). apply Ok_inj in E. subst st'. cbn [fst snd]. split; [exact P|].
  apply (foldM_ok_pres _ (fun s => zlen (fst s) = zlen tr) _ _ _ Q); [reflexivity|].
  intros j [t b] s' _ I S. unfold fillFan in S. apply bind_ok in S as (t' & R & S). apply Ok_inj in S. subst s'. cbn [fst] in *. apply putA_len in R. congruence.
Qed.
Lemma foldM_len : forall {S} (f : S -> Z -> res S) (g : S -> Z), (forall s i s', f s i = Ok s' -> g s' = g s) ->
  forall l s s', foldM f l s = Ok s' -> g s' = g s.
Proof. intros S f g H l s s' E. apply (foldM_ok_pres _ (fun x => g x = g s) _ _ _ E); [reflexivity|]. intros a s1 s2 _ I X. rewrite (H _ _ _ X). exact I. Qed.

Lemma countVerts_range : forall n q j nv r, countVerts n q j nv = Ok r -> nv <= r <= nv + Z.of_nat n.
Proof.
  induction n as [|n IH]; intros q j nv r E; cbn [countVerts] in E; [apply Ok_inj in E; lia|]. inv_bind E.
  destruct (_ =? meshNullIdx); [apply Ok_inj in E; lia|]. apply IH in E. lia.
Qed.
Hypothesis Hz : sized p.
Lemma detailCounts_range : nilOr (cpDMeshes p) = [] \/ detailed p -> forall u dt, detailCounts p = Ok (u, dt) -> is_i32 (3 * u) /\ is_i32 (4 * dt).
Proof using Hz.
  intros [Hn|Hd] u dt E.
  - pose proof (b_nums p Hz) as N. unfold detailCounts in E. destruct (cpDMeshes p) as [dm|].
    + cbn [nilOr] in Hn. subst dm. apply bind_ok in E as (u' & F & _). exfalso. replace (Z.to_nat (cpPolyCount p)) with (S (Z.to_nat (cpPolyCount p - 1))) in F by lia.
      change (S (Z.to_nat (cpPolyCount p - 1))) with (1 + Z.to_nat (cpPolyCount p - 1))%nat in F. rewrite zseq_app in F. rewrite foldM_app in F. apply bind_ok in F as (s & F & _). cbn [zseq seq map foldM] in F.
      apply bind_ok in F as (s1 & F & _). apply bind_ok in F as (q & _ & F). cbn in F. discriminate.
    + apply bind_ok in E as (d & F & E). apply Ok_inj in E. inversion E; subst. split; [unfold is_i32; lia|].
      assert (R : -2 * cpPolyCount p <= dt <= 4 * cpPolyCount p).
      { assert (K : forall k s, (k <= Z.to_nat (cpPolyCount p))%nat -> foldM (fun d i =>
            let* q := from (nilOr (cpPolys p)) (i32 (i * cpNvp p * 2)) in
            let* nv := countVerts (Z.to_nat (cpNvp p)) q 0 0 in Ok (i32 (d + (nv - 2)))) (zseq k) 0 = Ok s -> -2 * Z.of_nat k <= s <= 4 * Z.of_nat k).
        { induction k as [|k IH]; intros s Hk G; [cbn in G; apply Ok_inj in G; lia|]. rewrite zseq_S, foldM_app in G. apply bind_ok in G as (s1 & G1 & G). specialize (IH s1 ltac:(lia) G1).
          cbn [foldM] in G. apply bind_ok in G as (s2 & G & G'). apply Ok_inj in G'. subst s2. apply bind_ok in G as (q & _ & G). apply bind_ok in G as (nv & C & G). apply Ok_inj in G.
          apply countVerts_range in C. rewrite i32_id in G by (unfold is_i32; lia). lia. }
        pose proof (K (Z.to_nat (cpPolyCount p)) dt ltac:(lia) F). lia. }
      unfold is_i32. lia.
  - rewrite (detailCounts_eq p Hz Hd) in E. apply Ok_inj in E. inversion E; subst. pose proof (b_nums p Hz). pose proof (extra_le p Hz Hd (Z.to_nat (cpPolyCount p)) ltac:(lia)) as X. rewrite Z2Nat.id in X by lia.
    destruct (z_tricount p Hz) as (T0 & T1 & T2). unfold is_i32. lia.
Qed.

Variable sort : (bvItem -> bvItem -> bool) -> list bvItem -> list bvItem.
Lemma sections_short : nilOr (cpDMeshes p) = [] \/ detailed p -> cpBuildBvTree p = false -> forall h td n, tileSections sort p = Ok (h, td, n) ->
  data_bytes td = n - 100 + 32 * cpPolyCount p /\ tdBv td <> [].
Proof using Hz.
  intros Hd Hb h td n E. pose proof (b_nums p Hz) as N. pose proof (kept_le p Hz) as K. unfold tileSections in E.
  rewrite (classify_eq p Hz) in E. cbn [bind] in E. rewrite stored_eq in E. rewrite Hb in E.
  apply bind_ok in E as ([ec po] & _ & E). apply bind_ok in E as ([u dt] & Hu & E). pose proof (detailCounts_range Hd u dt Hu) as [Ru Rt].
  rewrite (i32_id (cpVertCount p + i32 (zlen (kept p) * 2))) in E by (rewrite i32_id; unfold is_i32; lia). rewrite (i32_id (zlen (kept p) * 2)) in E by (unfold is_i32; lia).
  rewrite (i32_id (cpPolyCount p + zlen (kept p))) in E by (unfold is_i32; lia). rewrite (i32_id (3 * u)), (i32_id (4 * dt)) in E by assumption.
  rewrite (i32_id (cpPolyCount p * 2)) in E by (unfold is_i32; lia).
  set (ml := i32 (i32 (ec + i32 (po * 2)) + i32 (endCount (classes p) * 2))) in *. clearbody ml.
  assert (M : forall x k, make_len x = Ok k -> Z.of_nat k = x) by (intros x k X; unfold make_len in X; destruct (Z.ltb_spec x 0); [discriminate|]; apply Ok_inj in X; lia).
  apply bind_ok in E as (k1 & M1 & E). apply bind_ok in E as (k2 & M2 & E). apply bind_ok in E as (k3 & M3 & E). apply bind_ok in E as (k4 & M4 & E).
  apply bind_ok in E as (k5 & M5 & E). apply bind_ok in E as (k6 & M6 & E). apply M in M1, M2, M3, M4, M5, M6.
  apply bind_ok in E as (v1 & F1 & E). apply (foldM_len _ zlen fillVert_len) in F1.
  apply bind_ok in E as ([v2 ?] & F2 & E). apply (foldM_len _ (fun s => zlen (fst s)) (fillConVerts_len _)) in F2. cbn [fst] in F2.
  apply bind_ok in E as ([q1 ?] & F3 & E). apply (foldM_len _ (fun s => zlen (fst s)) fillPoly_len) in F3. cbn [fst] in F3.
  apply bind_ok in E as ([q2 ?] & F4 & E). apply (foldM_len _ (fun s => zlen (fst s)) (fillConPoly_len _)) in F4. cbn [fst] in F4.
  apply bind_ok in E as ([[dms dvs] tris] & D & E).
  assert (LD : zlen dms = cpPolyCount p /\ zlen dvs = 3 * u /\ zlen tris = 4 * dt).
  { destruct (nilOr (cpDMeshes p)) as [|d0 ds].
    - apply bind_ok in D as ([[x y] w] & F & D). apply Ok_inj in D. inversion D; subst.
      pose proof (foldM_len _ (fun s => zlen (fst (fst s))) (fun s i s' X => proj1 (fillDummy_len _ s i s' X)) _ _ _ F) as A.
      pose proof (foldM_len _ (fun s => zlen (snd (fst s))) (fun s i s' X => proj2 (fillDummy_len _ s i s' X)) _ _ _ F) as B. cbn [fst snd] in A, B. rewrite zlen_repeat in A. rewrite zlen_repeat in B. rewrite zlen_repeat. lia.
    - apply bind_ok in D as ([[x y] w] & F & D). apply bind_ok in D as (src & _ & D). apply bind_ok in D as (tr & C & D). apply Ok_inj in D. inversion D; subst. apply copyA_len in C.
      pose proof (foldM_len _ (fun s => zlen (fst (fst s))) (fun s i s' X => proj1 (fillDetail_len _ _ s i s' X)) _ _ _ F) as A.
      pose proof (foldM_len _ (fun s => zlen (snd (fst s))) (fun s i s' X => proj2 (fillDetail_len _ _ s i s' X)) _ _ _ F) as B. cbn [fst snd] in A, B. rewrite zlen_repeat in A. rewrite zlen_repeat in B. rewrite zlen_repeat in C. lia. }
  cbn [bind] in E. apply bind_ok in E as ([om ?] & F5 & E). apply (foldM_len _ (fun s => zlen (fst s)) (fillCon_len _)) in F5. cbn [fst] in F5.
  apply bind_ok in E as (k7 & M7 & E). apply M in M7. apply Ok_inj in E.
  pose proof (f_equal snd E) as En. pose proof (f_equal (fun x => snd (fst x)) E) as Et. clear E. cbn [fst snd] in En, Et. rewrite <- En, <- Et.
  unfold data_bytes. cbn [tdVerts tdPolys tdLinks tdDMeshes tdDVerts tdDTris tdBv tdCons]. rewrite zlen_repeat in F1. rewrite zlen_repeat in F3. rewrite zlen_repeat in F5. rewrite !zlen_repeat. split; [lia|].
  destruct k6; [lia|discriminate].
Qed.
Lemma create_needs : nilOr (cpDMeshes p) = [] \/ detailed p -> forall r, CreateNavMeshData sort p = Ok r -> cpBuildBvTree p = true /\ nilOr (cpDMeshes p) <> [].
Proof using Hz.
  intros Hd r E. pose proof (b_nums p Hz) as N. unfold CreateNavMeshData in E. rewrite (not_rejected p Hz) in E. apply bind_ok in E as ([[h td] n] & T & E).
  destruct (cpBuildBvTree p) eqn:Hb.
  - split; [reflexivity|]. intros Hn. unfold tileSections in T. rewrite Hn, Hb in T. inv_bind T. apply bind_ok in T as ([? ?] & _ & T). apply bind_ok in T as ([? ?] & _ & T).
    do 6 inv_bind T. inv_bind T. apply bind_ok in T as ([? ?] & _ & T). apply bind_ok in T as ([? ?] & _ & T). apply bind_ok in T as ([? ?] & _ & T). apply bind_ok in T as ([[? ?] ?] & _ & T).
    apply bind_ok in T as (bv & B & T). unfold createBVTree in B. destruct (Z.leb_spec (cpPolyCount p) 0); [lia|]. discriminate B.
  - exfalso. destruct (sections_short Hd Hb h td n T) as [D NE]. apply bind_ok in E as (k & M & E). apply bind_ok in E as (buf & HS & E). apply bind_ok in E as (tl & F & E). apply bind_ok in E as (tl' & S & E).
    pose proof (serialize_needs _ _ _ S NE) as L. unfold make_len in M. destruct (Z.ltb_spec n 0); [discriminate|]. apply Ok_inj in M. subst k.
    assert (LB : zlen buf = n).
    { destruct (Z.leb_spec 100 n) as [H100|H100].
      - rewrite header_serialize_enc in HS by (rewrite zlen_repeat; lia). apply Ok_inj in HS. subst buf.
        assert (LH : length (enc_header h) = 100%nat) by (destruct h as [? ? ? ? ? ? ? ? ? ? ? ? ? ? ? ? ? ? [[? ?] ?] [[? ?] ?] ?]; reflexivity).
        unfold zlen in *. rewrite app_length, skipn_length, repeat_length, LH. lia.
      - exfalso. pose proof (C18_small_buffer_panics h (mkParams (0, 0, 0) 0 0 0 0) 0 0 0 0 0 (repeat 0 (Z.to_nat n))) as [P _]. rewrite P in HS by (rewrite zlen_repeat; unfold header_size; lia). discriminate HS. }
    unfold from in F. unfold slice in F. destruct (_ && _ && _) eqn:Q in F; [|discriminate]. apply Ok_inj in F. subst tl.
    apply andb_true_iff in Q as [Q _]. apply andb_true_iff in Q as [_ Q]. apply Z.leb_le in Q. unfold header_size in *.
    assert (zlen (firstn (Z.to_nat (zlen buf - 100)) (skipn (Z.to_nat 100) buf)) <= n - 100) by (unfold zlen in *; rewrite firstn_length, skipn_length; lia). lia.
Qed.
End Len.
