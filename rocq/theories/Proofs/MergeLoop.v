(** The merging loop of the polygon mesh: a sequence of merges of two polygons. *)
From Coq Require Import ZArith List Bool Lia Permutation.
From Verif.Base Require Import Res GoNum Grid.
From Verif.Model Require Import PolyMeshOps BuildMesh.
From Verif.Spec Require Import AreaSpec MeshOpsSpec BuildSpec.
From Verif.Proofs Require Import TriangulateProofs MergeProofs EdgeProofs.
Import ListNotations.
Open Scope Z_scope.

(** * Removing elements by overwriting them with the last one *)
Lemma split_at : forall {A} (l : list A) i x, get l i = Ok x -> exists a b, l = a ++ x :: b /\ zlen a = i.
Proof.
  intros A l i x H. apply get_ok in H. destruct H as [H0 H]. destruct (nth_error_split _ _ H) as (a & b & -> & L).
  exists a, b. split; [reflexivity|]. unfold zlen. lia.
Qed.
Lemma get_mid : forall {A} (a : list A) x b, get (a ++ x :: b) (zlen a) = Ok x.
Proof.
  intros A a x b. apply get_ok. unfold zlen. split; [lia|]. rewrite Nat2Z.id, nth_error_app2, Nat.sub_diag by lia. reflexivity.
Qed.
Lemma set_mid : forall {A} (a : list A) x b y, set (a ++ x :: b) (zlen a) y = Ok (a ++ y :: b).
Proof.
  intros A a x b y. rewrite set_in_range by (rewrite zlen_app, zlen_cons; pose proof (zlen_nonneg a); pose proof (zlen_nonneg b); lia).
  unfold zlen. rewrite Nat2Z.id, upd_app_length. reflexivity.
Qed.
Lemma get_last : forall {A} (a : list A) x, get (a ++ [x]) (zlen (a ++ [x]) - 1) = Ok x.
Proof. intros. rewrite zlen_snoc. replace (zlen a + 1 - 1) with (zlen a) by lia. apply get_mid. Qed.
Lemma rev_case : forall {A} (l : list A), l = [] \/ exists k x, l = k ++ [x].
Proof. intros A l. destruct l as [|y l]; [now left|]. right. destruct (exists_last (l := y :: l)) as (k & x & E); [discriminate|eauto]. Qed.
(** Removing element [i]. *)
Lemma swap_remove : forall {A} (l : list A) i x, get l i = Ok x ->
  exists y l1, get l (zlen l - 1) = Ok y /\ set l i y = Ok l1 /\ Permutation l (x :: removelast l1) /\
    zlen (removelast l1) = zlen l - 1.
Proof.
  intros A l i x H. destruct (split_at _ _ _ H) as (a & b & -> & <-).
  destruct (rev_case b) as [->|(c & y & ->)].
  - exists x, (a ++ [x]). rewrite get_last. split; [reflexivity|]. rewrite set_mid. split; [reflexivity|].
    rewrite removelast_last, zlen_snoc. split; [|lia]. apply Permutation_sym, Permutation_cons_append.
  - exists y, (a ++ y :: c ++ [y]). change (a ++ x :: c ++ [y]) with (a ++ (x :: c) ++ [y]). rewrite app_assoc, get_last. split; [reflexivity|].
    rewrite <- app_assoc. cbn [app]. rewrite set_mid. split; [reflexivity|].
    change (a ++ y :: c ++ [y]) with (a ++ (y :: c) ++ [y]). rewrite app_assoc, removelast_last. split.
    + eapply perm_trans; [apply Permutation_sym, Permutation_middle|]. apply perm_skip.
      apply Permutation_app_head. apply Permutation_sym, Permutation_cons_append.
    + rewrite !zlen_app, !zlen_cons, zlen_app, zlen_cons, zlen_nil. lia.
Qed.
(** Replacing element [i] and removing element [j] > i. *)
Lemma pair_remove : forall {A} (l : list A) i j x y z, get l i = Ok x -> get l j = Ok y -> i < j ->
  exists l1 w l2 rest, set l i z = Ok l1 /\ get l1 (zlen l1 - 1) = Ok w /\ set l1 j w = Ok l2 /\
    Permutation l (x :: y :: rest) /\ Permutation (removelast l2) (z :: rest).
Proof.
  intros A l i j x y z Hi Hj Hij. destruct (split_at _ _ _ Hi) as (a & b & -> & <-).
  assert (exists p q, b = p ++ y :: q /\ zlen a + 1 + zlen p = j) as (p & q & -> & <-).
  { apply get_ok in Hj. destruct Hj as [J0 Hj]. rewrite nth_error_app2 in Hj by (unfold zlen in *; lia).
    destruct (Z.to_nat j - length a)%nat as [|k] eqn:Ek; [unfold zlen in *; lia|]. cbn [nth_error] in Hj.
    destruct (nth_error_split _ _ Hj) as (p & q & -> & L). exists p, q. split; [reflexivity|]. unfold zlen in *. lia. }
  exists (a ++ z :: p ++ y :: q). rewrite set_mid.
  assert (zlen a + 1 + zlen p = zlen (a ++ z :: p)) as Ez by (rewrite zlen_app, zlen_cons; lia). rewrite Ez.
  assert (a ++ z :: p ++ y :: q = (a ++ z :: p) ++ y :: q) as El by (rewrite <- app_assoc; reflexivity). rewrite El.
  destruct (rev_case q) as [->|(c & w & ->)].
  - exists y, ((a ++ z :: p) ++ [y]), (a ++ p). split; [reflexivity|]. rewrite get_last. split; [reflexivity|].
    rewrite set_mid. split; [reflexivity|]. rewrite removelast_last. split.
    + eapply perm_trans; [apply Permutation_sym, Permutation_middle|]. apply perm_skip.
      rewrite app_assoc. apply Permutation_sym, Permutation_cons_append.
    + apply Permutation_sym, Permutation_middle.
  - exists w, ((a ++ z :: p) ++ w :: c ++ [w]), (a ++ p ++ w :: c). split; [reflexivity|].
    change (y :: c ++ [w]) with ((y :: c) ++ [w]). rewrite app_assoc, get_last. split; [reflexivity|].
    rewrite <- app_assoc. cbn [app]. rewrite set_mid. split; [reflexivity|].
    replace (removelast ((a ++ z :: p) ++ w :: c ++ [w])) with ((a ++ z :: p) ++ w :: c).
    2:{ rewrite <- (removelast_last ((a ++ z :: p) ++ w :: c) w). rewrite <- !app_assoc. reflexivity. }
    split.
    + eapply perm_trans; [apply Permutation_sym, Permutation_middle|]. apply perm_skip.
      rewrite app_assoc.
      eapply perm_trans; [apply Permutation_sym, Permutation_middle|]. apply perm_skip. rewrite <- app_assoc.
      apply Permutation_app_head, Permutation_app_head. apply Permutation_sym, Permutation_cons_append.
    + rewrite <- app_assoc. cbn [app]. apply Permutation_sym, Permutation_middle.
Qed.

(** * Rows and polygons *)
Section Loop.
  Context {X : Type}.
  Variables (nvp : Z) (verts : list Z) (join : X -> X -> X).
  Notation poly := (list Z * X)%type.
  Definition rowOf (q : poly) : prow X := (fst q ++ repeat 65535 (Z.to_nat nvp - length (fst q)), snd q).
  Definition good (q : poly) : Prop := 3 <= zlen (fst q) <= nvp /\ Forall (ok_vert verts) (fst q).
  Lemma good_padded : forall q, good q -> padded nvp (fst q) (fst (rowOf q)).
  Proof.
    intros [l x] [L V]. unfold rowOf. cbn [fst] in *. split; [unfold zlen in *; lia|]. split; [|reflexivity].
    intros F. rewrite Forall_forall in V. apply V in F. destruct F as [F _]. lia.
  Qed.
  (** What getPolyMergeValue guarantees about the pair it proposes. *)
  Definition fits (la lb : list Z) (ea eb : Z) : Prop :=
    zlen la + zlen lb - 2 <= nvp /\ 0 <= ea < zlen la /\ 0 <= eb < zlen lb /\ shared la lb ea eb /\
    uleft (at_xz verts (cyc la (ea - 1))) (at_xz verts (cyc la ea)) (at_xz verts (cyc lb (eb + 2))) = true /\
    uleft (at_xz verts (cyc lb (eb - 1))) (at_xz verts (cyc lb eb)) (at_xz verts (cyc la (ea + 2))) = true.
  Inductive mstep : list poly -> list poly -> Prop :=
  | mstep_intro qs la xa lb xb ea eb rest qs' :
      Permutation qs ((la, xa) :: (lb, xb) :: rest) -> fits la lb ea eb ->
      Permutation qs' ((merged la lb ea eb, join xa xb) :: rest) -> mstep qs qs'.
  Inductive msteps : list poly -> list poly -> Prop :=
  | msteps_nil qs : msteps qs qs
  | msteps_cons q1 q2 q3 : mstep q1 q2 -> msteps q2 q3 -> msteps q1 q3.

  Lemma get_map : forall (qs : list poly) i, get (map rowOf qs) i = let* q := get qs i in Ok (rowOf q).
  Proof.
    intros qs i. unfold get. destruct (i <? 0); [reflexivity|]. rewrite nth_error_map. destruct (nth_error qs (Z.to_nat i)); reflexivity.
  Qed.

  Lemma findBest_ok : forall qs, Forall good qs ->
    exists b, findBest nvp verts (map rowOf qs) = Ok b /\
      (0 < mbVal b -> mbPa b < mbPb b /\ exists qa qb, get qs (mbPa b) = Ok qa /\ get qs (mbPb b) = Ok qb /\
        fits (fst qa) (fst qb) (mbEa b) (mbEb b)).
  Proof.
    intros qs Hq. unfold findBest. assert (zlen (map rowOf qs) = zlen qs) as EL by (unfold zlen; now rewrite map_length). rewrite EL.
    set (P := fun b : mergeBest => 0 <= mbVal b /\ (0 < mbVal b -> mbPa b < mbPb b /\ exists qa qb, get qs (mbPa b) = Ok qa /\ get qs (mbPb b) = Ok qb /\
        fits (fst qa) (fst qb) (mbEa b) (mbEb b))).
    match goal with |- exists _, foldM ?f ?l ?s = _ /\ _ => destruct (foldM_inv f (fun _ => P) l s) as (b & E & Hb) end.
    - split; cbn; lia.
    - intros pre j post s El Hs.
      assert (0 <= j < zlen qs - 1) as Hj.
      { assert (In j (zseq (Z.to_nat (zlen qs - 1)))) as G by (rewrite El; apply in_or_app; right; now left). apply in_zseq in G. lia. }
      destruct (get_in_range qs j ltac:(lia)) as (qa & Ea). rewrite get_map, Ea. cbn [bind].
      match goal with |- exists _, foldM ?f ?l ?s = _ /\ _ => destruct (foldM_inv f (fun _ => P) l s) as (b & E & Hb) end.
      + exact Hs.
      + intros pre' k post' s' El' Hs'.
        assert (j < k < zlen qs) as Hk.
        { assert (In k (map (fun d => j + 1 + d) (zseq (Z.to_nat (zlen qs - (j + 1)))))) as G by (rewrite El'; apply in_or_app; right; now left).
          apply in_map_iff in G. destruct G as (d & <- & G). apply in_zseq in G. lia. }
        destruct (get_in_range qs k ltac:(lia)) as (qb & Eb). rewrite get_map, Eb. cbn [bind].
        rewrite Forall_forall in Hq.
        assert (good qa) as Ga by (apply Hq; apply get_ok in Ea; destruct Ea as [_ Ea]; eapply nth_error_In; eassumption).
        assert (good qb) as Gb by (apply Hq; apply get_ok in Eb; destruct Eb as [_ Eb]; eapply nth_error_In; eassumption).
        destruct (mergeValue_ok (fst (rowOf qa)) (fst (rowOf qb)) (fst qa) (fst qb) verts nvp) as (v & ea & eb & Ev & Hv);
          [apply good_padded, Ga|apply good_padded, Gb|destruct Ga; lia|destruct Gb; lia|apply Ga|apply Gb|].
        rewrite Ev. cbn [bind]. eexists. split; [reflexivity|]. rewrite Z.gtb_ltb.
        destruct (Z.ltb_spec (mbVal s') v) as [L|L]; [|exact Hs'].
        destruct Hs' as [H0 _]. split; cbn [mbVal mbPa mbPb mbEa mbEb]; [lia|]. intros _. split; [lia|]. exists qa, qb.
        split; [exact Ea|]. split; [exact Eb|]. unfold fits. apply Hv. lia.
      + exists b. auto.
    - exists b. split; [exact E|]. apply Hb.
  Qed.

  (** The value of the best pair is the largest. *)
  Lemma foldM_max : forall {A B} (f : B -> A -> res B) (m : B -> Z) (P : A -> Z -> Prop) l s s',
    (forall x a b, P x a -> a <= b -> P x b) ->
    (forall s x s', In x l -> f s x = Ok s' -> m s <= m s' /\ P x (m s')) ->
    foldM f l s = Ok s' -> m s <= m s' /\ forall x, In x l -> P x (m s').
  Proof.
    induction l as [|x l IH]; intros s s' Up Hf E.
    - apply Ok_inj in E. subst. split; [lia|intros ? []].
    - cbn [foldM] in E. apply bind_ok in E. destruct E as (s1 & E1 & E). destruct (Hf s x s1 (or_introl eq_refl) E1) as [L1 P1].
      destruct (IH s1 s' Up ltac:(intros; apply Hf; [now right|assumption]) E) as [L2 P2]. split; [lia|].
      intros y [<-|Hy]; [eapply Up; eassumption|auto].
  Qed.
  Lemma findBest_max : forall (rows : list (prow X)) b, findBest nvp verts rows = Ok b ->
    forall j k pj pk v ea eb, 0 <= j < k -> get rows j = Ok pj -> get rows k = Ok pk ->
      getPolyMergeValue (fst pj) (fst pk) verts nvp = Ok (v, ea, eb) -> v <= mbVal b.
  Proof.
    intros rows b E j k pj pk v ea eb Hjk Ej Ek Ev. unfold findBest in E.
    assert (k < zlen rows) as Hk by (apply get_ok in Ek; destruct Ek as [R K]; unfold zlen; assert (Z.to_nat k < length rows)%nat by (apply nth_error_Some; congruence); lia).
    apply (foldM_max _ mbVal (fun j x => forall k pj pk v ea eb, 0 <= j < k -> k < zlen rows -> get rows j = Ok pj -> get rows k = Ok pk ->
      getPolyMergeValue (fst pj) (fst pk) verts nvp = Ok (v, ea, eb) -> v <= x)) in E.
    - destruct E as [_ E]. eapply (E j); [apply in_zseq; lia|eassumption..].
    - intros x a b' H L. intros. assert (v0 <= a) by (eapply H; eassumption). lia.
    - clear. intros s x s' Hx E. apply bind_ok in E. destruct E as (pj & Ej & E).
      apply (foldM_max _ mbVal (fun k y => forall pk v ea eb, get rows k = Ok pk ->
        getPolyMergeValue (fst pj) (fst pk) verts nvp = Ok (v, ea, eb) -> v <= y)) in E.
      + destruct E as [L E]. split; [exact L|]. intros k pj' pk v ea eb Hjk Hk Ej' Ek Ev. rewrite Ej in Ej'. apply Ok_inj in Ej'. subst pj'.
        eapply (E k); [|exact Ek|exact Ev]. apply in_map_iff. exists (k - (x + 1)). split; [lia|]. apply in_zseq. lia.
      + intros y a b' H L. intros. assert (v <= a) by (eapply H; eassumption). lia.
      + intros s1 k s2 Hk E2. apply bind_ok in E2. destruct E2 as (pk & Ek & E2). apply bind_ok in E2. destruct E2 as ([[v ea] eb] & Ev & E2).
        apply Ok_inj in E2. subst s2. rewrite Z.gtb_ltb. split.
        * destruct (Z.ltb_spec (mbVal s1) v); cbn; lia.
        * intros pk' v' ea' eb' Ek' Ev'. rewrite Ek in Ek'. apply Ok_inj in Ek'. subst pk'. rewrite Ev in Ev'. apply Ok_inj in Ev'.
          injection Ev' as <- <- <-. destruct (Z.ltb_spec (mbVal s1) v); cbn; lia.
  Qed.
  (** No pair has a positive value. *)
  Definition finished (qs : list poly) : Prop := 3 < nvp -> forall j k qa qb v ea eb, (j < k)%nat -> nth_error qs j = Some qa -> nth_error qs k = Some qb ->
    getPolyMergeValue (fst (rowOf qa)) (fst (rowOf qb)) verts nvp = Ok (v, ea, eb) -> v <= 0.
  Lemma mergeLoop_end : forall fuel tmp rows rows', mergeLoop fuel nvp verts join tmp rows = Ok rows' -> exists b, findBest nvp verts rows' = Ok b /\ mbVal b <= 0.
  Proof.
    induction fuel as [|fuel IH]; intros tmp rows rows' E; [discriminate|]. cbn [mergeLoop] in E.
    apply bind_ok in E. destruct E as (b & Eb & E). rewrite Z.gtb_ltb in E. destruct (Z.ltb_spec 0 (mbVal b)).
    - apply bind_ok in E. destruct E as (pa & _ & E). apply bind_ok in E. destruct E as (pb & _ & E).
      apply bind_ok in E. destruct E as ([pa' tmp'] & _ & E). apply bind_ok in E. destruct E as (r1 & _ & E).
      apply bind_ok in E. destruct E as (l & _ & E). apply bind_ok in E. destruct E as (r2 & _ & E). eauto.
    - apply Ok_inj in E. subst. eauto.
  Qed.
  Lemma mergePolys_end : forall qs qs', mergePolys nvp verts join (map rowOf qs) = Ok (map rowOf qs') -> finished qs'.
  Proof.
    intros qs qs' E Hn j k qa qb v ea eb Hjk Ea Eb Ev. unfold mergePolys in E. rewrite Z.gtb_ltb in E. destruct (Z.ltb_spec 3 nvp); [|lia].
    apply mergeLoop_end in E. destruct E as (b & E & Lb).
    assert (forall i q, nth_error qs' i = Some q -> get (map rowOf qs') (Z.of_nat i) = Ok (rowOf q)) as G.
    { intros i q Hi. apply get_ok. split; [lia|]. rewrite Nat2Z.id, nth_error_map, Hi. reflexivity. }
    pose proof (findBest_max _ _ E (Z.of_nat j) (Z.of_nat k) _ _ v ea eb ltac:(lia) (G _ _ Ea) (G _ _ Eb) Ev). lia.
  Qed.

  Lemma merged_len : forall la lb ea eb, 2 <= zlen la -> 2 <= zlen lb -> zlen (merged la lb ea eb) = zlen la + zlen lb - 2.
  Proof. intros. unfold merged, zlen in *. rewrite app_length, !map_length, !zseq_length. lia. Qed.
  Lemma merged_in : forall la lb ea eb v, 0 < zlen la -> 0 < zlen lb -> In v (merged la lb ea eb) -> In v la \/ In v lb.
  Proof.
    intros la lb ea eb v La Lb H. unfold merged in H. apply in_app_iff in H.
    destruct H as [H|H]; apply in_map_iff in H; destruct H as (i & <- & _); [left|right]; apply cyc_in; lia.
  Qed.
  Lemma merged_good : forall la xa lb xb ea eb x, good (la, xa) -> good (lb, xb) -> fits la lb ea eb -> good (merged la lb ea eb, x).
  Proof.
    intros la xa lb xb ea eb x [La Va] [Lb Vb] (F & _). cbn [fst] in *. split; cbn [fst].
    - rewrite merged_len by lia. lia.
    - rewrite Forall_forall in *. intros v Hv. apply merged_in in Hv; [|lia|lia]. destruct Hv; auto.
  Qed.
  Lemma mstep_good : forall qs qs', mstep qs qs' -> Forall good qs -> Forall good qs' /\ length qs = S (length qs').
  Proof.
    intros qs qs' H G. destruct H as [qs la xa lb xb ea eb rest qs' P F P']. apply (Permutation_Forall P) in G.
    inversion G as [|? ? Ga G']; subst. inversion G' as [|? ? Gb G'']; subst. split.
    - apply (Permutation_Forall (Permutation_sym P')). constructor; [|exact G'']. eapply merged_good; eassumption.
    - apply Permutation_length in P, P'. cbn [length] in *. lia.
  Qed.
  Lemma mergePolyVerts_tmp : forall pa pb ea eb tmp pa' tmp', mergePolyVerts pa pb ea eb tmp nvp = Ok (pa', tmp') -> nvp <= zlen tmp'.
  Proof.
    intros pa pb ea eb tmp pa' tmp' H. unfold mergePolyVerts in H.
    repeat (apply bind_ok in H; destruct H as (? & ? & H)). apply Ok_inj in H. inversion H; subst; clear H.
    match goal with E : slice ?l _ _ = Ok _ |- _ => unfold slice in E; destruct (Z.leb_spec nvp (zlen l)); [assumption|] end.
    rewrite andb_false_r in *. discriminate.
  Qed.
  Lemma mergeLoop_ok : forall fuel qs tmp, Forall good qs -> (length qs < fuel)%nat -> nvp <= zlen tmp ->
    exists qs', mergeLoop fuel nvp verts join tmp (map rowOf qs) = Ok (map rowOf qs') /\ msteps qs qs'.
  Proof.
    induction fuel as [|fuel IH]; intros qs tmp G L T; [lia|]. cbn [mergeLoop].
    destruct (findBest_ok qs G) as (b & E & Hb). rewrite E. cbn [bind]. rewrite Z.gtb_ltb.
    destruct (Z.ltb_spec 0 (mbVal b)) as [Lv|Lv]; [|exists qs; split; [reflexivity|constructor]].
    destruct (Hb Lv) as (Lab & [la xa] & [lb xb] & Ea & Eb & F). cbn [fst] in F.
    rewrite !get_map, Ea, Eb. cbn [bind].
    assert (good (la, xa)) as Ga by (rewrite Forall_forall in G; apply G; apply get_ok in Ea; destruct Ea as [_ Ea]; eapply nth_error_In; eassumption).
    assert (good (lb, xb)) as Gb by (rewrite Forall_forall in G; apply G; apply get_ok in Eb; destruct Eb as [_ Eb]; eapply nth_error_In; eassumption).
    destruct (merge_ok (fst (rowOf (la, xa))) (fst (rowOf (lb, xb))) la lb (mbEa b) (mbEb b) tmp nvp) as (pa' & tmp' & m & Em & Pm & Hm);
      [apply (good_padded _ Ga)|apply (good_padded _ Gb)|destruct Ga as [Ga _]; cbn in Ga; lia|destruct Gb as [Gb _]; cbn in Gb; lia|apply F|exact T|].
    rewrite Em. cbn [bind]. change (m = merged la lb (mbEa b) (mbEb b)) in Hm. subst m.
    set (q := (merged la lb (mbEa b) (mbEb b), join xa xb) : poly).
    assert ((pa', join (snd (rowOf (la, xa))) (snd (rowOf (lb, xb)))) = rowOf q) as Eq.
    { destruct Pm as (_ & _ & ->). reflexivity. }
    rewrite Eq.
    destruct (pair_remove qs (mbPa b) (mbPb b) _ _ q Ea Eb Lab) as (l1 & w & l2 & rest & S1 & W & S2 & P1 & P2).
    assert (forall l i v l', set l i v = Ok l' -> set (map rowOf l) i (rowOf v) = Ok (map rowOf l')) as Sm.
    { intros l i v l' H. apply set_ok in H. destruct H as [R ->]. rewrite set_in_range by (unfold zlen in *; rewrite map_length; lia).
      f_equal. clear. revert l. induction (Z.to_nat i) as [|k IH]; intros [|y l]; cbn; f_equal; auto. }
    rewrite (Sm _ _ _ _ S1). cbn [bind].
    assert (zlen (map rowOf l1) = zlen l1) as -> by (unfold zlen; now rewrite map_length).
    rewrite get_map, W. cbn [bind]. rewrite (Sm _ _ _ _ S2). cbn [bind].
    assert (removelast (map rowOf l2) = map rowOf (removelast l2)) as ->.
    { clear. induction l2 as [|x [|y l] IH]; [reflexivity..|]. cbn [map removelast] in *. f_equal. exact IH. }
    assert (mstep qs (removelast l2)) as St by (econstructor; eassumption).
    destruct (mstep_good _ _ St G) as [G' L']. destruct (IH (removelast l2) tmp' G') as (qs' & E' & M').
    - lia.
    - eapply mergePolyVerts_tmp. exact Em.
    - exists qs'. split; [exact E'|]. econstructor; eassumption.
  Qed.
  Lemma mergePolys_ok : forall qs, 0 <= nvp -> Forall good qs ->
    exists qs', mergePolys nvp verts join (map rowOf qs) = Ok (map rowOf qs') /\ msteps qs qs'.
  Proof.
    intros qs Hn G. unfold mergePolys. destruct (nvp >? 3).
    - apply mergeLoop_ok; [exact G|rewrite map_length; lia|]. unfold zlen. rewrite repeat_length. lia.
    - exists qs. split; [reflexivity|constructor].
  Qed.

  (** * What merging keeps *)
  Lemma msteps_good : forall qs qs', msteps qs qs' -> Forall good qs -> Forall good qs' /\ (length qs' <= length qs)%nat /\ (qs <> [] -> qs' <> []).
  Proof.
    induction 1 as [qs|q1 q2 q3 S _ IH]; intros G; [auto|]. destruct (mstep_good _ _ S G) as [G2 L2]. destruct (IH G2) as (G3 & L3 & N).
    split; [exact G3|]. split; [lia|]. intros _. apply N. destruct S as [qs la xa lb xb ea eb rest qs' P F P'].
    intros ->. apply Permutation_nil in P'. discriminate.
  Qed.
  Lemma msteps_in : forall qs qs', msteps qs qs' -> Forall good qs ->
    forall q v, In q qs' -> In v (fst q) -> exists q0, In q0 qs /\ In v (fst q0).
  Proof.
    induction 1 as [qs|q1 q2 q3 S M IH]; intros G q v Hq Hv; [eauto|]. destruct (mstep_good _ _ S G) as [G2 _].
    destruct (IH G2 q v Hq Hv) as (q0 & H0 & H0v). destruct S as [qs la xa lb xb ea eb rest qs' P F P'].
    apply (Permutation_in _ P') in H0. destruct H0 as [<-|H0].
    - cbn [fst] in H0v. apply (Permutation_Forall P) in G. inversion G as [|? ? [Ga _] G']; subst. inversion G' as [|? ? [Gb _] G'']; subst.
      cbn [fst] in *. apply merged_in in H0v; [|lia|lia]. destruct H0v as [H|H].
      + exists (la, xa). split; [|exact H]. apply (Permutation_in _ (Permutation_sym P)). now left.
      + exists (lb, xb). split; [|exact H]. apply (Permutation_in _ (Permutation_sym P)). right. now left.
    - exists q0. split; [|exact H0v]. apply (Permutation_in _ (Permutation_sym P)). right. now right.
  Qed.

  Definition small2 (p : Z * Z) : Prop := 0 <= fst p <= 32767 /\ 0 <= snd p <= 32767.
  Definition allBorders (qs : list poly) : list (Z * Z) := flat_map (fun q => borders (fst q)) qs.
  Lemma NoDup_app_disj : forall {A} (a b : list A) x, NoDup (a ++ b) -> In x a -> In x b -> False.
  Proof.
    induction a as [|y a IH]; intros b x N Ha Hb; [destruct Ha|]. cbn in N. inversion N; subst. destruct Ha as [->|Ha].
    - apply H1. apply in_or_app. auto.
    - eauto.
  Qed.
  (** If no directed edge occurs twice, merges happen along edges in opposite directions. *)
  Lemma mstep_opposite : forall qs la xa lb xb ea eb rest,
    Permutation qs ((la, xa) :: (lb, xb) :: rest) -> Forall good qs -> NoDup (allBorders qs) -> fits la lb ea eb -> opposite la lb ea eb.
  Proof.
    intros qs la xa lb xb ea eb rest P G N F. destruct F as (_ & Ha & Hb & [[S1 S2]|O] & _); [|exact O]. exfalso.
    assert (Permutation (allBorders qs) (borders la ++ borders lb ++ allBorders rest)) as PB.
    { eapply perm_trans; [apply (Permutation_flat_map (fun q : poly => borders (fst q)) P)|]. cbn [flat_map fst]. apply Permutation_refl. }
    apply (Permutation_NoDup PB) in N. apply (NoDup_app_disj _ _ (cyc la ea, cyc la (ea + 1)) N).
    - apply borders_at. lia.
    - apply in_or_app. left. rewrite S1, S2. apply borders_at. lia.
  Qed.
  Lemma mstep_keeps : forall qs qs', mstep qs qs' -> Forall good qs -> NoDup (allBorders qs) ->
    NoDup (allBorders qs') /\ incl (allBorders qs') (allBorders qs) /\
    (forall v, (exists q, In q qs' /\ In v (fst q)) <-> (exists q, In q qs /\ In v (fst q))) /\
    (forall pos : Z -> Z * Z, sum (map (fun q => area (map pos (fst q))) qs') = sum (map (fun q => area (map pos (fst q))) qs)) /\
    ((forall q v, In q qs -> In v (fst q) -> small2 (at_xz verts v)) -> Forall (fun q => turns_left (at_xz verts) (fst q)) qs -> Forall (fun q => turns_left (at_xz verts) (fst q)) qs').
  Proof.
    intros qs qs' H G N. destruct H as [qs la xa lb xb ea eb rest qs' P F P'].
    pose proof (mstep_opposite _ _ _ _ _ _ _ _ P G N F) as O.
    apply (Permutation_Forall P) in G. inversion G as [|? ? [Ga _] G']; subst. inversion G' as [|? ? [Gb _] G'']; subst. cbn [fst] in Ga, Gb.
    assert (Permutation (allBorders qs) ((cyc la ea, cyc la (ea + 1)) :: (cyc la (ea + 1), cyc la ea) :: allBorders qs')) as PB.
    { eapply perm_trans; [apply (Permutation_flat_map (fun q : poly => borders (fst q)) P)|]. cbn [flat_map fst]. rewrite app_assoc.
      eapply perm_trans; [apply Permutation_app_tail, (merged_borders la lb ea eb); [lia|lia|exact O]|]. cbn [app]. do 2 apply perm_skip.
      apply Permutation_sym. eapply perm_trans; [apply (Permutation_flat_map (fun q : poly => borders (fst q)) P')|]. cbn [flat_map fst]. apply Permutation_refl. }
    split; [apply (Permutation_NoDup PB) in N; inversion N as [|? ? ? N']; subst; inversion N'; subst; assumption|].
    split; [intros e He; apply (Permutation_in _ (Permutation_sym PB)); right; now right|].
    destruct (merged_incl la lb ea eb ltac:(lia) ltac:(lia) O) as [I1 I2].
    split; [|split].
    - intros v. split; intros (q & Hq & Hv).
      + apply (Permutation_in _ P') in Hq. destruct Hq as [<-|Hq].
        * cbn [fst] in Hv. apply I1, in_app_iff in Hv. destruct Hv as [Hv|Hv].
          -- exists (la, xa). split; [|exact Hv]. apply (Permutation_in _ (Permutation_sym P)). now left.
          -- exists (lb, xb). split; [|exact Hv]. apply (Permutation_in _ (Permutation_sym P)). right. now left.
        * exists q. split; [|exact Hv]. apply (Permutation_in _ (Permutation_sym P)). right. now right.
      + apply (Permutation_in _ P) in Hq. destruct Hq as [<-|[<-|Hq]].
        * exists (merged la lb ea eb, join xa xb). split; [apply (Permutation_in _ (Permutation_sym P')); now left|]. apply I2, in_or_app. now left.
        * exists (merged la lb ea eb, join xa xb). split; [apply (Permutation_in _ (Permutation_sym P')); now left|]. apply I2, in_or_app. now right.
        * exists q. split; [|exact Hv]. apply (Permutation_in _ (Permutation_sym P')). now right.
    - intros pos.
      assert (forall a b : list Z, Permutation a b -> sum a = sum b) as PS.
      { induction 1; cbn [sum fold_right] in *; unfold sum in *; lia. }
      rewrite (PS _ _ (Permutation_map _ P)), (PS _ _ (Permutation_map _ P')). cbn [map sum fold_right fst].
      rewrite (merged_area la lb ea eb) by (lia || exact O). lia.
    - intros SV T. apply (Permutation_Forall P) in T. inversion T as [|? ? Ta T']; subst. inversion T' as [|? ? Tb T'']; subst.
      apply (Permutation_Forall (Permutation_sym P')). constructor; [|exact T'']. cbn [fst] in *.
      destruct F as (_ & _ & _ & _ & U1 & U2). 
      assert (forall i, small2 (at_xz verts (cyc la i))) as SA
        by (intros i; eapply SV; [apply (Permutation_in _ (Permutation_sym P)); now left|apply cyc_in; cbn [fst]; lia]).
      assert (forall i, small2 (at_xz verts (cyc lb i))) as SB
        by (intros i; eapply SV; [apply (Permutation_in _ (Permutation_sym P)); right; now left|apply cyc_in; cbn [fst]; lia]).
      apply uleft_exact in U1; [|apply SA || apply SB..]. apply uleft_exact in U2; [|apply SA || apply SB..].
      apply merged_left; try lia; assumption.
  Qed.
  Lemma msteps_keeps : forall qs qs', msteps qs qs' -> Forall good qs -> NoDup (allBorders qs) ->
    NoDup (allBorders qs') /\ incl (allBorders qs') (allBorders qs) /\
    (forall v, (exists q, In q qs' /\ In v (fst q)) <-> (exists q, In q qs /\ In v (fst q))) /\
    (forall pos : Z -> Z * Z, sum (map (fun q => area (map pos (fst q))) qs') = sum (map (fun q => area (map pos (fst q))) qs)) /\
    ((forall q v, In q qs -> In v (fst q) -> small2 (at_xz verts v)) -> Forall (fun q => turns_left (at_xz verts) (fst q)) qs -> Forall (fun q => turns_left (at_xz verts) (fst q)) qs').
  Proof.
    induction 1 as [qs|q1 q2 q3 S M IH]; intros G N.
    - split; [exact N|]. split; [apply incl_refl|]. split; [reflexivity|]. auto.
    - destruct (mstep_keeps _ _ S G N) as (N2 & I2 & V2 & A2 & T2). destruct (mstep_good _ _ S G) as [G2 _].
      destruct (IH G2 N2) as (N3 & I3 & V3 & A3 & T3). split; [exact N3|]. split; [eapply incl_tran; eassumption|].
      split; [intros v; rewrite V3; apply V2|]. split; [intros pos; rewrite A3; apply A2|].
      intros SV T. apply T3; [|auto]. intros q v Hq Hv. destruct (proj1 (V2 v)) as (q0 & H0 & H1); [eauto|]. eauto.
  Qed.
End Loop.
