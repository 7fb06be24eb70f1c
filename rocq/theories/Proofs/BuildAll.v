(** BuildPolyMesh with vertices marked for removal. *)
From Coq Require Import ZArith List Bool Lia Permutation.
From Verif.Base Require Import Res GoNum Grid.
From Verif.Model Require Import Heightfield Contour Triangulate PolyMeshOps BuildMesh.
From Verif.Spec Require Import AreaSpec MeshOpsSpec BuildSpec.
From Verif.Proofs Require Import TriangulateProofs WeldProofs MergeProofs AdjacencyProofs EdgeProofs MergeLoop BuildProofs PortalProofs BuildTop RemoveProofs RemoveVertex.
Import ListNotations.
Open Scope Z_scope.

Lemma nth_error_upd_eq : forall {A} (l : list A) i x k, nth_error (upd l i x) k = if (k =? i)%nat then option_map (fun _ => x) (nth_error l k) else nth_error l k.
Proof.
  induction l as [|y l IH]; intros [|i] x [|k]; cbn; try reflexivity.
  - destruct (k =? i)%nat; reflexivity.
  - apply IH.
Qed.
Lemma setAll_nth : forall is fl k, nth_error (setAll is fl) k = if existsb (Nat.eqb k) is then option_map (fun _ => 1) (nth_error fl k) else nth_error fl k.
Proof.
  induction is as [|i is IH]; intros fl k; [reflexivity|]. change (setAll (i :: is) fl) with (setAll is (upd fl i 1)). rewrite IH, nth_error_upd_eq. cbn [existsb].
  destruct (k =? i)%nat, (existsb (Nat.eqb k) is), (nth_error fl k); reflexivity.
Qed.
Lemma marks_flags : forall cs nv cap, (nv <= cap)%nat -> exists rest, setAll (marked_ids [] cs) (repeat 0 cap) = map flag (marks cs nv) ++ rest.
Proof.
  intros cs nv cap H. exists (map flag (map (fun k => existsb (Nat.eqb k) (marked_ids [] cs)) (seq nv (cap - nv)))).
  unfold marks. rewrite <- map_app, <- map_app. change (seq nv (cap - nv)) with (seq (0 + nv) (cap - nv)). rewrite <- (seq_app nv (cap - nv) 0). replace (nv + (cap - nv))%nat with cap by lia. rewrite map_map.
  apply list_eq_nth. intros k. rewrite setAll_nth, nth_error_map. destruct (Nat.lt_ge_cases k cap) as [L|L].
  - rewrite (nth_error_repeat 0 L). rewrite (nth_error_nth' (seq 0 cap) 0%nat) by (rewrite seq_length; lia). rewrite seq_nth by lia. cbn [Nat.add option_map flag].
    destruct (existsb (Nat.eqb k) (marked_ids [] cs)); reflexivity.
  - rewrite !(proj2 (nth_error_None _ _)); [destruct (existsb _ _); reflexivity|rewrite seq_length; lia|rewrite repeat_length; lia].
Qed.
Lemma marks_length : forall cs n, length (marks cs n) = n.
Proof. intros. unfold marks. now rewrite map_length, seq_length. Qed.
Lemma built_typed : forall nvp V cs Q V', built nvp V cs Q V' -> Forall typed cs -> Forall (fun q => okInfo (snd q)) Q.
Proof.
  induction 1 as [V|V c cs Q V' Hn Hb IH|V c cs ids V1 G Q V' Hn Hw Hf Hb IH]; intros HT; [constructor| |]; inversion HT as [|? ? Tc HT']; subst; auto.
  apply Forall_app. split; [|auto]. apply Forall_forall. intros q Hq. apply in_map_iff in Hq. destruct Hq as (l & <- & _). exact Tc.
Qed.
Lemma holds_pos : forall V verts v, firstn (3 * length V) verts = flatten V -> 0 <= v < zlen V -> at_xz verts v = pos_in V v.
Proof.
  intros V verts v E Hv. rewrite <- (firstn_skipn (3 * length V) verts), E. generalize (skipn (3 * length V) verts) as rest. intros rest.
  unfold at_xz, pos_in. destruct (nth (Z.to_nat v) V (0, 0, 0)) as [[x y] z] eqn:N.
  assert (nth_error V (Z.to_nat v) = Some (x, y, z)) as N' by (rewrite <- N; apply nth_error_nth'; unfold zlen in *; lia).
  destruct (flatten_nth V rest _ _ _ _ N') as (A & _ & C). rewrite Z2Nat.id in A, C by lia.
  apply get_ok in A, C. destruct A as [_ A], C as [_ C]. rewrite (nth_error_nth _ _ 0 A), (nth_error_nth _ _ 0 C). reflexivity.
Qed.

Lemma build_all : forall nvp borderSize w h cs, 3 <= nvp -> total cs * nvp <= 65535 -> Forall typed cs ->
  exists V Q V' F' Q' j, built nvp [] cs Q V /\ trimmed nvp (tris cs) 0 V (marks cs (length V)) Q V' F' Q' j /\ Forall (proper nvp (Z.of_nat (length V'))) Q' /\ Z.of_nat (length Q') <= total cs /\
    ((exists m, BuildPolyMesh nvp borderSize w h cs = Ok (Some m) /\ holdsMesh (total cs) nvp borderSize w h V' Q' m /\ j = length V') \/
     (BuildPolyMesh nvp borderSize w h cs = Panic /\ nth_error F' j = Some true /\ removable (Z.of_nat j) (map fst Q') /\
      exists R K hole, torn (Z.of_nat j) Q' R K hole /\ length hole = 2%nat)).
Proof.
  intros nvp borderSize w h cs Hn HT HY. pose proof (total_nonneg cs) as T0. pose proof (tris_bound cs) as T1.
  destruct (build_contours nvp cs Hn HT) as (mc & st & V & Q & Ec & E & HB & B & L1 & L2 & U).
  unfold BuildPolyMesh. rewrite Ec. rewrite Z.geb_leb. destruct (Z.leb_spec 65534 (total cs)); [nia|]. rewrite E. cbn [bind]. cbn [pmNVerts pmPolys pmVerts].
  pose proof (bi_weld _ _ _ _ _ _ HB) as HI. pose proof (wi_nv _ _ _ HI) as Env. destruct (wi_verts _ _ _ HI) as (rest & Ev & Lv).
  assert (holdsPM nvp (total cs) V Q (mkPMesh (wVerts (bsWeld st)) (wNv (bsWeld st)) (bsPolys st))) as HH.
  { unfold holdsPM. cbn [pmNVerts pmVerts pmPolys]. split; [exact Env|]. split; [lia|]. split; [|exact (bi_polys _ _ _ _ _ _ HB)].
    rewrite Ev, firstn_app, flatten_length, Nat.sub_diag. cbn [firstn]. rewrite app_nil_r. apply firstn_all2. rewrite flatten_length. lia. }
  assert (Forall (proper nvp (zlen V)) Q) as HP.
  { pose proof (built_typed _ _ _ _ _ B HY) as HO. pose proof (bi_good _ _ _ _ _ _ HB) as HG. rewrite Forall_forall in *. intros q Hq.
    destruct (HG q Hq) as [G1 G2]. split; [exact G1|]. split; [exact G2|]. exact (HO q Hq). }
  destruct (marks_flags cs (length V) (Z.to_nat (total cs)) ltac:(unfold zlen in *; lia)) as (rf & EF). rewrite U, EF.
  set (m := mkPMesh (wVerts (bsWeld st)) (wNv (bsWeld st)) (bsPolys st)) in *.
  destruct (removeFlagged_ok nvp (tris cs) (total cs) (S (Z.to_nat (2 * wNv (bsWeld st)))) 0 V (marks cs (length V)) Q m rf Hn) as (V' & F' & Q' & j & T & LF & LV & LQ & PP & C).
  - nia.
  - exact L1.
  - nia.
  - exact HP.
  - exact HH.
  - apply marks_length.
  - lia.
  - rewrite Env. unfold zlen. lia.
  - exists V, Q, V', F', Q', j. split; [exact B|]. split; [exact T|]. split; [exact PP|]. split; [unfold zlen in *; lia|]. destruct C as [(m' & EM & HM & Hj)|(EM & C)].
    2:{ right. change 0 with (Z.of_nat 0) at 1. rewrite EM. split; [reflexivity|exact C]. }
    left. change 0 with (Z.of_nat 0) at 1. rewrite EM. cbn [bind]. clear EM.
    destruct m' as [mv mn mp]. destruct HM as (Hnv & HLv & HFv & HPo). cbn [pmNVerts pmVerts pmPolys] in *.
    change (mp = map (rowOf nvp) Q') in HPo. subst mp mn.
    destruct (finish_ok nvp borderSize w h Q' mv (Z.of_nat (length V')) V' Hn) as (t & Et & HC).
    + nia.
    + unfold zlen in *. nia.
    + unfold zlen. apply (f_equal (@length Z)) in HFv. rewrite firstn_length, flatten_length in HFv. lia.
    + intros v Hv. apply holds_pos; [exact HFv|]. exact Hv.
    + eapply Forall_impl; [|exact PP]. intros q (A & A' & _). split; assumption.
    + apply bind_ok in Et. destruct Et as (t0 & E1 & E2). rewrite E1. cbn [bind]. rewrite E2. cbn [bind].
      eexists. split; [reflexivity|]. split; [|exact Hj]. unfold holdsMesh. cbn [mNVerts mVerts mNPolys mRegs mAreas mPolys].
      split; [reflexivity|]. split; [exact HLv|]. split; [exact HFv|]. split; [unfold zlen; now rewrite map_length|]. rewrite !map_map. split; [reflexivity|]. split; [reflexivity|]. exact HC.
Qed.

(** * What stays *)
Lemma without_nth : forall {A} i (l : list A) k, (i < length l)%nat ->
  nth_error (without (Z.of_nat i) l) k = if (k <? i)%nat then nth_error l k else nth_error l (S k).
Proof.
  intros A i l k Hi. unfold without. rewrite Nat2Z.id. destruct (Nat.ltb_spec k i) as [L|L].
  - rewrite nth_error_app1 by (rewrite firstn_length; lia). clear -L. revert l k L. induction i as [|i IH]; intros l k L; [lia|].
    destruct l, k; cbn; try reflexivity. apply IH. lia.
  - rewrite nth_error_app2 by (rewrite firstn_length; lia). rewrite firstn_length, Nat.min_l by lia.
    rewrite nth_error_skipn'. f_equal. lia.
Qed.
Lemma without_combine : forall {A B} i (l : list A) (l' : list B), length l = length l' -> combine (without i l) (without i l') = without i (combine l l').
Proof.
  intros A B i l l' H. unfold without. generalize (Z.to_nat i) as n. intros n. revert l l' H. induction n as [|n IH]; intros [|x l] [|y l'] H; try discriminate; try reflexivity.
  cbn in H |- *. f_equal. apply IH. lia.
Qed.
Lemma without_filter : forall {A} (f : A -> bool) i (l : list A), (forall x, nth_error l i = Some x -> f x = false) -> filter f (without (Z.of_nat i) l) = filter f l.
Proof.
  intros A f i l. unfold without. rewrite Nat2Z.id. revert l. induction i as [|i IH]; intros [|x l] H; try reflexivity.
  - cbn. rewrite (H x eq_refl). reflexivity.
  - cbn. specialize (IH l H). cbn in IH. rewrite IH. reflexivity.
Qed.
Lemma without_length : forall {A B} i (l : list A) (l' : list B), length l = length l' -> length (without i l) = length (without i l').
Proof. intros A B i l l' H. unfold without. rewrite !app_length, !firstn_length, !skipn_length. lia. Qed.
Lemma combine_nth_error : forall {A B} i (l : list A) (l' : list B) x, nth_error (combine l l') i = Some x -> nth_error l' i = Some (snd x).
Proof.
  induction i as [|i IH]; intros [|a l] [|b l'] x H; try discriminate; cbn in *.
  - injection H as <-. reflexivity.
  - eapply IH; eassumption.
Qed.
Lemma trimmed_keeps : forall nvp maxT i V F Q V' F' Q' j, trimmed nvp maxT i V F Q V' F' Q' j -> length V = length F ->
  length V' = length F' /\ filter (fun p => negb (snd p)) (combine V' F') = filter (fun p => negb (snd p)) (combine V F) /\ incl V' V.
Proof.
  induction 1 as [i V F Q|i V F Q V' F' Q' j Hk Ht IH|i V F Q R K hole Q1 V' F' Q' j Hf Hr Htn Hp Ht IH]; intros L.
  - split; [exact L|]. split; [reflexivity|apply incl_refl].
  - auto.
  - destruct IH as (L' & E & I); [now apply without_length|]. split; [exact L'|]. split.
    + rewrite E, without_combine by exact L. apply without_filter. intros x Hx. apply combine_nth_error in Hx. rewrite Hf in Hx. injection Hx as <-. reflexivity.
    + intros v Hv. apply I in Hv. unfold without in Hv. apply in_app_iff in Hv.
      rewrite <- (firstn_skipn (Z.to_nat (Z.of_nat i)) V). apply in_app_iff. destruct Hv as [Hv|Hv]; [now left|right].
      clear - Hv. revert V Hv. generalize (Z.to_nat (Z.of_nat i)) as n. induction n as [|n IHn]; intros [|x V] Hv; cbn in *; try tauto. now apply IHn.
Qed.
Lemma trimmed_origin : forall nvp maxT i V F Q V' F' Q' j, trimmed nvp maxT i V F Q V' F' Q' j ->
  incl (map (fun q => snd (snd q)) Q') (map (fun q => snd (snd q)) Q) /\
  incl (map (fun q => fst (snd q)) Q') (0 :: map (fun q => fst (snd q)) Q).
Proof.
  induction 1 as [i V F Q|i V F Q V' F' Q' j Hk Ht IH|i V F Q R K hole Q1 V' F' Q' j Hf Hr Htn Hp Ht IH].
  - split; [apply incl_refl|apply incl_tl, incl_refl].
  - exact IH.
  - destruct IH as [I1 I2]. destruct Htn as (PQ & _). destruct Hp as (N & -> & HN & HFl & HI & _).
    assert (incl R Q /\ incl K Q) as [RQ KQ].
    { split; intros q Hq; apply (Permutation_in q (Permutation_sym PQ)), in_app_iff; auto. }
    assert (forall q, In q (map (renumbered (Z.of_nat i)) K ++ firstn (Z.to_nat (maxT - Z.of_nat (length K))) N) ->
      In (snd (snd q)) (map (fun q => snd (snd q)) Q) /\ (In (fst (snd q)) (0 :: map (fun q => fst (snd q)) Q))) as A.
    { intros q Hq. apply in_app_iff in Hq. destruct Hq as [Hq|Hq].
      - apply in_map_iff in Hq. destruct Hq as (q0 & <- & Hq). cbn [renumbered snd]. split; [|right]; apply in_map_iff; exists q0; auto.
      - assert (In q N) as Hq' by (rewrite <- (firstn_skipn (Z.to_nat (maxT - Z.of_nat (length K))) N); apply in_app_iff; now left); clear Hq; rename Hq' into Hq.
        rewrite Forall_forall in HI. destruct (HI q Hq) as [B1 B2]. split.
        + apply in_map_iff in B1. destruct B1 as (r & E & Hr1). apply in_map_iff. exists r. auto.
        + destruct B2 as [B2|B2]; [left; now rewrite B2|right].
          destruct hole as [|h0 hole]; [rewrite (HN eq_refl) in Hq; destruct Hq|]. destruct (HFl ltac:(discriminate)) as (ts & left & _ & _ & _ & HL & _).
          rewrite Forall_forall in HL. destruct (HL (fst q)) as [L3 _]; [now apply in_map|]. destruct (fst q) as [|v0 l0]; [cbn in L3; lia|].
          destruct (B2 v0 (or_introl eq_refl)) as (ar & r & u1 & Hr1 & E & _). apply in_map_iff. exists r. split; [now rewrite E|auto]. }
    split; intros x Hx.
    + apply I1 in Hx. apply in_map_iff in Hx. destruct Hx as (q & <- & Hq). exact (proj1 (A q Hq)).
    + apply I2 in Hx. destruct Hx as [<-|Hx]; [now left|]. apply in_map_iff in Hx. destruct Hx as (q & <- & Hq). exact (proj2 (A q Hq)).
Qed.
