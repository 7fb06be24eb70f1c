(** Theorems about recast/chunkytrimesh.go (C55). *)
From Coq Require Import ZArith List Bool Lia Permutation Sorted QArith Lqa.
From Verif.Base Require Import Res GoNum F32 Num Grid.
From Verif.Model Require Import ChunkyMesh.
From Verif.Spec Require Import ChunkySpec.
From Verif.Proofs Require Import ChunkyProofs ChunkyBuild ChunkyQuery.
Import ListNotations.
Open Scope Z_scope.

Definition no_nan (verts : list f32) : Prop := forall x, In x verts -> nonnan x.

(** createChunkyTriMesh succeeds; the array of nodes is large enough; the triangles are
    rearranged; the nodes form a tree of smallest boxes over them whose leaves have between 1 and
    trisPerChunk triangles; MaxTrisPerChunk is the size of the largest leaf. *)
Theorem C55_build : forall sort, (forall less l, Permutation (sort less l) l) ->
  forall verts tris n t, soup verts tris n t -> no_nan verts ->
  exists cm, createChunkyTriMesh numF sort verts tris n t = Ok (Some cm) /\
    cmNtris cm = n /\ zlen (cmTris cm) = 3 * n /\
    Permutation (triples (Z.to_nat n) (cmTris cm)) (triples (Z.to_nat n) tris) /\
    ChAt numF t (cmNodes cm) 0 0 (map (corners verts f0) (triples (Z.to_nat n) (cmTris cm))) (cmNnodes cm) /\
    cmNnodes cm <= zlen (cmNodes cm) /\
    (forall j nd, 0 <= j < cmNnodes cm -> get (cmNodes cm) j = Ok nd -> 0 <= nI nd -> nN nd <= cmMaxTris cm) /\
    (exists j nd, 0 <= j < cmNnodes cm /\ get (cmNodes cm) j = Ok nd /\ 0 <= nI nd /\ nN nd = cmMaxTris cm).
Proof.
  intros sort Hs verts tris n t (S1 & S2 & S3 & S4 & S5 & S6 & S7) NN.
  destruct (create_spec numF nonnan ordered_F verts tris n t S1 S2 S3 S4 S5 S6 NN S7 sort Hs)
    as (cm & E & X1 & X2 & X3 & X4 & X5 & X6 & X7).
  exists cm. change (nZ numF 0) with f0 in X4. repeat (split; [assumption|]). split; [lia|]. split; assumption.
Qed.

(** Every triangle number lies in the range of exactly one leaf. *)
Theorem C55_one_leaf : forall sort, (forall less l, Permutation (sort less l) l) ->
  forall verts tris n t, soup verts tris n t -> no_nan verts ->
  forall cm, createChunkyTriMesh numF sort verts tris n t = Ok (Some cm) ->
  forall j, 0 <= j < n -> exists k,
    (0 <= k < cmNnodes cm /\ exists nd, get (cmNodes cm) k = Ok nd /\ 0 <= nI nd /\ nI nd <= j < nI nd + nN nd) /\
    forall k', 0 <= k' < cmNnodes cm -> (exists nd, get (cmNodes cm) k' = Ok nd /\ 0 <= nI nd /\ nI nd <= j < nI nd + nN nd) -> k' = k.
Proof.
  intros sort Hs verts tris n t S NN cm E j Hj.
  destruct (C55_build sort Hs verts tris n t S NN) as (cm' & E' & _ & _ & Pm & Ch & _).
  rewrite E in E'. apply Ok_inj in E'. injection E' as <-.
  destruct (ChAt_one numF _ _ _ _ _ _ Ch j) as (q & Q & U).
  - destruct S as (S1 & _ & _ & _ & S5 & _). unfold zlen. rewrite map_length, (Permutation_length Pm), triples_tri, map_length, zseq_length; unfold zlen in S5; lia.
  - exists q. split; [exact Q|]. intros k' K L. exact (U k' K L).
Qed.

Lemma zseq_sorted : forall n, StronglySorted Z.lt (zseq n).
Proof.
  induction n as [|n IH]; [constructor|]. rewrite zseq_S.
  assert (K : forall l x, StronglySorted Z.lt l -> (forall y, In y l -> y < x) -> StronglySorted Z.lt (l ++ [x])).
  { induction l as [|a l IHl]; intros x Sl Hx; cbn [app]; [repeat constructor|]. inversion Sl; subst. constructor.
    - apply IHl; [assumption|]. intros. apply Hx. now right.
    - apply Forall_app. split; [assumption|]. constructor; [|constructor]. apply Hx. now left. }
  apply K; [exact IH|]. intros y Hy. apply in_zseq in Hy. lia.
Qed.
Lemma filter_sorted : forall f l, StronglySorted Z.lt l -> StronglySorted Z.lt (filter f l).
Proof.
  induction l as [|a l IH]; intros H; [constructor|]. inversion H; subst. cbn [filter]. destruct (f a); [|now apply IH].
  constructor; [now apply IH|]. apply Forall_forall. intros x Hx. apply filter_In in Hx as [Hx _]. rewrite Forall_forall in H3. now apply H3.
Qed.
Lemma corners_good : forall {T} (good : T -> Prop) verts d tl, (forall x, In x verts -> good x) -> good d -> gpts good (concat (map (corners verts d) tl)).
Proof.
  intros T good verts d tl Hv Hd p I. apply in_concat in I as (c & Ic & Ip). apply in_map_iff in Ic as (t & <- & _).
  unfold corners in Ip. apply in_map_iff in Ip as (v & <- & _). cbn [fst snd].
  split; (destruct (nth_in_or_default (Z.to_nat (3 * v)) verts d) as [X|X]); (destruct (nth_in_or_default (Z.to_nat (3 * v + 2)) verts d) as [Y|Y]); rewrite ?X, ?Y; auto.
Qed.

(** The rectangle query returns, in order, the leaves whose boxes overlap the rectangle, as many
    as fit. *)
Theorem C55_rect_query : forall sort, (forall less l, Permutation (sort less l) l) ->
  forall verts tris n t, soup verts tris n t -> no_nan verts ->
  forall cm, createChunkyTriMesh numF sort verts tris n t = Ok (Some cm) ->
  forall rmin rmax ids, exists L, StronglySorted Z.lt L /\
    (forall k, In k L <-> 0 <= k < cmNnodes cm /\ leaf_with (overlap2 numF rmin rmax) (cmNodes cm) k) /\
    ChunksOverlappingRect numF cm rmin rmax ids = Ok (found L (zlen ids) ids).
Proof.
  intros sort Hs verts tris n t (S1 & S2 & S3 & S4 & S5 & S6 & S7) NN cm E rmin rmax ids.
  destruct (create_spec numF nonnan ordered_F verts tris n t S1 S2 S3 S4 S5 S6 NN S7 sort Hs)
    as (cm' & E' & _ & _ & _ & Ch & Nb & _).
  rewrite E in E'. apply Ok_inj in E'. injection E' as <-.
  exists (filter (hit (checkOverlapRect numF rmin rmax) (cmNodes cm)) (zseq (Z.to_nat (cmNnodes cm)))).
  split; [apply filter_sorted, zseq_sorted|]. split.
  - intros k. rewrite filter_In, in_zseq. unfold hit, leaf_with.
    assert (C : forall mn mx, checkOverlapRect numF rmin rmax mn mx = true <-> overlap2 numF rmin rmax mn mx).
    { intros mn mx. unfold checkOverlapRect, overlap2, nle'.
      destruct (nlt numF (fst mx) (fst rmin)), (nlt numF (fst rmax) (fst mn)), (nlt numF (snd mx) (snd rmin)), (nlt numF (snd rmax) (snd mn)); cbn; intuition congruence. }
    split.
    + intros [Hk H]. split; [lia|]. destruct (get (cmNodes cm) k) as [nd| | |]; try discriminate. exists nd.
      apply andb_true_iff in H as [H1 H2]. apply Z.leb_le in H1. split; [reflexivity|]. split; [exact H1|]. now apply C.
    + intros [Hk (nd & G & L & H)]. split; [lia|]. rewrite G. rewrite (proj2 (Z.leb_le _ _) L). now apply C.
  - unfold ChunksOverlappingRect.
    rewrite (walk_spec numF nonnan _ (rect_grows numF nonnan ordered_F rmin rmax) t (cmNodes cm) (zlen ids) (cmNnodes cm) _ ids Ch);
      [reflexivity|now apply corners_good|exact Nb|pose proof (zlen_nonneg ids); lia].
Qed.

(** So a triangle with a corner in the rectangle lies in one of the leaves found, if ids is
    large enough. *)
Theorem C55_rect_finds : forall sort, (forall less l, Permutation (sort less l) l) ->
  forall verts tris n t, soup verts tris n t -> no_nan verts ->
  forall cm, createChunkyTriMesh numF sort verts tris n t = Ok (Some cm) ->
  forall rmin rmax ids cnt ids', ChunksOverlappingRect numF cm rmin rmax ids = Ok (cnt, ids') -> cmNnodes cm <= zlen ids ->
  forall j c, 0 <= j < n -> In c (corners verts f0 (nth (Z.to_nat j) (triples (Z.to_nat n) (cmTris cm)) [])) ->
  fle (fst rmin) (fst c) = true -> fle (fst c) (fst rmax) = true -> fle (snd rmin) (snd c) = true -> fle (snd c) (snd rmax) = true ->
  exists k nd, In k (firstn (Z.to_nat cnt) ids') /\ get (cmNodes cm) k = Ok nd /\ 0 <= nI nd /\ nI nd <= j < nI nd + nN nd.
Proof.
  intros sort Hs verts tris n t S NN cm E rmin rmax ids cnt ids' Q Hr j c Hj Ic R1 R2 R3 R4.
  destruct (C55_build sort Hs verts tris n t S NN) as (cm' & E' & _ & _ & Pm & Ch & _).
  rewrite E in E'. apply Ok_inj in E'. injection E' as <-.
  destruct (C55_rect_query sort Hs verts tris n t S NN cm E rmin rmax ids) as (L & SL & IL & Q'). rewrite Q in Q'.
  apply Ok_inj in Q'. unfold found in Q'.
  assert (LT : zlen (map (corners verts f0) (triples (Z.to_nat n) (cmTris cm))) = n).
  { destruct S as (S1 & _ & _ & _ & S5 & _). unfold zlen. rewrite map_length, (Permutation_length Pm), triples_tri, map_length, zseq_length; unfold zlen in S5; lia. }
  assert (Lb : (length L <= Z.to_nat (cmNnodes cm))%nat).
  { rewrite <- (zseq_length (Z.to_nat (cmNnodes cm))). apply NoDup_incl_length.
    - clear - SL. induction SL as [|a l SS IH F]; constructor; [|exact IH]. intros X. rewrite Forall_forall in F. specialize (F a X). lia.
    - intros x Hx. apply IL in Hx as [Hx _]. apply in_zseq. lia. }
  rewrite firstn_all2 in Q' by lia. injection Q' as -> ->.
  destruct (C55_one_leaf sort Hs verts tris n t S NN cm E j Hj) as (k & (K & nd & G & L0 & J) & _).
  exists k, nd. split; [|auto]. unfold zlen. rewrite Nat2Z.id, firstn_app, Nat.sub_diag, firstn_all. cbn [firstn]. rewrite app_nil_r.
  apply IL. split; [exact K|]. exists nd. split; [exact G|]. split; [exact L0|].
  assert (Ic' : In c (nth (Z.to_nat (j - 0)) (map (corners verts f0) (triples (Z.to_nat n) (cmTris cm))) [])).
  { rewrite Z.sub_0_r. rewrite (nth_indep _ [] (corners verts f0 [])) by (unfold zlen in LT; lia). rewrite map_nth. exact Ic. }
  destruct (ChAt_corner numF _ _ _ _ _ _ Ch k nd j c K G L0 J Ic') as (pts & B & Ip & Inc).
  assert (Gp : gpts nonnan pts).
  { intros p Hp. apply (corners_good nonnan verts f0 (triples (Z.to_nat n) (cmTris cm)) NN f0_nonnan). now apply Inc. }
  destruct (bbox_good numF nonnan _ _ _ Gp B) as (g1 & g2 & g3 & g4). destruct (Gp c Ip) as [c1 c2]. destruct B as [B _].
  destruct (B c Ip) as (X1 & X2 & X3 & X4). unfold nle' in *. cbn [nlt numF] in *.
  assert (NL : forall a b, fle a b = true -> flt b a = false).
  { intros a b H. destruct (fle_nonnan _ _ H). rewrite flt_not_fle by assumption. now rewrite H. }
  unfold overlap2, nle'. cbn [nlt numF].
  repeat split; apply NL; (eapply fle_trans; [eassumption|apply not_flt_fle; assumption]) || (eapply fle_trans; [apply not_flt_fle; [| |eassumption]; assumption|eassumption]).
Qed.

(** The segment query in exact arithmetic: the leaves whose boxes the segment meets. An extent of
    the segment below 1e-6 along an axis counts as none. *)
Definition meets (p q mn mx : Q * Q) : Prop :=
  exists t, (0 <= t <= 1)%Q /\ axis_ok (fst p) (fst q) (fst mn) (fst mx) t /\ axis_ok (snd p) (snd q) (snd mn) (snd mx) t.
Theorem C55_segment_query : forall sort, (forall less l, Permutation (sort less l) l) ->
  forall verts tris n t, soup verts tris n t ->
  exists cm, createChunkyTriMesh numQ sort verts tris n t = Ok (Some cm) /\
  forall p q ids maxIds, 0 <= maxIds <= zlen ids -> exists L, StronglySorted Z.lt L /\
    (forall k, In k L <-> 0 <= k < cmNnodes cm /\ leaf_with (meets p q) (cmNodes cm) k) /\
    chunksOverlappingSegment numQ cm p q ids maxIds = Ok (found L maxIds ids).
Proof.
  intros sort Hs verts tris n t (S1 & S2 & S3 & S4 & S5 & S6 & S7).
  destruct (create_spec numQ (fun _ => True) ordered_Q verts tris n t S1 S2 S3 S4 S5 S6 (fun _ _ => I) S7 sort Hs)
    as (cm & E & _ & _ & _ & Ch & Nb & _).
  exists cm. split; [exact E|]. intros p q ids maxIds Hm.
  exists (filter (hit (checkOverlapSegment numQ p q) (cmNodes cm)) (zseq (Z.to_nat (cmNnodes cm)))).
  split; [apply filter_sorted, zseq_sorted|]. split.
  - intros k. rewrite filter_In, in_zseq. unfold hit, leaf_with.
    assert (C : 0 <= k < cmNnodes cm -> forall nd, get (cmNodes cm) k = Ok nd -> (checkOverlapSegment numQ p q (nMin nd) (nMax nd) = true <-> meets p q (nMin nd) (nMax nd))).
    { intros Hk nd G. destruct (ChAt_box numQ _ _ _ _ _ _ Ch k nd Hk G) as (l' & _ & (BI & _ & (p2 & P2 & E2) & _ & (p4 & P4 & E4))).
      apply segment_Q.
      - destruct (BI p2 P2) as (X & _). rewrite E2 in X. now apply Qltb_false.
      - destruct (BI p4 P4) as (_ & _ & X & _). rewrite E4 in X. now apply Qltb_false. }
    split.
    + intros [Hk H]. split; [lia|]. destruct (get (cmNodes cm) k) as [nd| | |]; try discriminate. exists nd.
      apply andb_true_iff in H as [H1 H2]. apply Z.leb_le in H1. split; [reflexivity|]. split; [exact H1|]. apply C; [lia|reflexivity|exact H2].
    + intros [Hk (nd & G & L & H)]. split; [lia|]. rewrite G. rewrite (proj2 (Z.leb_le _ _) L). apply (C Hk nd G). exact H.
  - unfold chunksOverlappingSegment.
    rewrite (walk_spec numQ (fun _ => True) _ (segment_grows p q) t (cmNodes cm) maxIds (cmNnodes cm) _ ids Ch);
      [reflexivity|now apply (corners_good (fun _ : Q => True))|exact Nb|exact Hm].
Qed.
(** For a segment without tiny extents, [meets] says that a point of the segment lies in the box. *)
Theorem C55_meets_exact : forall p q mn mx,
  (fst q == fst p \/ 1 # 1000000 <= fst q - fst p \/ fst q - fst p <= - (1 # 1000000))%Q ->
  (snd q == snd p \/ 1 # 1000000 <= snd q - snd p \/ snd q - snd p <= - (1 # 1000000))%Q ->
  (meets p q mn mx <-> exists t, 0 <= t <= 1 /\
     fst mn <= fst p + t * (fst q - fst p) <= fst mx /\ snd mn <= snd p + t * (snd q - snd p) <= snd mx)%Q.
Proof.
  assert (K : forall p q mn mx t, (q == p \/ 1 # 1000000 <= q - p \/ q - p <= - (1 # 1000000))%Q ->
    (axis_ok p q mn mx t <-> mn <= p + t * (q - p) <= mx)%Q).
  { intros p q mn mx t H. unfold axis_ok.
    assert (Ee : (eps == 1 # 1000000)%Q) by reflexivity.
    destruct (Qltb (Qabs' (q - p)) eps) eqn:E.
    - apply Qltb_true in E. rewrite Ee in E. unfold Qabs' in E. destruct (Qltb (q - p) 0) eqn:E2; [apply Qltb_true in E2|apply Qltb_false in E2].
      + assert (Z : (q - p == 0)%Q) by (destruct H as [H|[H|H]]; Lqa.lra). rewrite Z. split; intros; Lqa.lra.
      + assert (Z : (q - p == 0)%Q) by (destruct H as [H|[H|H]]; Lqa.lra). rewrite Z. split; intros; Lqa.lra.
    - reflexivity. }
  intros p q mn mx H1 H2. unfold meets. split; intros (t & Ht & X & Y); exists t.
  - apply K in X; [|exact H1]. apply K in Y; [|exact H2]. auto.
  - split; [exact Ht|]. split; apply K; assumption.
Qed.

(** ** A concrete mesh: a strip of five triangles, two per chunk. *)
Section Ex.
Context {T : Type}.
Fixpoint insert (less : BItem (T := T) -> BItem -> bool) (x : BItem) (l : list BItem) : list BItem :=
  match l with [] => [x] | y :: l' => if less y x then y :: insert less x l' else x :: y :: l' end.
Definition isort (less : BItem (T := T) -> BItem -> bool) (l : list BItem) : list BItem := fold_right (insert less) [] l.
Lemma isort_perm : forall less l, Permutation (isort less l) l.
Proof.
  intros less. assert (K : forall x l, Permutation (insert less x l) (x :: l)).
  { intros x. induction l as [|y l IH]; cbn [insert]; [apply Permutation_refl|]. destruct (less y x); [|apply Permutation_refl].
    etransitivity; [apply perm_skip, IH|apply perm_swap]. }
  induction l as [|x l IH]; [apply Permutation_refl|]. cbn [isort fold_right]. etransitivity; [apply K|]. now apply perm_skip.
Qed.
End Ex.
Definition ex_coords : list Z := [0; 0; 0; 1; 0; 2; 2; 0; 0; 3; 0; 2; 4; 0; 0; 5; 0; 2; 6; 0; 0].
Definition ex_tris : list Z := [4; 5; 6; 0; 1; 2; 3; 4; 5; 1; 2; 3; 2; 3; 4].
Example C55_example_hypotheses : soup (map f_of_Z ex_coords) ex_tris 5 2 /\ no_nan (map f_of_Z ex_coords) /\ soup (map inject_Z ex_coords) ex_tris 5 2.
Proof.
  assert (S : forall T (f : Z -> T), soup (map f ex_coords) ex_tris 5 2).
  { intros T f. unfold soup, zlen. rewrite map_length. repeat split; try (cbn; lia); try (vm_compute; reflexivity); try (vm_compute; discriminate);
      cbn in H; repeat (destruct H as [<-|H]; [cbn; lia|]); destruct H. }
  split; [apply S|]. split; [|apply S]. intros x H. cbn in H. repeat (destruct H as [<-|H]; [discriminate|]). destruct H.
Qed.
Definition isortF := isort (T := f32).
Example C55_example_tree :
  match createChunkyTriMesh numF isortF (map f_of_Z ex_coords) ex_tris 5 2 with
  | Ok (Some cm) => (cmTris cm, map (fun nd => (nI nd, nN nd)) (firstn 5 (cmNodes cm)), cmNnodes cm, cmMaxTris cm, zlen (cmNodes cm),
      match ChunksOverlappingRect numF cm (f_of_Z 0, f_of_Z 0) (f_of_Z 1, f_of_Z 1) [7; 7; 7] with Ok r => r | _ => (-1, []) end)
  | _ => ([], [], 0, 0, 0, (-1, []))
  end = ([0; 1; 2; 1; 2; 3; 2; 3; 4; 3; 4; 5; 4; 5; 6], [(-5, 0); (0, 2); (-3, 0); (2, 1); (3, 2)], 5, 2, 12, (1, [1; 7; 7])).
Proof. vm_compute. reflexivity. Qed.
Example C55_example_segment :
  match createChunkyTriMesh numQ (isort (T := Q)) (map inject_Z ex_coords) ex_tris 5 2 with
  | Ok (Some cm) => chunksOverlappingSegment numQ cm (inject_Z 5, inject_Z 3) (inject_Z 6, inject_Z 0) [7; 7; 7] 3
  | _ => Panic
  end = Ok (1, [4; 7; 7]).
Proof. vm_compute. reflexivity. Qed.

(** Without the bound on n + t the sum wraps: with the largest chunk size, two triangles make the
    program panic. *)
Theorem C55_chunk_size_refuted : exists verts tris n t, no_nan verts /\ 1 <= n /\ 1 <= t < 2 ^ 31 /\ zlen tris = 3 * n /\
  (forall v, In v tris -> 0 <= v /\ 3 * v + 2 < zlen verts) /\
  createChunkyTriMesh numF isortF verts tris n t = Panic.
Proof.
  exists (map f_of_Z ex_coords), [0; 1; 2; 2; 1; 3], 2, 2147483647. split; [exact (proj1 (proj2 C55_example_hypotheses))|].
  split; [lia|]. split; [lia|]. split; [reflexivity|]. split; [|vm_compute; reflexivity].
  intros v H. unfold zlen. rewrite map_length. cbn in H. repeat (destruct H as [<-|H]; [cbn; lia|]). destruct H.
Qed.

Print Assumptions C55_build.
Print Assumptions C55_one_leaf.
Print Assumptions C55_rect_query.
Print Assumptions C55_rect_finds.
Print Assumptions C55_segment_query.
Print Assumptions C55_meets_exact.
Print Assumptions C55_chunk_size_refuted.
