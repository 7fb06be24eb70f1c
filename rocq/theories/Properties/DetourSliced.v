(** C27, C28, C67: the sliced path search. *)
From Coq Require Import ZArith List Bool Lia.
From Coq Require Import Floats.SpecFloat.
From Verif.Base Require Import Res GoNum F32 Num Grid.
From Verif.Model Require Import Status Poly PolyRef MeshTypes Serial Geom MeshLinks MeshTiles Node NodeQueue FindPath Raycast StraightPath Sliced.
From Verif.Spec Require Import LinkSpec MeshSpec PathSpec SlicedSpec.
From Verif.Proofs Require Import LinkProofs SearchStep SearchInv SearchEnd FindPathProofs FindPathEnd MeshInv FitProofs MeshHist SlicedProofs SlicedPath SlicedEnd.
From Verif.Properties Require Import ExampleMesh DetourMesh DetourPath DetourPathEnd DetourRay.
Import ListNotations.
Open Scope Z_scope.

(** * C27 *)

(** Two calls of UpdateSlicedFindPath do what one call with both budgets does: same query, same
    status, and doneIters (written only by calls that iterate) adds up. With or without any-angle
    steps, on any mesh, also if the code panics. *)
Theorem C27_slices : forall rfuel m q k1 k2, 0 <= k1 -> 0 <= k2 ->
  (let* (q1, _, d1) := UpdateSlicedFindPath rfuel m q k1 in
   let* (q2, st, d2) := UpdateSlicedFindPath rfuel m q1 k2 in
   Ok (q2, st, match d1, d2 with Some i, Some j => Some (i + j) | Some i, None => Some i | None, d => d end)) =
  UpdateSlicedFindPath rfuel m q (k1 + k2).
Proof.
  intros rf m q k1 k2 H1 H2. rewrite <- (update_join rf m q k1 k2 H1 H2). apply bind_ext. intros [[q1 st1] d1]. apply bind_ext. intros [[q2 st2] d2].
  destruct d1, d2; reflexivity.
Qed.
Lemma updates_total : forall rf m ks k q, 0 <= k -> Forall (fun k => 0 <= k) ks ->
  updates rf m q (k :: ks) = let* (q, _, _) := UpdateSlicedFindPath rf m q (k + total ks) in Ok q.
Proof.
  intros rf m ks. induction ks as [|j ks IH]; intros k q Hk H; cbn [updates total].
  - now rewrite Z.add_0_r.
  - inversion H as [|? ? Hj Hks]; subst. assert (T : 0 <= total ks) by (clear -Hks; induction Hks; cbn [total]; lia).
    rewrite <- (C27_slices rf m q k (j + total ks)) by lia. rewrite bind_assoc. apply bind_ext. intros [[q1 st1] d1]. rewrite bind_assoc. change (updates rf m q1 (j :: ks) = let* a := UpdateSlicedFindPath rf m q1 (j + total ks) in
      let* x := (let '(q2, st, d2) := a in Ok (q2, st, match d1, d2 with Some i, Some j => Some (i + j) | Some i, None => Some i | None, d => d end)) in let '(q, _, _) := x in Ok q).
    rewrite (IH j q1 Hj Hks). apply bind_ext. intros [[q2 st2] d2]. reflexivity.
Qed.
(** Only the sum of the budgets counts: for the query, hence for the whole search. *)
Theorem C27_budgets : forall rfuel m q ks ks', budgets ks -> budgets ks' -> total ks = total ks' ->
  updates rfuel m q ks = updates rfuel m q ks'.
Proof.
  intros rf m q ks ks' [N H] [N' H'] E. destruct ks as [|k ks]; [congruence|]. destruct ks' as [|k' ks']; [congruence|]. inversion H; subst. inversion H'; subst.
  rewrite !updates_total by assumption. cbn [total] in E. now rewrite E.
Qed.
Theorem C27_result : forall fuel rfuel m q flt a b pa pb options ks ks' path maxPath, budgets ks -> budgets ks' -> total ks = total ks' ->
  sliced_run fuel rfuel m q flt a b pa pb options ks path maxPath = sliced_run fuel rfuel m q flt a b pa pb options ks' path maxPath.
Proof.
  intros fuel rf m q flt a b pa pb options ks ks' path maxPath H H' E. unfold sliced_run. apply bind_ext. intros [q1 st1].
  now rewrite (C27_budgets rf m q1 ks ks' H H' E).
Qed.
(** UpdateSlicedFindPath reuses one hit structure for its rays. What it reads of the result, T and
    the cost, does not depend on normal, edge and count left over from the last ray. *)
Theorem C27_ray_fields : forall fuel m flt ref a b options t path maxPath cost prev n1 e1 c1 n2 e2 c2,
  same_ray (Raycast fuel m flt ref a b options (mkHit t n1 e1 path c1 maxPath cost) prev) (Raycast fuel m flt ref a b options (mkHit t n2 e2 path c2 maxPath cost) prev).
Proof.
  intros fuel m flt ref a b options t path maxPath cost prev n1 e1 c1 n2 e2 c2.
  assert (S : forall x y, rsame x y -> same_ray x y).
  { intros [[h st]| | |] [[h' st']| | |]; cbn; try tauto. intros [(A1 & A2 & A3 & A4) ->]. auto. }
  apply S. unfold Raycast. apply rsame_bind. intros vs. destruct (negb vs). { split; [repeat split|reflexivity]. }
  apply rsame_bind. intros vp. destruct (negb vp). { split; [repeat split|reflexivity]. }
  apply rsame_bind. intros tp. apply rsame_bind. intros ptp. apply ray_alike. repeat split.
Qed.

(** ** Examples *)
Definition sl_query (n : Z) : Query := mkQuery (fst (ex_query n)) (snd (ex_query n)) 0 (-1) f0 None.
(** On the mesh of two tiles, without and with any-angle steps (options 2), in one, two and five slices. *)
Example C27_ex : budgets [20] /\ budgets [1; 19] /\ budgets [1; 0; 2; 3; 14] /\
  (forall o ks, In o [0; 2] -> In ks [[20]; [1; 19]; [1; 0; 2; 3; 14]] ->
    sliced_run 100 50 ray_m (sl_query 8) ray_all 17 20 (pt 1 3) (pt 7 2) o ks (repeat 0 5) 5 = Ok ([17; 16; 21; 20; 0], 4, Success)) /\
  sliced_run 100 50 ray_m (sl_query 8) ray_all 17 20 (pt 1 3) (pt 7 2) 2 [2] (repeat 0 5) 5 = Ok ([17; 16; 21; 0; 0], 3, Z.lor Success PartialResult).
Proof.
  assert (B : forall k ks, forallb (fun k => 0 <=? k) (k :: ks) = true -> budgets (k :: ks)).
  { intros k ks H. split; [discriminate|]. apply Forall_forall. rewrite forallb_forall in H. intros x Hx. apply Z.leb_le. auto. }
  split; [now apply B|]. split; [now apply B|]. split; [now apply B|]. split; [|vm_compute; reflexivity].
  intros o ks [<-|[<-|[]]] [<-|[<-|[<-|[]]]]; vm_compute; reflexivity.
Qed.
Example C27_done_ex : exists q1 q2 q3 st1, InitSlicedFindPath ray_m (sl_query 8) 17 20 (pt 1 3) (pt 7 2) ray_all 0 = Ok (q1, InProgress) /\
  UpdateSlicedFindPath 50 ray_m q1 3 = Ok (q2, st1, Some 3) /\ StatusInProgress st1 = true /\ UpdateSlicedFindPath 50 ray_m q2 9 = Ok (q3, Success, Some 1).
Proof. do 4 eexists. split; [vm_compute; reflexivity|]. split; [vm_compute; reflexivity|]. split; vm_compute; reflexivity. Qed.

(** * C28 *)

(** On a mesh made by AddTile and RemoveTile from sound tiles, whose links stay inside of
    tiles (or cross their sides 0 and 1), without a triangle of linked polygons: whenever FindPath succeeds, the sliced search (without any-angle
    steps, with at least as many iterations, split in any way) writes the same polygons in the
    same places, the same count, and the same status, except that BufferTooSmall is set also when
    the path just fills the buffer. *)
Theorem C28_same_path : forall m A, Run sound m A ->
  forall x, QueryState (qPool x) (qOpen x) ->
  forall flt, no_triangle m flt -> plain_sides m ->
  forall fuel a b pa pb path np' q' path' n st, FindPath fuel m (qPool x) (qOpen x) flt a b pa pb path = Ok (np', q', path', n, st) -> StatusSucceed st = true ->
  forall fuel' rfuel options ks more, any_angle options = false -> budgets ks -> Z.of_nat fuel <= total ks -> (Z.to_nat 65535 <= fuel')%nat ->
  sliced_run fuel' rfuel m x flt a b pa pb options ks (path ++ more) (zlen path) =
    Ok (path' ++ more, n, if (n =? zlen path) && negb (a =? b) then Z.lor st BufferTooSmall else st).
Proof.
  intros m A HR x HQ flt HT HS fuel a b pa pb path np' q' path' n st E Hst fuel' rf options ks more HA [Nk Hk] Hf Hf'.
  assert (HF : flat_links m).
  { intros r t p c l Hv Hp Hc Hl N0. destruct (valid_poly m A r t p (Run_inv _ _ _ HR) Hv Hp) as (k & h & Ht & Hh & _).
    specialize (HS k t h Ht Hh). rewrite Forall_forall in HS. assert (Hin : In l (tdLinks (tD t))).
    { unfold at_slots in Hl. apply in_flat_map in Hl. destruct Hl as (y & _ & Hl). destruct (get (tdLinks (tD t)) (fst y)) as [l'| | |] eqn:G; try destruct Hl as [<-|[]]; try contradiction.
      apply get_ok in G. eapply nth_error_In. apply G. }
    unfold cross. destruct (HS l Hin) as [->|[->| ->]]; reflexivity. }
  destruct (same_path m A (qPool x) (qOpen x) flt a b pa pb path fuel np' q' path' n st HR (QueryState_ok _ _ HQ) HT HF E Hst options rf (total ks) more fuel' x HA Hf Hf' eq_refl eq_refl)
    as (x1 & x2 & x3 & s1 & s2 & d & E1 & E2 & _ & _ & E3).
  unfold sliced_run. rewrite E1. cbn [bind]. destruct ks as [|k ks]; [congruence|]. inversion Hk; subst. rewrite updates_total by assumption. cbn [total] in E2. rewrite E2. cbn [bind].
  rewrite E3. reflexivity.
Qed.
(** References that FindPath rejects are rejected, whatever the updates; nothing is written. *)
Theorem C28_invalid : forall m x flt a b pa pb options, IsValidPolyRef m a = Ok false \/ (IsValidPolyRef m a = Ok true /\ IsValidPolyRef m b = Ok false) ->
  (exists x1, InitSlicedFindPath m x a b pa pb flt options = Ok (x1, Z.lor Failure InvalidParam)) /\
  forall fuel rfuel ks path maxPath, sliced_run fuel rfuel m x flt a b pa pb options ks path maxPath = Ok (path, 0, Failure).
Proof.
  intros m x flt a b pa pb options H.
  assert (E : exists x1, InitSlicedFindPath m x a b pa pb flt options = Ok (x1, Z.lor Failure InvalidParam) /\ qStatus x1 = Failure).
  { unfold InitSlicedFindPath. destruct ((a =? 0) || (b =? 0)); [eexists; split; reflexivity|].
    destruct H as [->|[-> E]]; cbn [bind negb orb]; [|rewrite E; cbn [bind negb orb]]; eexists; split; reflexivity. }
  destruct E as (x1 & E & Es). split; [eauto|]. intros fuel rf ks path maxPath. unfold sliced_run. rewrite E. cbn [bind].
  assert (U : updates rf m x1 ks = Ok x1).
  { induction ks as [|k ks IH]; [reflexivity|]. cbn [updates]. unfold UpdateSlicedFindPath. rewrite Es. change (StatusInProgress Failure) with false. cbn [negb bind]. exact IH. }
  rewrite U. cbn [bind]. unfold FinalizeSlicedFindPath. rewrite Es. destruct (refs_of x1). change (StatusFailed Failure) with true. reflexivity.
Qed.

(** ** Example: a tile of four triangles around a point *)
Definition sl_td : TileData :=
  mkTD [one; 0; one; 0; 0; 0; two; 0; 0; two; 0; two; 0; 0; two]
       [ex_tri [0; 1; 2] [4; 0; 2]; ex_tri [0; 2; 3] [1; 0; 3]; ex_tri [0; 3; 4] [2; 0; 4]; ex_tri [0; 4; 1] [3; 0; 1]]
       (repeat (mkLink 0 0 0 0 0 0) 8) [] [] [] [] [].
Definition sl_head : MeshHeader :=
  mkHeader navMeshMagic navMeshVersion 0 0 0 9 4 5 8 0 0 0 0 0 4 two 0 one (0, 0, 0) (two, one, two) one.
Definition sl_data : list Z :=
  Eval vm_compute in ok_or [] (let* b := header_serialize (repeat 0 100) sl_head in let* r := serializeTileData (repeat 0 600) sl_td in Ok (b ++ r)).
Definition sl_m : NavMesh := Eval vm_compute in fst (fst (ok_or (no_mesh, 0, 0) (AddTile ex_m0 sl_data 0))).
Definition sl_A : list entry := [mkEntry (0, 0, 0) 16 sl_data].
Lemma sl_fit : fit_data sl_data sl_head.
Proof.
  split; [vm_compute; reflexivity|]. split; [reflexivity|]. split; [reflexivity|]. exists sl_td.
  split; [vm_compute; reflexivity|]. split; [cbn; lia|]. split; [reflexivity|].
  assert (G : forall vs ns, length vs = 3%nat -> length ns = 3%nat -> Forall (fun v => 0 <= v <= 4) vs -> fit_poly 15 (ex_tri vs ns)).
  { intros vs ns Hv Hn HF. unfold fit_poly, ex_tri. cbn [pVerts pNeis pVertCount]. rewrite !app_length, Hv, Hn. split; [reflexivity|]. split; [reflexivity|]. split; [lia|].
    intros j v Hj Hg. unfold get in Hg. destruct (j <? 0); [discriminate|]. destruct (nth_error (vs ++ [0; 0; 0]) (Z.to_nat j)) as [w|] eqn:E; [|discriminate]. cbn in Hg. injection Hg as <-.
    apply nth_error_In, in_app_iff in E. rewrite Forall_forall in HF. destruct E as [E|E]; [specialize (HF w E); lia|]. cbn in E. lia. }
  change (zlen (tdVerts sl_td)) with 15. unfold sl_td. cbn [tdPolys]. repeat (constructor; [apply G; [reflexivity|reflexivity|]; repeat (constructor; [lia|]); constructor|]). constructor.
Qed.
Lemma sl_sound_data : forall p, npMaxPolys p = 4 -> sound_data p sl_data.
Proof.
  intros p Hp h td Hh Htd. rewrite (proj1 sl_fit) in Hh. injection Hh as <-. assert (E : tile_unserialize sl_head (skipn 100 sl_data) = Ok sl_td) by (vm_compute; reflexivity).
  rewrite E in Htd. injection Htd as <-. rewrite Hp. cbn [sl_head sl_td hPolyCount tdBv tdPolys]. split; [lia|]. split; [constructor|].
  repeat (constructor; [cbn [ex_tri pNeis app]; repeat (constructor; [lia || tauto|]); constructor|]). constructor.
Qed.
Lemma sl_run : Run sound sl_m sl_A.
Proof.
  apply (Run_add sound ex_m0 [] sl_data 0 sl_m 16 sl_head).
  - eapply Run_init; [exact ex_good|exact ex_init].
  - now left.
  - vm_compute. reflexivity.
  - apply sl_fit.
  - split; [constructor; [now apply sl_sound_data|constructor]|]. intros x y. cbn [filter]. destruct (at_loc _ _ _); cbn; lia.
Qed.
(** The polygons of the tile by number, with the references they are linked to: a ring. *)
Definition ring : list (Z * Z) := [(0, 17); (0, 19); (1, 16); (1, 18); (2, 17); (2, 19); (3, 16); (3, 18)].
Lemma sl_linked : forall x y, linked sl_m x y -> In (decodePolyIDPoly (mBits sl_m) x, y) ring.
Proof.
  intros x y (_ & t & p & c & [Ht Hp] & HC & Hin).
  assert (T : In t (mTiles sl_m)) by (apply get_ok in Ht; eapply nth_error_In; apply Ht).
  assert (B : Forall (fun t => forall i p, get (tdPolys (tD t)) i = Ok p ->
    Forall (fun z => In (i, pay_ref (snd z)) ring) (chain_of (S (length (tdLinks (tD t)))) (tdLinks (tD t)) (pFirstLink p))) (mTiles sl_m)).
  { assert (G : forall (A : Type) (l : list A) i v, get l i = Ok v -> exists n, i = Z.of_nat n /\ nth_error l n = Some v).
    { intros A l i v E. apply get_ok in E. exists (Z.to_nat i). destruct E as [E1 E2]. split; [lia|exact E2]. }
    repeat (constructor; [intros i q E; apply G in E; destruct E as (n & -> & E); cbn [tD tdPolys tdLinks] in *;
      do 4 (destruct n as [|n]; [cbn in E; try discriminate E; injection E as <-; vm_compute; repeat (constructor; [tauto|]); constructor|]); destruct n; discriminate E|]). constructor. }
  rewrite Forall_forall in B. specialize (B t T _ p Hp). pose proof (LChain_short _ _ _ HC). rewrite (chain_of_ok _ _ _ HC) in B by lia.
  apply in_map_iff in Hin. destruct Hin as (z & <- & Hz). rewrite Forall_forall in B. exact (B z Hz).
Qed.
Lemma sl_no_triangle : forall flt, no_triangle sl_m flt.
Proof.
  intros flt x y z H1 _ H2 _ H3. apply sl_linked in H1, H2, H3. set (i := decodePolyIDPoly (mBits sl_m) x) in *. clearbody i.
  cbn [ring In] in H1. repeat (destruct H1 as [H1|H1]; [injection H1 as <- <-; vm_compute in H2; repeat (destruct H2 as [H2|H2]; [first [discriminate H2|injection H2 as <-; vm_compute in H3; intuition discriminate]|]); destruct H2|]).
  destruct H1.
Qed.
Lemma sl_sides : plain_sides sl_m.
Proof.
  intros i t h Ht Hh. assert (T : In t (mTiles sl_m)) by (eapply nth_error_In; exact Ht).
  assert (B : Forall (fun t => Forall (fun l => lSide l = 255 \/ lSide l = 0 \/ lSide l = 1) (tdLinks (tD t))) (mTiles sl_m)).
  { repeat (constructor; [cbn [tD tdLinks]; repeat (constructor; [tauto|]); constructor|]). constructor. }
  rewrite Forall_forall in B. now apply B.
Qed.
Definition sl_find (flt : QueryFilter) (m : NavMesh) (n a b len : Z) (pa pb : fvec) : res (NodePool * nodeQueue * list Z * Z * Z) :=
  FindPath 10 m (fst (ex_query n)) (snd (ex_query n)) flt a b pa pb (repeat 0 (Z.to_nat len)).
Lemma sl_state : forall n, 4 <= n <= 65535 -> QueryState (qPool (sl_query n)) (qOpen (sl_query n)).
Proof. intros n H. now apply ex_state. Qed.
(** Across the ring, to the opposite triangle: any budgets of ten iterations or more. *)
Example C28_ex : Run sound sl_m sl_A /\ no_triangle sl_m ex_filter /\ plain_sides sl_m /\
  ex_out (sl_find ex_filter sl_m 8 16 18 3 (fv one 0 0) (fv one 0 two)) = Ok ([16; 19; 18], 3, Success) /\
  (forall ks, budgets ks -> 10 <= total ks ->
    sliced_run (Z.to_nat 65535) 0 sl_m (sl_query 8) ex_filter 16 18 (fv one 0 0) (fv one 0 two) 0 ks [0; 0; 0; 5; 6] 3 =
      Ok ([16; 19; 18; 5; 6], 3, Z.lor Success BufferTooSmall)) /\
  sliced_run 9 0 sl_m (sl_query 8) ex_filter 16 18 (fv one 0 0) (fv one 0 two) 0 [2; 3; 5] [0; 0; 0; 5; 6] 4 = Ok ([16; 19; 18; 5; 6], 3, Success).
Proof.
  split; [exact sl_run|]. split; [apply sl_no_triangle|]. split; [exact sl_sides|]. split; [vm_compute; reflexivity|]. split; [|vm_compute; reflexivity].
  intros ks HB HK. remember (sl_find ex_filter sl_m 8 16 18 3 (fv one 0 0) (fv one 0 two)) as r eqn:E.
  assert (O : ex_out r = Ok ([16; 19; 18], 3, Success)) by (rewrite E; vm_compute; reflexivity).
  destruct r as [[[[[np' q'] path'] n] st]| | |]; try discriminate O. cbn [ex_out] in O. apply Ok_inj in O. injection O as -> -> ->. symmetry in E.
  exact (C28_same_path sl_m sl_A sl_run (sl_query 8) (sl_state 8 ltac:(lia)) ex_filter (sl_no_triangle _) sl_sides 10 16 18 (fv one 0 0) (fv one 0 two) [0; 0; 0] np' q' [16; 19; 18] 3 Success
    E eq_refl (Z.to_nat 65535) 0%nat 0 ks [5; 6] eq_refl HB HK (le_n _)).
Qed.
Example C28_invalid_ex : IsValidPolyRef sl_m 16 = Ok true /\ IsValidPolyRef sl_m 999 = Ok false /\
  sliced_run 9 0 sl_m (sl_query 8) ex_filter 16 999 (fv one 0 0) (fv one 0 two) 0 [2; 3] [4; 5] 2 = Ok ([4; 5], 0, Failure).
Proof. split; [vm_compute; reflexivity|]. split; vm_compute; reflexivity. Qed.

(** ** Without the conditions *)

(** Three polygons around a point, the direct step from the first to the last costs 10 instead
    of 1. The sliced search does not look at neighbours that the parent of a node is linked to
    (query.go:1872-1893), and misses the way around. Costs are positive, the mesh is made by
    AddTile. *)
Definition dear : QueryFilter :=
  mkQF (fun _ _ _ => true) (fun pa pb prev cur next => Ok (if (fst cur =? 16) && (fst next =? 18) then f_of_Z 10 else f1)).
Theorem C28_triangle_refuted : exists m m0 data x flt a b pa pb path p n st p' n' st',
  AddTile m0 data 0 = Ok (m, Success, 16) /\ QueryState (qPool x) (qOpen x) /\ fair flt /\ plain_sides m /\
  ex_out (FindPath 10 m (qPool x) (qOpen x) flt a b pa pb path) = Ok (p, n, st) /\ StatusSucceed st = true /\
  (forall ks, budgets ks -> total ks = 10 -> sliced_run 9 0 m x flt a b pa pb 0 ks path (zlen path) = Ok (p', n', st')) /\ p <> p' /\ n <> n'.
Proof.
  exists wh_m, ex_m0, wh_data, (sl_query 8), dear, 16, 18, (fv one 0 0), (fv 0 0 one), [0; 0; 0; 0; 0].
  exists [16; 17; 18; 0; 0], 3, Success, [16; 18; 0; 0; 0], 2, Success. split; [exact wh_ok|]. split; [apply sl_state; lia|]. split.
  { intros pa pb prev cur next _ _. cbn [qCost dear]. destruct (_ && _); split; vm_compute; reflexivity. }
  split.
  { intros i t h Ht Hh. assert (T : In t (mTiles wh_m)) by (eapply nth_error_In; exact Ht).
    assert (B : Forall (fun t => Forall (fun l => lSide l = 255 \/ lSide l = 0 \/ lSide l = 1) (tdLinks (tD t))) (mTiles wh_m)).
    { repeat (constructor; [cbn [tD tdLinks]; repeat (constructor; [tauto|]); constructor|]). constructor. }
    rewrite Forall_forall in B. now apply B. }
  split; [vm_compute; reflexivity|]. split; [reflexivity|]. split; [|split; discriminate]. intros ks HB HK.
  rewrite (C27_result 9 0 wh_m (sl_query 8) dear 16 18 (fv one 0 0) (fv 0 0 one) 0 ks [10]); [vm_compute; reflexivity|exact HB| |exact HK].
  split; [discriminate|]. constructor; [lia|constructor].
Qed.
(** The ring again, but the link from 17 to 18 crosses a side of the tile: FindPath keeps one node
    per polygon and side it was entered through (query.go:317-320) and runs out of them. *)
Definition sl_side : NavMesh :=
  match mTiles sl_m with
  | t :: ts => mkMesh (mParams sl_m) (mMaxTiles sl_m) (mLUTSize sl_m) (mLUTMask sl_m) (mPosLookup sl_m) (mNextFree sl_m)
      (mkTile (tSalt t) (tLinksFree t) (tHeader t) (let d := tD t in mkTD (tdVerts d) (tdPolys d)
         (map (fun l => if (lRef l =? 18) && (lEdge l =? 2) then mkLink (lRef l) (lNext l) (lEdge l) 4 (lBMin l) (lBMax l) else l) (tdLinks d))
         (tdDMeshes d) (tdDVerts d) (tdDTris d) (tdBv d) (tdCons d)) (tData t) (tDataSize t) (tFlags t) (tNext t) :: ts) (mBits sl_m)
  | [] => sl_m
  end.
Definition dear2 : QueryFilter :=
  mkQF (fun _ _ _ => true) (fun pa pb prev cur next => Ok (if (fst cur =? 19) && (fst next =? 18) then f_of_Z 10 else f1)).
Theorem C28_sides_refuted : exists m x flt a b pa pb path p n st p' n' st',
  QueryState (qPool x) (qOpen x) /\ fair flt /\ no_triangle m flt /\
  ex_out (FindPath 10 m (qPool x) (qOpen x) flt a b pa pb path) = Ok (p, n, st) /\ StatusDetail st OutOfNodes = true /\ StatusDetail st PartialResult = false /\
  (forall ks, budgets ks -> total ks = 10 -> sliced_run 9 0 m x flt a b pa pb 0 ks path (zlen path) = Ok (p', n', st')) /\ p <> p' /\ StatusDetail st' OutOfNodes = false.
Proof.
  exists sl_side, (sl_query 4), dear2, 16, 18, (fv one 0 0), (fv one 0 two), [0; 0; 0; 0; 0].
  exists [16; 19; 18; 0; 0], 3, (Z.lor Success OutOfNodes), [16; 17; 18; 0; 0], 3, Success. split; [apply sl_state; lia|]. split.
  { intros pa pb prev cur next _ _. cbn [qCost dear2]. destruct (_ && _); split; vm_compute; reflexivity. }
  split.
  { intros x y z H1 _ H2 _ H3. assert (L : forall x y, linked sl_side x y -> In (decodePolyIDPoly (mBits sl_m) x, y) ring).
    { clear. intros x y (_ & t & p & c & [Ht Hp] & HC & Hin).
      assert (T : In t (mTiles sl_side)) by (apply get_ok in Ht; eapply nth_error_In; apply Ht).
      assert (B : Forall (fun t => forall i p, get (tdPolys (tD t)) i = Ok p ->
        Forall (fun z => In (i, pay_ref (snd z)) ring) (chain_of (S (length (tdLinks (tD t)))) (tdLinks (tD t)) (pFirstLink p))) (mTiles sl_side)).
      { assert (G : forall (A : Type) (l : list A) i v, get l i = Ok v -> exists n, i = Z.of_nat n /\ nth_error l n = Some v).
        { intros A l i v E. apply get_ok in E. exists (Z.to_nat i). destruct E as [E1 E2]. split; [lia|exact E2]. }
        repeat (constructor; [intros i q E; apply G in E; destruct E as (n & -> & E); cbn [tD tdPolys tdLinks] in *;
          do 4 (destruct n as [|n]; [cbn in E; try discriminate E; injection E as <-; vm_compute; repeat (constructor; [tauto|]); constructor|]); destruct n; discriminate E|]). constructor. }
      rewrite Forall_forall in B. specialize (B t T _ p Hp). pose proof (LChain_short _ _ _ HC). rewrite (chain_of_ok _ _ _ HC) in B by lia.
      apply in_map_iff in Hin. destruct Hin as (z & <- & Hz). rewrite Forall_forall in B. exact (B z Hz). }
    apply L in H1, H2, H3. set (i := decodePolyIDPoly (mBits sl_m) x) in *. clearbody i.
    cbn [ring In] in H1. repeat (destruct H1 as [H1|H1]; [injection H1 as <- <-; vm_compute in H2; repeat (destruct H2 as [H2|H2]; [first [discriminate H2|injection H2 as <-; vm_compute in H3; intuition discriminate]|]); destruct H2|]).
    destruct H1. }
  split; [vm_compute; reflexivity|]. split; [reflexivity|]. split; [reflexivity|]. split; [|split; [discriminate|reflexivity]]. intros ks HB HK.
  rewrite (C27_result 9 0 sl_side (sl_query 4) dear2 16 18 (fv one 0 0) (fv one 0 two) 0 ks [10]); [vm_compute; reflexivity|exact HB| |exact HK].
  split; [discriminate|]. constructor; [lia|constructor].
Qed.

(** * C67 *)

Section Sliced.
Variables (m : NavMesh) (A : list entry) (flt : QueryFilter) (x : Query) (a b : Z) (pa pb : fvec) (options : Z).
Hypotheses (HR : Run sound m A) (HS : small_mesh m) (HF : fair flt) (HQ : QueryState (qPool x) (qOpen x)) (Hp : finite_pool (qPool x))
  (Ha : finite_pos pa) (Hb : finite_pos pb) (HA : any_angle options = false).

Lemma run_init : forall rf, exists x1 s1, InitSlicedFindPath m x a b pa pb flt options = Ok (x1, s1) /\
  (qStatus x1 = Failure /\ (IsValidPolyRef m a = Ok false \/ IsValidPolyRef m b = Ok false) \/
   qStatus x1 = Success /\ refs_of x1 = (a, b) /\ a = b \/
   qStatus x1 = InProgress /\ a <> b /\ forall Bad : Prop, (Bad \/ fits m A /\ edges_named m /\ never_panics flt) -> exists N,
   forall k, fine Bad (UpdateSlicedFindPath rf m x1 k) (fun y => let '(x2, st, _) := y in qStatus x2 = st /\ (N <= k -> StatusInProgress st = false) /\
    exists l out, corridor m flt a l /\
      (st = with_out InProgress out \/ st = with_out Success out /\ (out = false -> last l a <> b -> forall l0, corridor m flt a l0 -> last l0 a <> b)) /\
      forall fuel path maxPath, (Z.to_nat 65535 <= fuel)%nat -> 0 < maxPath <= zlen path ->
        let c := Z.min (zlen (a :: l)) maxPath in
        exists x3, FinalizeSlicedFindPath fuel rf m x2 path maxPath =
          Ok (x3, firstn (Z.to_nat c) (a :: l) ++ skipn (Z.to_nat c) path, c, flags_of (maxPath <=? zlen (a :: l)) (negb (last l a =? b)) out))).
Proof.
  intros rf. destruct (valid_total m A a (Run_inv _ _ _ HR)) as [va Va]. destruct (valid_total m A b (Run_inv _ _ _ HR)) as [vb Vb].
  destruct (va && vb) eqn:V.
  2:{ assert (D : IsValidPolyRef m a = Ok false \/ IsValidPolyRef m a = Ok true /\ IsValidPolyRef m b = Ok false) by (rewrite Va, Vb; destruct va, vb; try discriminate; auto).
    destruct (proj1 (C28_invalid m x flt a b pa pb options D)) as [x1 E]. exists x1, (Z.lor Failure InvalidParam). split; [exact E|]. left. split; [|tauto].
    unfold InitSlicedFindPath in E. destruct ((a =? 0) || (b =? 0)); [apply Ok_inj in E; injection E as <-; reflexivity|].
    rewrite Va in E. cbn [bind] in E. destruct va; [rewrite Vb in E|]; cbn [bind] in E; [destruct vb; [discriminate|]|]; cbn [negb orb] in E; apply Ok_inj in E; injection E as <-; reflexivity. }
  apply andb_true_iff in V as [-> ->]. destruct (Z.eq_dec a b) as [->|N].
  - assert (Z0 : (b =? 0) || (b =? 0) = false) by (rewrite orb_diag; unfold IsValidPolyRef in Vb; destruct (b =? 0); [discriminate|reflexivity]).
    unfold InitSlicedFindPath. rewrite Z0, Vb. cbn [bind negb orb]. rewrite HA. cbn [bind]. rewrite Z.eqb_refl. do 2 eexists. split; [reflexivity|]. right. left. repeat split.
  - destruct (sliced_all True m A flt x a b pa pb options rf HR HS HF (or_introl Logic.I) (QueryState_ok _ _ HQ) (QueryState_max _ _ HQ) Hp Ha Hb HA Va Vb N) as (x1 & _ & E & Es & _).
    exists x1, InProgress. split; [exact E|]. right. right. split; [exact Es|]. split; [exact N|]. intros Bad HB.
    destruct (sliced_all Bad m A flt x a b pa pb options rf HR HS HF HB (QueryState_ok _ _ HQ) (QueryState_max _ _ HQ) Hp Ha Hb HA Va Vb N) as (x1' & N1 & E' & _ & H).
    rewrite E in E'. apply Ok_inj in E'. injection E' as <-. exists N1. exact H.
Qed.
Lemma idle : forall rf q ks, StatusInProgress (qStatus q) = false -> updates rf m q ks = Ok q.
Proof.
  intros rf q ks H. induction ks as [|k ks IH]; [reflexivity|]. cbn [updates]. unfold UpdateSlicedFindPath. rewrite H. exact IH.
Qed.

(** What a search delivers, whether it had the time to finish or not. *)
Theorem C67_path : forall fuel rfuel ks path maxPath path' n st, budgets ks -> 0 < maxPath <= zlen path -> (Z.to_nat 65535 <= fuel)%nat ->
  sliced_run fuel rfuel m x flt a b pa pb options ks path maxPath = Ok (path', n, st) ->
  (StatusSucceed st = false <-> IsValidPolyRef m a = Ok false \/ IsValidPolyRef m b = Ok false) /\
  (StatusSucceed st = false -> st = Failure /\ n = 0 /\ path' = path) /\
  (StatusSucceed st = true -> exists l, corridor m flt a l /\ n = Z.min (1 + zlen l) maxPath /\
    path' = firstn (Z.to_nat n) (a :: l) ++ skipn (Z.to_nat n) path /\
    (StatusDetail st PartialResult = true <-> last l a <> b) /\
    (StatusDetail st BufferTooSmall = true <-> a <> b /\ maxPath <= 1 + zlen l) /\
    StatusFailed st = false /\ StatusInProgress st = false).
Proof.
  intros fuel rf ks path maxPath path' n st [Nk Hk] Hm Hf E. unfold sliced_run in E. destruct (run_init rf) as (x1 & s1 & Ei & H). rewrite Ei in E. cbn [bind] in E.
  destruct H as [(Es & Hv)|[(Es & Er & Eab)|(Es & Nab & H)]].
  - rewrite idle in E by (rewrite Es; reflexivity). cbn [bind] in E. unfold FinalizeSlicedFindPath in E. rewrite Es in E. destruct (refs_of x1). change (StatusFailed Failure) with true in E. cbn [bind] in E.
    apply Ok_inj in E. injection E as <- <- <-. split; [split; [intros _; exact Hv|reflexivity]|]. split; [auto|discriminate].
  - rewrite idle in E by (rewrite Es; reflexivity). cbn [bind] in E. unfold FinalizeSlicedFindPath in E. rewrite Es, Er in E. change (StatusFailed Success) with false in E. cbv iota in E. rewrite Eab, Z.eqb_refl in E.
    destruct path as [|r0 path]; [unfold zlen in Hm; cbn in Hm; lia|]. cbn in E. apply Ok_inj in E. injection E as <- <- <-.
    assert (Vb : a = b -> ~ (IsValidPolyRef m a = Ok false \/ IsValidPolyRef m b = Ok false)).
    { intros _ V. assert (V' : IsValidPolyRef m b = Ok false) by (destruct V; congruence). unfold InitSlicedFindPath in Ei. rewrite Eab, V' in Ei. cbn [bind negb orb] in Ei.
      destruct ((b =? 0) || (b =? 0)); apply Ok_inj in Ei; injection Ei as <- <-; cbn in Es; discriminate. }
    split; [split; [discriminate|intros V; exfalso; now apply Vb]|]. split; [discriminate|]. intros _. exists []. cbn [corridor last zlen length Z.of_nat]. split; [exact Logic.I|]. split; [lia|].
    split; [cbn; now rewrite Eab|]. split; [split; [discriminate|congruence]|]. split; [split; [discriminate|intros [X _]; congruence]|]. split; reflexivity.
  - destruct (H True (or_introl Logic.I)) as (N & HU). destruct ks as [|k ks]; [congruence|]. inversion Hk; subst. rewrite updates_total in E by assumption. specialize (HU (k + total ks)).
    destruct (UpdateSlicedFindPath rf m x1 (k + total ks)) as [[[x2 st2] d]| | |]; cbn [bind] in E; try discriminate. cbn [fine] in HU.
    destruct HU as (Es2 & _ & l & out & HC & Ho & HFin). destruct (HFin fuel path maxPath Hf Hm) as (x3 & E3). rewrite E3 in E. cbn [bind] in E. apply Ok_inj in E. injection E as <- <- <-.
    assert (Suc : forall s p o, StatusSucceed (flags_of s p o) = true) by (intros [|] [|] [|]; reflexivity).
    split. { split; [intros X; rewrite Suc in X; discriminate|]. intros V. exfalso. unfold InitSlicedFindPath in Ei.
      destruct ((a =? 0) || (b =? 0)); [apply Ok_inj in Ei; injection Ei as <- <-; cbn in Es; discriminate|].
      destruct (valid_total m A a (Run_inv _ _ _ HR)) as [va Va]. destruct (valid_total m A b (Run_inv _ _ _ HR)) as [vb Vb]. rewrite Va, Vb in V. rewrite Va in Ei. cbn [bind] in Ei.
      destruct va; [rewrite Vb in Ei|]; cbn [bind] in Ei; [destruct vb; [destruct V; discriminate|]|]; cbn [negb orb] in Ei; apply Ok_inj in Ei; injection Ei as <- <-; cbn in Es; discriminate. }
    split; [intros X; rewrite Suc in X; discriminate|]. intros _. exists l. rewrite zlen_cons. split; [exact HC|]. split; [reflexivity|]. split; [reflexivity|].
    destruct (Z.eqb_spec (last l a) b) as [EB|NB]; destruct (Z.leb_spec maxPath (1 + zlen l)); destruct out;
      (split; [split; [first [discriminate|intros _; assumption]|first [intros X; congruence|reflexivity]]|split; [split; [first [discriminate|intros _; split; [exact Nab|lia]]|first [reflexivity|intros [_ X]; lia]]|split; reflexivity]]).
Qed.
(** A search that is no longer in progress is final: without OutOfNodes a partial result means
    that no corridor through the filter leads to endRef. *)
Theorem C67_complete : forall fuel rfuel ks path maxPath x1 s1 x2 x3 path' n st, budgets ks -> 0 < maxPath <= zlen path -> (Z.to_nat 65535 <= fuel)%nat ->
  InitSlicedFindPath m x a b pa pb flt options = Ok (x1, s1) -> updates rfuel m x1 ks = Ok x2 -> StatusInProgress (qStatus x2) = false ->
  FinalizeSlicedFindPath fuel rfuel m x2 path maxPath = Ok (x3, path', n, st) ->
  StatusDetail st PartialResult = true -> StatusDetail st OutOfNodes = false ->
  forall l, corridor m flt a l -> last l a <> b.
Proof.
  intros fuel rf ks path maxPath x1 s1 x2 x3 path' n st [Nk Hk] Hm Hf Ei Eu Hend EF HP HO. destruct (run_init rf) as (x1' & s1' & Ei' & H). rewrite Ei in Ei'. apply Ok_inj in Ei'. injection Ei' as <- <-.
  destruct H as [(Es & Hv)|[(Es & Er & Eab)|(Es & Nab & H)]].
  - rewrite idle in Eu by (rewrite Es; reflexivity). apply Ok_inj in Eu. subst x2. unfold FinalizeSlicedFindPath in EF. rewrite Es in EF. destruct (refs_of x1). change (StatusFailed Failure) with true in EF.
    apply Ok_inj in EF. injection EF as _ _ _ <-. discriminate.
  - rewrite idle in Eu by (rewrite Es; reflexivity). apply Ok_inj in Eu. subst x2. unfold FinalizeSlicedFindPath in EF. rewrite Es, Er in EF. change (StatusFailed Success) with false in EF. cbv iota in EF. rewrite Eab, Z.eqb_refl in EF.
    apply bind_ok in EF as (p1 & _ & EF). apply Ok_inj in EF. injection EF as _ _ _ <-. discriminate.
  - destruct (H True (or_introl Logic.I)) as (N & HU). destruct ks as [|k ks]; [congruence|]. inversion Hk; subst. rewrite updates_total in Eu by assumption. specialize (HU (k + total ks)).
    destruct (UpdateSlicedFindPath rf m x1 (k + total ks)) as [[[x2' st2] d]| | |]; cbn [bind] in Eu; try discriminate. apply Ok_inj in Eu. subst x2'. cbn [fine] in HU.
    destruct HU as (Es2 & _ & l & out & HC & Ho & HFin). destruct (HFin fuel path maxPath Hf Hm) as (x3' & E3). rewrite E3 in EF. apply Ok_inj in EF. injection EF as _ _ _ <-.
    assert (O : out = false) by (destruct out; [|reflexivity]; destruct (maxPath <=? zlen (a :: l)), (negb (last l a =? b)); discriminate HO). subst out.
    assert (L : last l a <> b) by (destruct (Z.eqb_spec (last l a) b); [|assumption]; destruct (maxPath <=? zlen (a :: l)); discriminate HP).
    destruct Ho as [Ho|[_ Ho]]; [|now apply Ho]. rewrite Es2, Ho in Hend. discriminate Hend.
Qed.
(** There is a number of iterations after which the search is over; no call runs forever. *)
Theorem C67_ends : forall rfuel, exists N, forall ks, budgets ks ->
  match (let* (x1, _) := InitSlicedFindPath m x a b pa pb flt options in updates rfuel m x1 ks) with
  | Ok x2 => N <= total ks -> StatusInProgress (qStatus x2) = false
  | NoFuel => False
  | _ => True
  end.
Proof.
  intros rf. destruct (run_init rf) as (x1 & s1 & Ei & H). rewrite Ei. cbn [bind].
  destruct H as [(Es & Hv)|[(Es & Er & Eab)|(Es & Nab & H)]].
  - exists 0. intros ks _. rewrite idle by (rewrite Es; reflexivity). intros _. rewrite Es. reflexivity.
  - exists 0. intros ks _. rewrite idle by (rewrite Es; reflexivity). intros _. rewrite Es. reflexivity.
  - destruct (H True (or_introl Logic.I)) as (N & HU). exists N. intros ks [Nk Hk]. destruct ks as [|k ks]; [congruence|]. inversion Hk; subst. rewrite updates_total by assumption. specialize (HU (k + total ks)).
    destruct (UpdateSlicedFindPath rf m x1 (k + total ks)) as [[[x2 st2] d]| | |]; cbn [bind fine] in *; try exact Logic.I; [|destruct HU]. destruct HU as (Es2 & HN & _). intros L. rewrite Es2. now apply HN.
Qed.
(** The calls return, without panic, if moreover the polygons are ordinary ones with existing
    vertices and edges, the filter does not panic and the buffer has room for maxPath entries. *)
Theorem C67_returns : fits m A -> edges_named m -> never_panics flt ->
  forall fuel rfuel ks path maxPath, budgets ks -> 0 < maxPath <= zlen path -> (Z.to_nat 65535 <= fuel)%nat ->
  exists path' n st, sliced_run fuel rfuel m x flt a b pa pb options ks path maxPath = Ok (path', n, st).
Proof.
  intros H1 H2 H3 fuel rf ks path maxPath [Nk Hk] Hm Hf. unfold sliced_run. destruct (run_init rf) as (x1 & s1 & Ei & H). rewrite Ei. cbn [bind].
  destruct H as [(Es & Hv)|[(Es & Er & Eab)|(Es & Nab & H)]].
  - rewrite idle by (rewrite Es; reflexivity). cbn [bind]. unfold FinalizeSlicedFindPath. rewrite Es. destruct (refs_of x1). change (StatusFailed Failure) with true. cbn [bind]. eauto.
  - rewrite idle by (rewrite Es; reflexivity). cbn [bind]. unfold FinalizeSlicedFindPath. rewrite Es, Er. change (StatusFailed Success) with false. cbv iota. rewrite Eab, Z.eqb_refl.
    destruct path as [|r0 path]; [unfold zlen in Hm; cbn in Hm; lia|]. cbn. eauto.
  - destruct (H False (or_intror (conj H1 (conj H2 H3)))) as (N & HU). destruct ks as [|k ks]; [congruence|]. inversion Hk; subst. rewrite updates_total by assumption. specialize (HU (k + total ks)).
    destruct (UpdateSlicedFindPath rf m x1 (k + total ks)) as [[[x2 st2] d]| | |]; cbn [bind fine] in *; try contradiction.
    destruct HU as (_ & _ & l & out & _ & _ & HFin). destruct (HFin fuel path maxPath Hf Hm) as (x3 & ->). cbn [bind]. eauto.
Qed.
End Sliced.

(** The hypotheses hold for the mesh of two tiles; the search is over after four iterations
    (three polygons are expanded, the goal is popped), before that the best path so far is delivered. *)
Example C67_ex : Run sound ex_m2 ex_A /\ fits ex_m2 ex_A /\ small_mesh ex_m2 /\ edges_named ex_m2 /\ fair ex_filter /\ never_panics ex_filter /\
  QueryState (qPool (sl_query 8)) (qOpen (sl_query 8)) /\ finite_pool (qPool (sl_query 8)) /\ finite_pos (fv 0 0 0) /\ finite_pos (fv two 0 one) /\ any_angle 0 = false /\
  (forall ks, In ks [[4]; [1; 3]; [2; 0; 1; 7]] ->
    sliced_run 9 0 ex_m2 (sl_query 8) ex_filter 17 20 (fv 0 0 0) (fv two 0 one) 0 ks (repeat 0 5) 5 = Ok ([17; 16; 21; 20; 0], 4, Success)) /\
  sliced_run 9 0 ex_m2 (sl_query 8) ex_filter 17 20 (fv 0 0 0) (fv two 0 one) 0 [1; 1] (repeat 0 5) 5 = Ok ([17; 16; 21; 0; 0], 3, Z.lor Success PartialResult) /\
  sliced_run 9 0 ex_m2 (sl_query 8) ex_filter 17 20 (fv 0 0 0) (fv two 0 one) 0 [4] (repeat 0 5) 2 = Ok ([17; 16; 0; 0; 0], 2, Z.lor Success BufferTooSmall).
Proof.
  destruct C26_ex as (E1 & E2 & E3 & E4 & E5 & E6 & E7 & E8 & E9 & E10). do 10 (split; [assumption|]). split; [reflexivity|].
  split; [intros ks [<-|[<-|[<-|[]]]]; vm_compute; reflexivity|]. split; vm_compute; reflexivity.
Qed.
(** A query object that was never given a search (or was reset by a delivery, whose deferred reset
    leaves both references 0) reports success with the path [0]. *)
Theorem C67_no_search_refuted : exists m x path, QueryState (qPool x) (qOpen x) /\ forall fuel rfuel maxPath,
  exists x', FinalizeSlicedFindPath fuel rfuel m x path maxPath = Ok (x', 0 :: tl path, 1, Success) /\ IsValidPolyRef m 0 = Ok false.
Proof.
  exists ex_m2, (sl_query 8), [5; 6; 7]. split; [apply sl_state; lia|]. intros fuel rf maxPath. eexists. split; reflexivity.
Qed.

Print Assumptions C27_slices.
Print Assumptions C27_budgets.
Print Assumptions C27_result.
Print Assumptions C27_ray_fields.
Print Assumptions C28_same_path.
Print Assumptions C28_invalid.
Print Assumptions C28_triangle_refuted.
Print Assumptions C28_sides_refuted.
Print Assumptions C67_path.
Print Assumptions C67_complete.
Print Assumptions C67_ends.
Print Assumptions C67_returns.
Print Assumptions C67_no_search_refuted.
