(** C26: FindPath returns. *)
From Coq Require Import ZArith List Bool Lia.
From Coq Require Import Floats.SpecFloat.
From Verif.Base Require Import Res GoNum F32 Num Grid.
From Verif.Model Require Import Status Poly PolyRef MeshTypes Serial Geom MeshLinks MeshTiles Node NodeQueue FindPath.
From Verif.Spec Require Import LinkSpec MeshSpec PathSpec.
From Verif.Proofs Require Import LinkProofs SearchEnd FindPathProofs FindPathEnd MeshInv FitProofs.
From Verif.Properties Require Import ExampleMesh DetourMesh DetourPath.
Import ListNotations.
Open Scope Z_scope.

(** * C26 *)

(** The fuel of the model bounds the loops of the code, so that "for every fuel from some number
    on the result is the same and not NoFuel" says that the code ends. For a mesh made by any
    history of AddTile and RemoveTile, with tile data that is sound and of magnitude at most
    2^100, a filter with costs that are neither negative nor NaN, finite positions and any query
    object: FindPath ends (it may panic). It leaves a query object of the same kind. *)
Theorem C26_terminates : forall m A flt np q a b pa pb path,
  Run sound m A -> small_mesh m -> fair flt -> QueryState np q -> finite_pool np -> finite_pos pa -> finite_pos pb ->
  exists r n0, r <> NoFuel /\ (forall fuel, (n0 <= fuel)%nat -> FindPath fuel m np q flt a b pa pb path = r) /\
    forall np' q' path' n st, r = Ok (np', q', path', n, st) -> QueryState np' q' /\ finite_pool np'.
Proof.
  intros m A flt np q a b pa pb path HR HS HF HQ Hp Ha Hb.
  destruct (FindPath_run True m A flt np q a b pa pb path HR HS HF (or_introl I) (QueryState_ok _ _ HQ) (QueryState_max _ _ HQ) Hp Ha Hb) as (n0 & H).
  remember (FindPath n0 m np q flt a b pa pb path) as r eqn:E. assert (Nr : r <> NoFuel) by (intros ->; exact H).
  exists r, n0. split; [exact Nr|]. split; [intros fuel Hf; now apply (FindPath_more n0 fuel)|].
  intros np' q' path' n st ->. split; [eapply QS_find; [exact HQ|symmetry; exact E]|]. exact H.
Qed.
(** ... and without panic if moreover the polygons are ordinary ones with existing vertices and
    edges and the filter does not panic. *)
Theorem C26_returns : forall m A flt np q a b pa pb path,
  Run sound m A -> fits m A -> small_mesh m -> edges_named m -> fair flt -> never_panics flt ->
  QueryState np q -> finite_pool np -> finite_pos pa -> finite_pos pb ->
  exists out n0, forall fuel, (n0 <= fuel)%nat -> FindPath fuel m np q flt a b pa pb path = Ok out.
Proof.
  intros m A flt np q a b pa pb path HR HFi HS HE HF HN HQ Hp Ha Hb.
  destruct (FindPath_run False m A flt np q a b pa pb path HR HS HF (or_intror (conj HFi (conj HE HN))) (QueryState_ok _ _ HQ) (QueryState_max _ _ HQ) Hp Ha Hb) as (n0 & H).
  destruct (FindPath n0 m np q flt a b pa pb path) as [out| | |] eqn:E; cbn [fine] in H; try contradiction.
  exists out, n0. intros fuel Hf. apply (FindPath_more n0 fuel); [exact Hf|exact E|discriminate].
Qed.
(** The standard filter qualifies if its 64 area costs are positive and finite (by default they
    are 1), a new query object does. *)
Theorem C26_standard_filter : forall qf, length (areaCost qf) = 64%nat ->
  Forall (fun c => finite32 c /\ F32.flt f0 c = true) (areaCost qf) -> fair (standard qf) /\ never_panics (standard qf).
Proof. intros qf H1 H2. split; [now apply standard_fair|now apply standard_total]. Qed.
Theorem C26_new_query : forall n np q, 4 <= n -> NewNavMeshQuery n = Ok (Some (np, q)) -> QueryState np q /\ finite_pool np.
Proof. intros n np q H E. split; [exact (QS_new n np q H E)|]. now apply (new_query_finite n np q). Qed.

(** ** Examples: the mesh of two tiles *)
Lemma ex_filter_fair : fair ex_filter /\ never_panics ex_filter.
Proof.
  apply C26_standard_filter; [reflexivity|]. apply Forall_forall. intros c Hc. apply repeat_spec in Hc. subst c.
  split; [split; [reflexivity|exact I]|reflexivity].
Qed.
Lemma ex_small : small_mesh ex_m2.
Proof.
  intros i t h Ht Hh. unfold ex_m2 in Ht. cbn [mTiles] in Ht.
  assert (B : Forall (fun t => tHeader t = None \/ forallb (fun b => fle (fabs (f_of_bits b)) (f_of_Z (2 ^ 100))) (tdVerts (tD t)) &&
    forallb (fun l => (0 <=? lBMin l) && (lBMin l <? 256) && (0 <=? lBMax l) && (lBMax l <? 256)) (tdLinks (tD t)) = true) (mTiles ex_m2)).
  { repeat (constructor; [first [right; vm_compute; reflexivity|left; reflexivity]|]). constructor. }
  rewrite Forall_forall in B. destruct (B t) as [X|X]; [eapply nth_error_In; exact Ht|congruence|]. apply andb_true_iff in X as [X1 X2]. rewrite forallb_forall in X1, X2.
  split; apply Forall_forall; [exact X1|]. intros l Hl. specialize (X2 l Hl). rewrite !andb_true_iff in X2. destruct X2 as [[[Y1 Y2] Y3] Y4].
  apply Z.leb_le in Y1, Y3. apply Z.ltb_lt in Y2, Y4. unfold is_u8. lia.
Qed.
Fixpoint chain_of (n : nat) (L : list Link) (i : Z) : list (Z * payload) :=
  match n with
  | O => []
  | S n => if i =? nullLink then [] else match get L i with Ok l => (i, pay l) :: chain_of n L (lNext l) | _ => [] end
  end.
Lemma chain_of_ok : forall L i c, LChain L i c -> forall n, (length c < n)%nat -> chain_of n L i = c.
Proof.
  intros L i c H. unfold LChain in H. remember nullLink as e eqn:E.
  induction H as [i|i l c e Hs Hg H IH]; intros n Hn; subst; (destruct n as [|n]; [cbn in Hn; lia|]); cbn [chain_of].
  - now rewrite Z.eqb_refl.
  - rewrite (proj2 (Z.eqb_neq _ _) Hs), Hg. f_equal. apply IH; [reflexivity|]. cbn in Hn. lia.
Qed.
Lemma ex_edges : edges_named ex_m2.
Proof.
  intros i t h p Ht Hh Hp.
  assert (B : Forall (fun t => tHeader t = None \/ forallb (fun p => negb (Type_ p =? polyTypeOffMeshConnection) &&
    forallb (fun x => let '(_, (_, e, _, _, _)) := x in (0 <=? e) && (e <? pVertCount p)) (chain_of (S (length (tdLinks (tD t)))) (tdLinks (tD t)) (pFirstLink p))) (tdPolys (tD t)) = true) (mTiles ex_m2)).
  { repeat (constructor; [first [right; vm_compute; reflexivity|left; reflexivity]|]). constructor. }
  rewrite Forall_forall in B. destruct (B t) as [X|X]; [eapply nth_error_In; exact Ht|congruence|]. rewrite forallb_forall in X. specialize (X p Hp).
  apply andb_true_iff in X as [X1 X2]. apply negb_true_iff, Z.eqb_neq in X1. split; [exact X1|]. intros c r edge side bmin bmax s HC Hin.
  pose proof (SearchStep.LChain_short _ _ _ HC). rewrite (chain_of_ok _ _ _ HC) in X2 by lia. rewrite forallb_forall in X2. specialize (X2 _ Hin). cbv beta iota in X2.
  apply andb_true_iff in X2 as [Y1 Y2]. apply Z.leb_le in Y1. apply Z.ltb_lt in Y2. lia.
Qed.
Lemma fv_finite : forall x y z, finite32 (f_of_bits x) -> finite32 (f_of_bits y) -> finite32 (f_of_bits z) -> finite_pos (fv x y z).
Proof. intros x y z H1 H2 H3. split; [|split]; assumption. Qed.
Example C26_ex : Run sound ex_m2 ex_A /\ fits ex_m2 ex_A /\ small_mesh ex_m2 /\ edges_named ex_m2 /\ fair ex_filter /\ never_panics ex_filter /\
  QueryState (fst (ex_query 8)) (snd (ex_query 8)) /\ finite_pool (fst (ex_query 8)) /\ finite_pos (fv 0 0 0) /\ finite_pos (fv two 0 one).
Proof.
  split; [exact ex_run_sound|]. split; [exact (MeshHist.Run_fits _ _ ex_run_fits)|]. split; [exact ex_small|]. split; [exact ex_edges|]. split; [apply ex_filter_fair|].
  split; [apply ex_filter_fair|]. split; [apply ex_state; lia|]. split; [|split; (apply fv_finite; (split; [reflexivity|exact I]))].
  intros n Hn. assert (E : np_nodes (fst (ex_query 8)) = repeat newNode 8) by (vm_compute; reflexivity). rewrite E in Hn. apply repeat_spec in Hn. subst n.
  split; [|split]; (split; [reflexivity|exact I]).
Qed.

(** ** Other costs *)

(** Three triangles around a point and a fourth one away from them. *)
Definition wh_td : TileData :=
  mkTD [one; 0; one; 0; 0; 0; two; 0; 0; one; 0; two]
       [ex_tri [0; 1; 2] [3; 0; 2]; ex_tri [0; 2; 3] [1; 0; 3]; ex_tri [0; 3; 1] [2; 0; 1]; ex_tri [0; 1; 2] [0; 0; 0]]
       (repeat (mkLink 0 0 0 0 0 0) 6) [] [] [] [] [].
Definition wh_head : MeshHeader :=
  mkHeader navMeshMagic navMeshVersion 0 0 0 9 4 4 6 0 0 0 0 0 4 two 0 one (0, 0, 0) (two, one, two) one.
Definition wh_data : list Z :=
  ok_or [] (let* b := header_serialize (repeat 0 100) wh_head in let* r := serializeTileData (repeat 0 400) wh_td in Ok (b ++ r)).
Definition wh_m : NavMesh := Eval vm_compute in fst (fst (ok_or (no_mesh, 0, 0) (AddTile ex_m0 wh_data 0))).
Definition wh_find (fuel : nat) (c : f32) : res (NodePool * nodeQueue * list Z * Z * Z) :=
  FindPath fuel wh_m (fst (ex_query 8)) (snd (ex_query 8)) (standard (mkFilter (repeat c 64) 1 0)) 16 19 (fv one 0 0) (fv two 0 one) (repeat 0 8).
Definition wh_start : Search :=
  ok_or (mkSearch (fst (ex_query 8)) (snd (ex_query 8)) 0 f0 false) (start_search (fst (ex_query 8)) (snd (ex_query 8)) 16 (fv one 0 0) (fv two 0 one)).
Definition wh_loop (fuel : nat) (c : f32) (s : Search) : res Search :=
  search_loop fuel wh_m (standard (mkFilter (repeat c 64) 1 0)) 19 (fv two 0 one) s.
Definition wh_rest (s : Search) : res (NodePool * nodeQueue * list Z * Z * Z) :=
  let* (path, count, st) := pathToNode (sPool s) (sBest s) (repeat 0 8) in
  let* last := get (np_nodes (sPool s)) (sBest s) in
  let st := if nID last =? 19 then st else Z.lor st PartialResult in
  let st := if sOut s then Z.lor st OutOfNodes else st in
  Ok (sPool s, sOpen s, path, count, st).
Lemma wh_find_eq : forall fuel c, wh_find fuel c = bind (wh_loop fuel c wh_start) wh_rest.
Proof.
  intros fuel c. unfold wh_find, FindPath, wh_loop. assert (E1 : IsValidPolyRef wh_m 16 = Ok true) by (vm_compute; reflexivity). assert (E2 : IsValidPolyRef wh_m 19 = Ok true) by (vm_compute; reflexivity).
  rewrite E1. cbn [bind]. rewrite E2. cbn [bind negb orb]. change (zlen (repeat 0 8) =? 0) with false. change (16 =? 19) with false. cbv iota.
  assert (Es : start_search (fst (ex_query 8)) (snd (ex_query 8)) 16 (fv one 0 0) (fv two 0 one) = Ok wh_start) by (vm_compute; reflexivity).
  rewrite Es. cbn [bind]. reflexivity.
Qed.
Lemma wh_ok : AddTile ex_m0 wh_data 0 = Ok (wh_m, Success, 16).
Proof. vm_compute. reflexivity. Qed.

Definition neg : f32 := Eval vm_compute in f_of_Z (-3 * 10 ^ 38).
Definition neg_s : Search := Eval vm_compute in ok_or wh_start (wh_loop 30 neg wh_start).
Lemma neg_end : exists s, search_loop 30 wh_m (standard (mkFilter (repeat neg 64) 1 0)) 19 (fv two 0 one) wh_start = Ok s /\ wh_rest s = NoFuel.
Proof. exists neg_s. split; vm_compute; reflexivity. Qed.
(** With an area cost of -3e38 the parents of the nodes form a cycle and pathToNode does not end. *)
Theorem C26_negative_costs_refuted : exists m qf np q a b pa pb path,
  QueryState np q /\ finite_pool np /\ finite_pos pa /\ finite_pos pb /\ Forall finite32 (areaCost qf) /\
  IsValidPolyRef m a = Ok true /\ IsValidPolyRef m b = Ok true /\
  forall fuel, FindPath fuel m np q (standard qf) a b pa pb path = NoFuel.
Proof.
  exists wh_m, (mkFilter (repeat neg 64) 1 0), (fst (ex_query 8)), (snd (ex_query 8)), 16, 19, (fv one 0 0), (fv two 0 one), (repeat 0 8).
  destruct C26_ex as (_ & _ & _ & _ & _ & _ & HQ & HP & _). split; [exact HQ|]. split; [exact HP|].
  split; [apply fv_finite; (split; [reflexivity|exact I])|]. split; [apply fv_finite; (split; [reflexivity|exact I])|].
  split; [apply Forall_forall; intros c Hc; apply repeat_spec in Hc; subst c; split; [vm_compute; reflexivity|exact I]|].
  split; [vm_compute; reflexivity|]. split; [vm_compute; reflexivity|]. intros fuel.
  change (wh_find fuel neg = NoFuel). rewrite wh_find_eq.
  destruct (Nat.le_gt_cases 30 fuel) as [L|L].
  - unfold wh_loop. destruct neg_end as (s & E1 & E2). rewrite (search_loop_more _ _ _ _ 30 fuel _ _ L E1) by discriminate. exact E2.
  - destruct (wh_loop fuel neg wh_start) as [s| | |] eqn:E; [|exfalso|exfalso|reflexivity].
    + destruct neg_end as (s' & E1 & E2). unfold wh_loop in E. rewrite (search_loop_more _ _ _ _ fuel 30 _ _ ltac:(lia) E) in E1 by discriminate. apply Ok_inj in E1. subst s'. exact E2.
    + destruct neg_end as (s' & E1 & E2). unfold wh_loop in E. rewrite (search_loop_more _ _ _ _ fuel 30 _ _ ltac:(lia) E) in E1 by discriminate. discriminate E1.
    + destruct neg_end as (s' & E1 & E2). unfold wh_loop in E. rewrite (search_loop_more _ _ _ _ fuel 30 _ _ ltac:(lia) E) in E1 by discriminate. discriminate E1.
Qed.

(** Laps of the main loop that neither empty the open list nor reach the goal. *)
Fixpoint laps (k : nat) (c : f32) (s : Search) : res Search :=
  match k with
  | O => Ok s
  | S k => if q_empty (sOpen s) then Panic else
      let* (s, b) := pop_best s in
      let* best := get (np_nodes (sPool s)) b in
      if nID best =? 19 then Panic else
      let* s := expand wh_m (standard (mkFilter (repeat c 64) 1 0)) 19 (fv two 0 one) s b in laps k c s
  end.
Lemma laps_loop : forall k c s s', laps k c s = Ok s' ->
  forall fuel, wh_loop fuel c s = if (fuel <? k)%nat then NoFuel else wh_loop (fuel - k) c s'.
Proof.
  induction k as [|k IH]; intros c s s' E fuel; cbn [laps] in E.
  - apply Ok_inj in E. subst s'. now rewrite Nat.sub_0_r.
  - destruct (q_empty (sOpen s)) eqn:Q; [discriminate|]. destruct fuel as [|f]; unfold wh_loop; cbn [search_loop]; rewrite Q; [reflexivity|].
    destruct (pop_best s) as [[s1 b]| | |]; cbn [bind] in *; try discriminate. destruct (get (np_nodes (sPool s1)) b) as [n| | |]; cbn [bind] in *; try discriminate.
    destruct (nID n =? 19); [discriminate|]. destruct (expand wh_m _ 19 _ s1 b) as [s2| | |]; cbn [bind] in *; try discriminate.
    fold (wh_loop f c s2). rewrite (IH c s2 s' E f). reflexivity.
Qed.
Definition nan_s : Search := Eval vm_compute in ok_or wh_start (laps 6 S754_nan wh_start).
Lemma nan_laps : laps 6 S754_nan wh_start = Ok nan_s /\ laps 3 S754_nan nan_s = Ok nan_s.
Proof. split; vm_compute; reflexivity. Qed.
Lemma nan_loop : forall n fuel, (fuel <= n)%nat -> wh_loop fuel S754_nan nan_s = NoFuel.
Proof.
  induction n as [|n IH]; intros fuel L; rewrite (laps_loop 3 _ _ _ (proj2 nan_laps)); destruct (Nat.ltb_spec fuel 3); try reflexivity; [lia|]. apply IH. lia.
Qed.
(** With a NaN as area cost the three nodes are opened again and again. *)
Theorem C26_nan_costs_refuted : exists m qf np q a b pa pb path,
  QueryState np q /\ finite_pool np /\ finite_pos pa /\ finite_pos pb /\
  IsValidPolyRef m a = Ok true /\ IsValidPolyRef m b = Ok true /\
  forall fuel, FindPath fuel m np q (standard qf) a b pa pb path = NoFuel.
Proof.
  exists wh_m, (mkFilter (repeat S754_nan 64) 1 0), (fst (ex_query 8)), (snd (ex_query 8)), 16, 19, (fv one 0 0), (fv two 0 one), (repeat 0 8).
  destruct C26_ex as (_ & _ & _ & _ & _ & _ & HQ & HP & _). split; [exact HQ|]. split; [exact HP|].
  split; [apply fv_finite; (split; [reflexivity|exact I])|]. split; [apply fv_finite; (split; [reflexivity|exact I])|].
  split; [vm_compute; reflexivity|]. split; [vm_compute; reflexivity|]. intros fuel.
  change (wh_find fuel S754_nan = NoFuel). rewrite wh_find_eq, (laps_loop 6 _ _ _ (proj1 nan_laps)).
  destruct (fuel <? 6)%nat; [reflexivity|]. now rewrite (nan_loop _ _ (le_n _)).
Qed.

Print Assumptions C26_terminates.
Print Assumptions C26_returns.
Print Assumptions C26_standard_filter.
Print Assumptions C26_new_query.
Print Assumptions C26_negative_costs_refuted.
Print Assumptions C26_nan_costs_refuted.
