(** Removing vertices from the polygon mesh (C72) and the mesh of contours with marked vertices (C73). *)
From Coq Require Import ZArith List Bool Lia Permutation.
From Verif.Base Require Import Res GoNum Grid.
From Verif.Model Require Import Heightfield Contour Triangulate PolyMeshOps BuildMesh.
From Verif.Spec Require Import AreaSpec MeshOpsSpec BuildSpec.
From Verif.Proofs Require Import MergeLoop BuildProofs BuildTop RemoveProofs RemoveVertex BuildAll.
Import ListNotations.
Open Scope Z_scope.

(** ** C72: removing a vertex *)

(** canRemoveVertex never fails. It says yes when more than two edges of the polygons at the
    vertex remain and at most two vertices are joined to it by one edge only. *)
Theorem C72_can : forall nvp cap V Q m rem, 0 <= nvp -> zlen V <= 65535 -> Forall (proper nvp (zlen V)) Q -> holdsPM nvp cap V Q m ->
  exists b, canRemoveVertex nvp m rem = Ok b /\ (b = true <-> removable rem (map fst Q)).
Proof.
  intros nvp cap V Q [mv mn mp] rem H0 HV HP (_ & _ & _ & E). cbn [pmPolys] in E. change (mp = map (rowOf nvp) Q) in E. subst mp.
  rewrite (can_ok nvp (zlen V)); [|exact H0|exact HV|].
  - eexists. split; [reflexivity|]. unfold removable. rewrite andb_true_iff, Z.ltb_lt, Nat.leb_le. reflexivity.
  - eapply Forall_impl; [|exact HP]. intros q (A & B & _). split; assumption.
Qed.

(** removeVertex drops the polygons [R] at the vertex and keeps the others, [K], with the higher
    vertices renumbered. The edges of [R] away from the vertex give a walk [hole]; unless it has
    just two vertices, removeVertex succeeds, the vertex is gone from the list, and new polygons
    fill the hole (as [patched] and [filled] say). With two it panics. *)
Theorem C72_removes : forall nvp maxT cap V Q m rem,
  3 <= nvp -> zlen V <= 21845 -> zlen Q * nvp <= 65535 -> Forall (proper nvp (zlen V)) Q -> 0 <= rem < zlen V -> holdsPM nvp cap V Q m ->
  exists R K hole, torn rem Q R K hole /\
    ((hole = [] \/ (3 <= length hole)%nat) -> exists m' Q', removeVertex nvp maxT m rem = Ok m' /\
       holdsPM nvp cap (without rem V) Q' m' /\ patched nvp maxT rem (without rem V) R K hole Q' /\ Forall (proper nvp (zlen V - 1)) Q') /\
    (length hole = 2%nat -> removeVertex nvp maxT m rem = Panic).
Proof.
  intros nvp maxT cap V Q m rem Hn HV HQ HP Hr HH. destruct (remove_ok nvp maxT cap V Q m rem Hn HV HQ HP Hr HH) as (R & K & hole & T & A & B).
  exists R, K, hole. split; [exact T|]. split; [|exact B]. intros H. destruct (A H) as (m' & Q' & E & HM & PA & PR & _). exists m', Q'. auto.
Qed.

Lemma hole_edges_perm : forall rem R R', Permutation R R' -> Permutation (hole_edges rem R) (hole_edges rem R').
Proof. intros rem R R' H. unfold hole_edges. apply Permutation_map. now apply Permutation_flat_map. Qed.
Lemma torn_filter : forall rem Q R K hole, torn rem Q R K hole -> Permutation (map fst R) (filter (existsb (Z.eqb rem)) (map fst Q)).
Proof.
  intros rem Q R K hole (P & HR & HK & _).
  assert (forall q : list Z * (Z * Z), existsb (Z.eqb rem) (fst q) = true <-> In rem (fst q)) as IFF.
  { intros q. rewrite existsb_exists. split; [intros (x & Hx & E); apply Z.eqb_eq in E; now subst|]. intros I. exists rem. split; [exact I|apply Z.eqb_refl]. }
  assert (filter (existsb (Z.eqb rem)) (map fst Q) = map fst (filter (fun q => existsb (Z.eqb rem) (fst q)) Q)) as ->.
  { clear. induction Q as [|q Q IH]; [reflexivity|]. cbn. destruct (existsb (Z.eqb rem) (fst q)); cbn; now rewrite IH. }
  apply Permutation_map.
  assert (filter (fun q : list Z * (Z * Z) => existsb (Z.eqb rem) (fst q)) (R ++ K) = R) as <-.
  { rewrite filter_app. clear - HR HK IFF. replace (filter (fun q : list Z * (Z * Z) => existsb (Z.eqb rem) (fst q)) K) with (@nil (list Z * (Z * Z))).
    - rewrite app_nil_r. induction HR as [|q R Hq HR IH]; [reflexivity|]. cbn. rewrite (proj2 (IFF q) Hq). now rewrite IH.
    - induction HK as [|q K Hq HK IH]; [reflexivity|]. cbn. destruct (existsb (Z.eqb rem) (fst q)) eqn:E; [now apply IFF in E|exact IH]. }
  apply Permutation_sym in P. revert P. generalize (R ++ K) as L. clear. intros L P.
  induction P as [|x l l' P IH|x y l|l l1 l2 P1 IH1 P2 IH2]; cbn; [constructor| | |eapply perm_trans; eassumption].
  - destruct (existsb _ (fst x)); [now constructor|exact IH].
  - destruct (existsb _ (fst x)), (existsb _ (fst y)); try apply Permutation_refl. apply perm_swap.
Qed.
(** If these edges form one chain [p] of different vertices, as around a vertex on the outline of
    the mesh, then the hole is [p], whatever the order of the polygons; so the new polygons fill it. *)
Theorem C72_chain : forall nvp maxT cap V Q m rem p,
  3 <= nvp -> zlen V <= 21845 -> zlen Q * nvp <= 65535 -> Forall (proper nvp (zlen V)) Q -> 0 <= rem < zlen V -> holdsPM nvp cap V Q m ->
  Permutation (hole_edges rem (filter (existsb (Z.eqb rem)) (map fst Q))) (steps p) -> NoDup p -> (3 <= length p)%nat ->
  exists R K m' Q', torn rem Q R K p /\ removeVertex nvp maxT m rem = Ok m' /\
    holdsPM nvp cap (without rem V) Q' m' /\ patched nvp maxT rem (without rem V) R K p Q'.
Proof.
  intros nvp maxT cap V Q m rem p Hn HV HQ HP Hr HH HE N L. destruct (C72_removes nvp maxT cap V Q m rem Hn HV HQ HP Hr HH) as (R & K & hole & T & A & _).
  assert (hole = p) as ->.
  { eapply walk_chain; [exact N|lia| |exact (proj2 (proj2 (proj2 T)))]. eapply perm_trans; [|exact HE]. apply hole_edges_perm. exact (torn_filter _ _ _ _ _ T). }
  destruct A as (m' & Q' & E & HM & PA & _); [now right|]. exists R, K, m', Q'. auto.
Qed.

(** Two squares side by side, and the middle vertex below. *)
Definition exSV : list vert := [(0, 0, 0); (0, 0, 10); (5, 0, 10); (5, 0, 0); (10, 0, 10); (10, 0, 0)].
Definition exSQ : list (list Z * (Z * Z)) := [([0; 1; 2; 3], (1, 7)); ([3; 2; 4; 5], (1, 7))].
Definition exSM : PMesh := mkPMesh (flatten exSV) 6 (map (fun q => (fst q ++ [65535; 65535], snd q)) exSQ).
Example C72_hypotheses : holdsPM 6 6 exSV exSQ exSM /\ Forall (proper 6 (zlen exSV)) exSQ /\ removable 3 (map fst exSQ) /\
  Permutation (hole_edges 3 (filter (existsb (Z.eqb 3)) (map fst exSQ))) (steps [0; 1; 2; 3; 4]).
Proof.
  split; [repeat split; reflexivity|]. split; [unfold proper; cbn; repeat (constructor; cbn); lia|].
  split; [vm_compute; split; [reflexivity|lia]|]. vm_compute. apply Permutation_refl.
Qed.
(** Vertices 4 and 5 become 3 and 4. *)
Example C72_example : canRemoveVertex 6 exSM 3 = Ok true /\
  exists m', removeVertex 6 4 exSM 3 = Ok m' /\ pmNVerts m' = 5 /\ map fst (pmPolys m') = [[0; 1; 2; 4; 65535; 65535]; [2; 3; 4; 65535; 65535; 65535]].
Proof. split; [reflexivity|]. eexists. split; [vm_compute; reflexivity|]. split; reflexivity. Qed.

(** The test is no guarantee: two polygons that overlap pass it, and removeVertex panics. *)
Theorem C72_no_panic_refuted : exists nvp maxT cap V Q m rem, 3 <= nvp /\ holdsPM nvp cap V Q m /\ Forall (proper nvp (zlen V)) Q /\
  Forall (fun q => NoDup (fst q)) Q /\ canRemoveVertex nvp m rem = Ok true /\ removeVertex nvp maxT m rem = Panic.
Proof.
  exists 6, 10, 5, [(0, 0, 0); (5, 0, 0); (0, 0, 5); (10, 0, 10); (5, 0, 20)], [([0; 1; 2], (1, 1)); ([0; 1; 3; 4], (1, 1))],
    (mkPMesh [0; 0; 0; 5; 0; 0; 0; 0; 5; 10; 0; 10; 5; 0; 20] 5 [([0; 1; 2; 65535; 65535; 65535], (1, 1)); ([0; 1; 3; 4; 65535; 65535], (1, 1))]), 0.
  split; [lia|]. split; [repeat split; reflexivity|]. split; [unfold proper; cbn; repeat (constructor; cbn); lia|].
  split; [cbn; repeat (constructor; cbn; try intuition lia)|]. split; vm_compute; reflexivity.
Qed.

(** ** C73: the mesh of contours with marked vertices *)

(** For all contours whose edges fit 16 bits, marked or not: let [Q] and [V] be the polygons and
    vertices that fill the contours (as in C71). Then the marked vertices that pass the test are
    removed one after the other ([trimmed]), always with polygons of 3 to [nvp] vertices of the mesh
    ([proper]). Either this goes through to the last vertex, and
    BuildPolyMesh returns the mesh that remains, connected; or a hole has just two vertices, and
    BuildPolyMesh panics. *)
Theorem C73_builds : forall nvp borderSize w h cs, 3 <= nvp -> total cs * nvp <= 65535 -> Forall typed cs ->
  exists V Q V' F' Q' j, built nvp [] cs Q V /\ trimmed nvp (tris cs) 0 V (marks cs (length V)) Q V' F' Q' j /\ Forall (proper nvp (Z.of_nat (length V'))) Q' /\ Z.of_nat (length Q') <= total cs /\
    ((exists m, BuildPolyMesh nvp borderSize w h cs = Ok (Some m) /\ holdsMesh (total cs) nvp borderSize w h V' Q' m /\ j = length V') \/
     (BuildPolyMesh nvp borderSize w h cs = Panic /\ nth_error F' j = Some true /\ removable (Z.of_nat j) (map fst Q') /\
      exists R K hole, torn (Z.of_nat j) Q' R K hole /\ length hole = 2%nat)).
Proof. exact build_all. Qed.

(** Vertices without a mark are all kept, in order; no vertex is new. *)
Theorem C73_keeps : forall nvp maxT i V F Q V' F' Q' j, trimmed nvp maxT i V F Q V' F' Q' j -> length V = length F ->
  filter (fun p => negb (snd p)) (combine V' F') = filter (fun p => negb (snd p)) (combine V F) /\ incl V' V.
Proof. intros. now apply (trimmed_keeps nvp maxT i V F Q V' F' Q' j). Qed.

(** Areas are those of the polygons before; so are regions, except that 0 can appear. *)
Theorem C73_origin : forall nvp maxT i V F Q V' F' Q' j, trimmed nvp maxT i V F Q V' F' Q' j ->
  incl (map (fun q => snd (snd q)) Q') (map (fun q => snd (snd q)) Q) /\
  incl (map (fun q => fst (snd q)) Q') (0 :: map (fun q => fst (snd q)) Q).
Proof. exact trimmed_origin. Qed.

Definition exW (x z r : Z) : Vert := mkVert x 0 z r.
Definition exC (l : list Vert) (reg : Z) : Contour := mkContour l [] reg 7.
(** The two squares, regions 1 and 2, middle vertex marked in both. *)
Definition exSquares : list Contour :=
  [exC [exW 0 0 0; exW 0 10 0; exW 5 10 0; exW 5 0 65536] 1; exC [exW 5 0 65536; exW 5 10 0; exW 10 10 0; exW 10 0 0] 2].
Example C73_hypotheses : total exSquares * 6 <= 65535 /\ Forall typed exSquares /\ marks exSquares 6 = [false; false; false; true; false; false].
Proof. split; [vm_compute; discriminate|]. split; [unfold typed; cbn; repeat (constructor; cbn); lia|reflexivity]. Qed.
Example C73_result : exists m, BuildPolyMesh 6 1 10 10 exSquares = Ok (Some m) /\ mNVerts m = 5 /\ mRegs m = [0; 0] /\ mAreas m = [7; 7] /\
  mPolys m = [0; 1; 2; 4; 65535; 65535;       32768; 32769; 1; 32771; 65535; 65535;
              2; 3; 4; 65535; 65535; 65535;   32769; 32770; 0; 65535; 65535; 65535].
Proof. eexists. split; [vm_compute; reflexivity|]. repeat split. Qed.

(** BuildPolyMesh can panic: two contours that overlap, on a vertex to be removed. *)
Theorem C73_no_panic_refuted : exists nvp borderSize w h cs, 3 <= nvp /\ total cs * nvp <= 65535 /\ Forall typed cs /\
  BuildPolyMesh nvp borderSize w h cs = Panic.
Proof.
  exists 6, 0, 20, 20, [exC [exW 5 0 65536; exW 5 10 0; exW 10 10 0] 1; exC [exW 5 0 65536; exW 5 10 0; exW 12 10 0; exW 12 0 0] 1].
  split; [lia|]. split; [vm_compute; discriminate|]. split; [unfold typed; cbn; repeat (constructor; cbn); lia|]. vm_compute. reflexivity.
Qed.

(** Around a vertex inside the mesh the walk closes, and its first vertex is in it twice: here,
    four triangles that fill a square become a polygon and a flat one, 3-1-3. *)
Definition exInner : list Contour :=
  [exC [exW 0 0 0; exW 0 10 0; exW 5 5 65536] 1; exC [exW 0 10 0; exW 10 10 0; exW 5 5 65536] 1;
   exC [exW 10 10 0; exW 10 0 0; exW 5 5 65536] 1; exC [exW 10 0 0; exW 0 0 0; exW 5 5 65536] 1].
Theorem C73_distinct_refuted : exists nvp borderSize w h cs m, 3 <= nvp /\ total cs * nvp <= 65535 /\ Forall typed cs /\
  Forall (fun c => NoDup (points c)) cs /\ BuildPolyMesh nvp borderSize w h cs = Ok (Some m) /\
  mNPolys m = 2 /\ firstn 6 (skipn 12 (mPolys m)) = [3; 1; 3; 65535; 65535; 65535].
Proof.
  exists 6, 1, 10, 10, exInner. eexists. split; [lia|]. split; [vm_compute; discriminate|]. split; [unfold typed; cbn; repeat (constructor; cbn); lia|].
  split; [|split; [vm_compute; reflexivity|split; reflexivity]].
  unfold exInner. repeat constructor; cbn; intuition discriminate.
Qed.

Print Assumptions C72_can.
Print Assumptions C72_removes.
Print Assumptions C72_chain.
Print Assumptions C72_no_panic_refuted.
Print Assumptions C73_builds.
Print Assumptions C73_keeps.
Print Assumptions C73_origin.
Print Assumptions C73_no_panic_refuted.
Print Assumptions C73_distinct_refuted.
