(** Building the polygon mesh from contours (C71). *)
From Coq Require Import ZArith List Bool Lia.
From Verif.Base Require Import Res GoNum Grid.
From Verif.Model Require Import Heightfield Contour Triangulate PolyMeshOps BuildMesh.
From Verif.Spec Require Import AreaSpec MeshOpsSpec BuildSpec.
From Verif.Proofs Require Import BuildProofs BuildTop.
Import ListNotations.
Open Scope Z_scope.

(** ** C71: the mesh fills the contours *)

(** For every list of contours without vertices to be removed, of any shapes, as long as all
    their edges fit the 16 bit numbers of the adjacency tables: BuildPolyMesh returns a mesh. Its
    vertices are those of the contours of at least three vertices, welded in order; its polygons
    fill these contours, one after the other; and its table names neighbours and portals as
    [connected] says. No two polygons of a contour can be merged any more. (See BuildSpec for [built], [filled], [connected], [holdsMesh].) *)
Theorem C71_fills : forall nvp borderSize w h cs,
  3 <= nvp -> total cs * nvp <= 65535 -> Forall unmarked cs ->
  exists m V Q, BuildPolyMesh nvp borderSize w h cs = Ok (Some m) /\
    built nvp [] cs Q V /\ holdsMesh (total cs) nvp borderSize w h V Q m.
Proof. exact build_ok. Qed.

(** With 65534 vertices or more it returns false. *)
Theorem C71_too_many : forall nvp borderSize w h cs, 65534 <= total cs -> BuildPolyMesh nvp borderSize w h cs = Ok None.
Proof. exact build_too_many. Qed.

(** Every polygon belongs to one contour, with its region and area, and takes its vertices from
    the points of that contour (up to a difference in height of at most 2). *)
Theorem C71_origin : forall nvp V cs Q V', built nvp V cs Q V' ->
  forall l reg ar, In (l, (reg, ar)) Q -> exists c, In c cs /\ reg = ctReg c /\ ar = ctArea c /\ 3 <= Z.of_nat (length l) <= nvp /\
    forall v, In v l -> exists p q, In p (points c) /\ nth_error V' (Z.to_nat v) = Some q /\ near q p = true.
Proof.
  induction 1 as [V|V c cs Q V' Hn Hb IH|V c cs ids V1 G Q V' Hn Hw Hf Hb IH]; intros l reg ar Hin.
  - destruct Hin.
  - destruct (IH l reg ar Hin) as (c' & Hc & R). exists c'. split; [now right|exact R].
  - apply in_app_iff in Hin. destruct Hin as [Hin|Hin].
    2:{ destruct (IH l reg ar Hin) as (c' & Hc & R). exists c'. split; [now right|exact R]. }
    apply in_map_iff in Hin. destruct Hin as (l' & E & Hl). inversion E; subst l' reg ar. exists c. split; [now left|]. split; [reflexivity|]. split; [reflexivity|].
    destruct Hf as (ts & left & _ & _ & _ & F & _). rewrite Forall_forall in F. destruct (F l Hl) as [L I]. split; [exact L|].
    intros v Hv. apply I in Hv. apply in_map_iff in Hv. destruct Hv as (i & <- & Hi). rewrite Nat2Z.id.
    pose proof (WeldProofs.welded_sound (points c) V) as S. rewrite Hw in S.
    assert (exists W, V' = V1 ++ W) as (W & EW).
    { clear - Hb. induction Hb as [V|V c cs Q V' Hn Hb IH|V c cs ids V1 G Q V' Hn Hw Hf Hb IH]; [exists []; now rewrite app_nil_r|exact IH|].
      destruct IH as (W & ->). destruct (WeldProofs.welded_prefix (points c) V) as (W1 & E1). rewrite Hw in E1. cbn [snd] in E1. subst V1.
      exists (W1 ++ W). now rewrite app_assoc. }
    clear - S Hi EW. revert Hi. induction S as [|p k ps is (q & Hq & Hn) S IHS]; intros Hi; [destruct Hi|].
    destruct Hi as [->|Hi].
    + exists p, q. split; [now left|]. split; [|exact Hn]. rewrite EW, nth_error_app1; [exact Hq|]. apply nth_error_Some. congruence.
    + destruct (IHS Hi) as (p' & q' & Hp & R). exists p', q'. split; [now right|exact R].
Qed.

(** A square and, to its right, a pentagon with a notch: regions 1 and 2. *)
Definition exV (x z r : Z) : Vert := mkVert x 0 z r.
Definition exTwo : list Contour :=
  [mkContour [exV 0 0 0; exV 0 10 0; exV 10 10 0; exV 10 0 0] [] 1 7;
   mkContour [exV 10 0 0; exV 10 10 0; exV 20 10 0; exV 15 5 0; exV 20 0 0] [] 2 7].
Example C71_hypotheses : total exTwo * 6 <= 65535 /\ Forall unmarked exTwo /\ Forall (fun c => null c = false) exTwo.
Proof. repeat split; try (repeat constructor); cbn; lia. Qed.
Example C71_result : BuildPolyMesh 6 1 20 10 exTwo = Ok (Some (mkPolyMesh
  [0; 0; 0; 0; 0; 10; 10; 0; 10; 10; 0; 0; 20; 0; 10; 15; 0; 5; 20; 0; 0; 0; 0; 0; 0; 0; 0] 7
  [0; 1; 2; 3; 65535; 65535;      32768; 32769; 2; 32771; 65535; 65535;
   2; 4; 5; 65535; 65535; 65535;  32769; 65535; 2; 65535; 65535; 65535;
   3; 2; 5; 65535; 65535; 65535;  0; 1; 3; 65535; 65535; 65535;
   3; 5; 6; 65535; 65535; 65535;  2; 65535; 32771; 65535; 65535; 65535] [1; 2; 2; 2] [7; 7; 7; 7] 4)).
Proof. vm_compute. reflexivity. Qed.
(** The vertex numbers of both contours are distinct, and the coordinates are small: so the last
    part of [filled] applies to them. *)
Definition exV2 : list vert := [(0, 0, 0); (0, 0, 10); (10, 0, 10); (10, 0, 0); (20, 0, 10); (15, 0, 5); (20, 0, 0)].
Example C71_distinct :
  welded [] (points (nth 0 exTwo (mkContour [] [] 0 0))) = ([0; 1; 2; 3]%nat, firstn 4 exV2) /\
  welded (firstn 4 exV2) (points (nth 1 exTwo (mkContour [] [] 0 0))) = ([3; 2; 4; 5; 6]%nat, exV2) /\ small exV2.
Proof. split; [vm_compute; reflexivity|]. split; [vm_compute; reflexivity|]. unfold exV2, small. repeat (constructor; [lia|]). constructor. Qed.
(** The condition for merging is met by the two halves of the square. *)
Example C71_joinable : joinable 6 (pos_in exV2) [0; 1; 2] [0; 2; 3].
Proof.
  split; [cbn; lia|]. exists 2, 0. split; [cbn; lia|]. split; [cbn; lia|]. split; [reflexivity|]. split; [reflexivity|]. split.
  - cbn [length]. intros i j Hi Hj H. assert (i = 0 \/ i = 1 \/ i = 2) as [->|[->| ->]] by lia; assert (j = 0 \/ j = 1 \/ j = 2) as [->|[->| ->]] by lia; vm_compute in H; intuition discriminate.
  - split; [vm_compute; discriminate|]. split; vm_compute; reflexivity.
Qed.
Print Assumptions C71_fills.
Print Assumptions C71_too_many.
Print Assumptions C71_origin.
