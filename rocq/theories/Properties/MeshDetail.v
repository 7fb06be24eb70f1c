(** C78: recast/meshdetail.go BuildPolyMeshDetail, the detail mesh of a polygon mesh. *)
From Coq Require Import ZArith List Bool Lia.
From Verif.Base Require Import Res GoNum F32 Num Grid.
From Verif.Model Require Import Geom Raster Heightfield Compact HeightSearch HeightData PolyDetail MeshDetail.
From Verif.Spec Require Import HeightfieldSpec CompactSpec ErodeSpec HeightSpec PolyDetailSpec MeshDetailSpec.
From Verif.Proofs Require Import ErodeOpen RegionBase TraceRegions MeshDetailProofs.
From Verif.Properties Require Import HeightData.
Import ListNotations.
Open Scope Z_scope.

(** For every mesh of polygons of 3 to 126 vertices in a field ([detail_ok]): the result holds one sub-mesh
    per polygon, in order and one after the other without gaps ([packed]): whatever their sizes, the arrays
    are long enough.  Sub-mesh i is the detail mesh (C77) of polygon i over the heights found in the patch
    around it (C76), moved to the place of the mesh ([submesh]); its first vertices are those of the polygon
    and its triangles use its own vertices only ([submesh_sane]).  Otherwise the call panics, and then there
    is a polygon for which no heights can be found or buildPolyDetail panics (see C77_detail). *)
Theorem C78_detail : forall I sd err, detail_ok I sd ->
  (exists dm subs, BuildPolyMeshDetail I sd err = Ok dm /\ packed dm subs /\
     Forall2 (fun i sub => submesh I sd err i sub /\ submesh_sane I i sub) (zseq (Z.to_nat (diNPolys I))) subs) \/
  (BuildPolyMeshDetail I sd err = Panic /\ exists i, 0 <= i < diNPolys I /\ submesh_panics I sd err i).
Proof. intros I sd err OK. now apply build_ok. Qed.

(** Without vertices or polygons, the detail mesh is empty. *)
Theorem C78_empty : forall I sd err, diNVerts I = 0 \/ diNPolys I = 0 ->
  BuildPolyMeshDetail I sd err = Ok (mkDetailMesh [] [] 0 [] 0).
Proof. intros I sd err [E|E]; unfold BuildPolyMeshDetail; rewrite E; cbn [Z.eqb]; [reflexivity|]. now rewrite orb_true_r. Qed.

(** The numbers of the vertices are multiplied by 3 in 16 bits: from vertex 21846 on another vertex is read
    (the mesh may have up to 65535). *)
Theorem C78_vertex_wrap_refuted : exists verts p,
  0 <= p < 65535 /\ 3 * p + 3 <= zlen verts /\ (forall v, In v verts -> 0 <= v < 65536) /\
  meshVert verts p <> Ok (nth (Z.to_nat (3 * p)) verts 0, nth (Z.to_nat (3 * p + 1)) verts 0, nth (Z.to_nat (3 * p + 2)) verts 0).
Proof.
  exists (repeat 1 (Z.to_nat 65538) ++ [5; 6; 7]), 21846. split; [lia|].
  assert (L : zlen (repeat 1 (Z.to_nat 65538)) = 65538) by (unfold zlen; rewrite repeat_length; lia).
  split; [rewrite zlen_app, L; cbn; lia|]. split.
  - intros v Hv. apply in_app_iff in Hv as [Hv|Hv]; [apply repeat_spec in Hv; lia|]. cbn in Hv. repeat (destruct Hv as [<-|Hv]; [lia|]). destruct Hv.
  - vm_compute. discriminate.
Qed.

(** *** Cases *)

(** A field of 6 x 6 cells, with a wall of height 4 in a column, and regions 1 and 2; a rectangle and a
    triangle, with a side in common. *)
Definition ridge : CompactHeightfield := raised (painted (openField 6 6) (repeat 1 18 ++ repeat 2 18) (repeat 63 36))
  (map (fun k => if k mod 6 =? 2 then 9 else 5) (zseq 36)).
Definition twoPolys : DetailInput := mkDetailInput
  [0; 5; 0;  0; 5; 3;  6; 5; 3;  6; 5; 0;  6; 5; 6] 5
  [0; 1; 2; 3; 65535; 65535; 65535; 65535;  1; 4; 2; 65535; 65535; 65535; 65535; 65535] 2 4 [1; 2]
  f1 f1 (f_of_Z 10, f_of_Z 20, f_of_Z 30) 0 (f_ratio 13 10) ridge f1 f1.
Lemma twoPolys_i : forall i, 0 <= i < diNPolys twoPolys -> i = 0 \/ i = 1.
Proof. intros i Hi. cbn in Hi. lia. Qed.
Example C78_ok_case : detail_ok twoPolys f1.
Proof.
  constructor.
  - eapply same_wf; [apply raised_same; reflexivity|]. eapply same_wf; [apply painted_same; reflexivity|]. apply open_wf; lia.
  - intros i s G. apply get_ok in G as [_ G]. apply nth_error_In in G.
    assert (Q : forallb (fun s => (0 <=? csY s) && (csY s <? 65535)) (chf_spans (diChf twoPolys)) = true) by (vm_compute; reflexivity).
    rewrite forallb_forall in Q. specialize (Q s G). apply andb_true_iff in Q. destruct Q as [Q1 Q2]. apply Z.leb_le in Q1. apply Z.ltb_lt in Q2. lia.
  - cbn. lia.
  - cbn. lia.
  - cbn. lia.
  - cbn. lia.
  - cbn. lia.
  - intros i p k Hi Hp Hk.
    assert (Q : forallb (fun i => forallb (fun p => forallb (fun k => (0 <=? coord twoPolys k p) && (coord twoPolys k p <? 65536)) [0; 1; 2]) (polygon twoPolys i)) [0; 1] = true) by (vm_compute; reflexivity).
    rewrite forallb_forall in Q. specialize (Q i ltac:(destruct (twoPolys_i i Hi) as [-> | ->]; cbn; auto)).
    rewrite forallb_forall in Q. specialize (Q p Hp). rewrite forallb_forall in Q. assert (I : In k [0; 1; 2]) by (cbn; lia). specialize (Q k I). apply andb_true_iff in Q as [Q1 Q2].
    apply Z.leb_le in Q1. apply Z.ltb_lt in Q2. lia.
  - intros i Hi. destruct (twoPolys_i i Hi) as [-> | ->]; vm_compute; discriminate.
  - intros i p Hi Hp.
    assert (Q : forallb (fun i => forallb (fun p => (0 <=? p) && (p <=? 21844) && (3 * p + 3 <=? zlen (diVerts twoPolys)) &&
      (coord twoPolys 0 p <=? chf_w ridge - 2 * diBorder twoPolys) && (coord twoPolys 2 p <=? chf_h ridge - 2 * diBorder twoPolys)) (polygon twoPolys i)) [0; 1] = true) by (vm_compute; reflexivity).
    rewrite forallb_forall in Q. specialize (Q i ltac:(destruct (twoPolys_i i Hi) as [-> | ->]; cbn; auto)).
    rewrite forallb_forall in Q. specialize (Q p Hp). rewrite !andb_true_iff in Q. destruct Q as ((((Q1 & Q2) & Q3) & Q4) & Q5).
    apply Z.leb_le in Q1, Q2, Q3, Q4, Q5. cbn [diChf twoPolys]. lia.
  - vm_compute. discriminate.
  - vm_compute. reflexivity.
  - intros i p q Hi Hp Hq.
    assert (Q : forallb (fun i => forallb (fun p => forallb (fun q => (0 <=? steps f1 (corner twoPolys p) (corner twoPolys q)) &&
      (steps f1 (corner twoPolys p) (corner twoPolys q) <? 2147483647)) (polygon twoPolys i)) (polygon twoPolys i)) [0; 1] = true) by (vm_compute; reflexivity).
    rewrite forallb_forall in Q. specialize (Q i ltac:(destruct (twoPolys_i i Hi) as [-> | ->]; cbn; auto)).
    rewrite forallb_forall in Q. specialize (Q p Hp). rewrite forallb_forall in Q. specialize (Q q Hq). rewrite !andb_true_iff in Q. destruct Q as [Q1 Q2].
    apply Z.leb_le in Q1. apply Z.ltb_lt in Q2. lia.
Qed.
(** The arrays have to grow (10 vertices and 20 triangles at first): 14 and 9 vertices, 16 and 7 triangles. *)
Example C78_detail_case : match BuildPolyMeshDetail twoPolys f1 f1 with
  | Ok dm => dmMeshes dm = [(0, 14, 0, 16); (14, 9, 16, 7)] /\ dmNVerts dm = 23 /\ dmNTris dm = 23 /\
      map f_trunc (firstn 15 (skipn 42 (dmVerts dm))) = map Some [10; 26; 33;  16; 26; 36;  16; 26; 33;  13; 26; 33;  12; 30; 33] /\
      firstn 28 (skipn 64 (dmTris dm)) = [2; 3; 1; 17;  3; 8; 1; 4;  3; 7; 8; 4;  3; 4; 7; 1;  4; 6; 7; 4;  4; 5; 6; 1;  5; 0; 6; 5]
  | _ => False
  end.
Proof. vm_compute. repeat split. Qed.
(** No span near the polygon (a field without spans): a panic. *)
Definition noPlace : DetailInput := mkDetailInput (diVerts twoPolys) 5 (diPolys twoPolys) 2 4 [1; 2] f1 f1 (diBMin twoPolys) 0 f1
  (mkCHF 6 6 0 0 0 (repeat (mkCell 0 0) 36) [] []) f1 f1.
Example C78_panic_case : BuildPolyMeshDetail noPlace f1 f1 = Panic.
Proof. vm_compute. reflexivity. Qed.

Print Assumptions C78_detail.
Print Assumptions C78_empty.
Print Assumptions C78_vertex_wrap_refuted.
