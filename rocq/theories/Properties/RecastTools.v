(** C57, C58, C59, C63: convex volumes, build log, OBJ loader, marking a polygon area. *)
From Coq Require Import ZArith Bool String List Lia Permutation.
From Verif.Base Require Import Res GoNum F32 Num.
From Verif.Model Require Import BuildLog MeshLoader InputGeom Heightfield Compact.
From Verif.Spec Require Import ToolSpec.
From Verif.Proofs Require Import ToolProofs.
Import ListNotations.
Open Scope Z_scope.

(** ** C58 Build log *)

(** After any history of calls the log shows the first 1000 entries of an unlimited log: by
    count, by index and in a dump. No call panics. *)
Theorem C58_log : forall on h, exists ctx,
  logRun (NewBuildContext on) h = Ok ctx /\
  LogCount ctx = Z.min 1000 (zlen (ideal_log on h)) /\
  (forall i, 0 <= i < LogCount ctx -> LogText ctx i = get (ideal_log on h) i) /\
  (forall header, DumpLog ctx header = Ok (header :: firstn 1000 (ideal_log on h))).
Proof.
  intros on h. destruct (log_run_inv h _ _ (log_new_inv on)) as (ctx & E & H).
  exists ctx. split; [exact E|]. exact (log_observed ctx _ H).
Qed.

(** A log that is switched off stays as it was. *)
Theorem C58_disabled : forall ctx c t, logEnabled ctx = false ->
  log ctx c t = Ok ctx /\ ResetLog ctx = ctx.
Proof. intros ctx c t H. unfold log, ResetLog. rewrite H. split; reflexivity. Qed.

Example C58_example :
  let h := [OpLog logProgress "a"; OpReset; OpLog logError "b"; OpEnable false; OpLog logWarning "c";
            OpReset; OpEnable true; OpLog logWarning "d"]%string in
  ideal_log true h = ["ERR b"; "WARN d"]%string /\
  exists ctx, logRun (NewBuildContext true) h = Ok ctx /\ LogCount ctx = 2 /\
    LogText ctx 1 = Ok "WARN d"%string.
Proof.
  split; [reflexivity|]. eexists. split; [reflexivity|]. split; reflexivity.
Qed.

(** ** C59 OBJ polygons *)

(** A new loader (any scale, no triangles yet) stores, in order, the fan triangles of all
    polygons that have three valid indices, and the vertices times the scale, three floats
    each; one normal per triangle; it does not panic. *)
Theorem C59_load : forall mlo verts polys, mTris mlo = [] -> 3 * zlen verts < 2147483648 ->
  exists m, Load mlo verts polys = Ok m /\
    mTris m = flat3 (filter (valid_tri (zlen verts)) (flat_map fan polys)) /\
    mVerts m = flat3 (map (fun '(x, y, z) =>
      (fmul x (mScale mlo), fmul y (mScale mlo), fmul z (mScale mlo))) verts) /\
    zlen (mNormals m) = zlen (mTris m) /\
    Forall (fun i => 0 <= i < zlen verts) (mTris m).
Proof.
  intros mlo verts polys Ht Hs. eexists. split; [exact (Load_spec mlo verts polys Ht Hs)|].
  cbn [mTris mVerts mNormals]. split; [reflexivity|]. split.
  { clear. induction verts as [|[[x y] z] verts IH]; [reflexivity|].
    unfold scaleVerts, flat3 in *. cbn [map flat_map]. now rewrite IH. }
  set (ts := filter (valid_tri (zlen verts)) (flat_map fan polys)).
  assert (forall t, In t ts -> valid_tri (zlen verts) t = true) as Hv by (intros t Hi; apply filter_In in Hi; tauto).
  split.
  - clear Hv. induction ts as [|[[a b] c] ts IH]; [reflexivity|].
    unfold flat3 in *. cbn [flat_map]. rewrite !zlen_app, IH. f_equal.
    unfold triNormal. destruct (nth_vert (mScale mlo) verts a) as [[x0 y0] z0],
      (nth_vert (mScale mlo) verts b) as [[x1 y1] z1], (nth_vert (mScale mlo) verts c) as [[x2 y2] z2].
    match goal with |- context [if ?c then _ else _] => destruct c end; reflexivity.
  - apply Forall_forall. intros i Hi. unfold flat3 in Hi. apply in_flat_map in Hi.
    destruct Hi as ([[a b] c] & Hi & Hin). apply Hv, valid_tri_range in Hi.
    cbn in Hin. destruct Hin as [<-|[<-|[<-|[]]]]; lia.
Qed.

(** A polygon of k valid indices gives k-2 triangles, the i-th being vertices 0, i+1, i+2. *)
Theorem C59_fan : forall mlo verts p, mTris mlo = [] -> 3 * zlen verts < 2147483648 ->
  Forall (fun i => 0 <= i < zlen verts) p ->
  exists m, Load mlo verts [p] = Ok m /\ zlen (mTris m) = 3 * Z.max 0 (zlen p - 2) /\
    forall i, (i + 2 < length p)%nat ->
      nth_error (mTris m) (3 * i) = nth_error p 0 /\
      nth_error (mTris m) (3 * i + 1) = nth_error p (i + 1) /\
      nth_error (mTris m) (3 * i + 2) = nth_error p (i + 2).
Proof.
  intros mlo verts p Ht Hs Hp. eexists. split; [exact (Load_spec mlo verts [p] Ht Hs)|].
  cbn [mTris flat_map]. rewrite app_nil_r.
  assert (filter (valid_tri (zlen verts)) (fan p) = fan p) as Ef.
  { assert (forall {A} (f : A -> bool) (l : list A), (forall a, In a l -> f a = true) -> filter f l = l) as F.
    { intros A f l. induction l as [|a l IH]; intros H; [reflexivity|]. cbn [filter].
      rewrite H by now left. f_equal. apply IH. intros b Hb. apply H. now right. }
    apply F. intros t Hi. unfold fan in Hi. apply in_map_iff in Hi.
    destruct Hi as (i & <- & Hi). apply in_seq in Hi. unfold valid_tri. cbn [forallb].
    rewrite Forall_forall in Hp.
    assert (forall k, (k < length p)%nat -> (0 <=? nth k p 0) && (nth k p 0 <? zlen verts) = true) as G.
    { intros k Hk. specialize (Hp (nth k p 0) (nth_In _ _ Hk)). apply andb_true_iff.
      rewrite Z.leb_le, Z.ltb_lt. lia. }
    rewrite (G 0%nat), (G (i + 1)%nat), (G (i + 2)%nat) by lia. reflexivity. }
  rewrite Ef. clear Ef.
  assert (forall (l : list (Z * Z * Z)), zlen (flat3 l) = 3 * zlen l) as L3.
  { induction l as [|[[a b] c] l IH]; [reflexivity|]. unfold flat3 in *. cbn [flat_map].
    rewrite zlen_app, IH, (zlen_cons _ l). change (zlen [a; b; c]) with 3. lia. }
  split.
  - rewrite L3. unfold zlen, fan. rewrite map_length, seq_length. clear. lia.
  - intros i Hi.
    assert (forall (l : list (Z * Z * Z)) k a b c, nth_error l k = Some (a, b, c) ->
      nth_error (flat3 l) (3 * k) = Some a /\ nth_error (flat3 l) (3 * k + 1) = Some b /\
      nth_error (flat3 l) (3 * k + 2) = Some c) as G.
    { induction l as [|[[a0 b0] c0] l IH]; intros [|k] a b c H; cbn [nth_error] in H; try discriminate.
      - inversion H; subst. auto.
      - replace (3 * S k)%nat with (S (S (S (3 * k)))) by lia. unfold flat3. cbn [flat_map app Nat.add nth_error].
        exact (IH k a b c H). }
    assert (nth_error (fan p) i = Some (nth 0 p 0, nth (i + 1) p 0, nth (i + 2) p 0)) as E.
    { unfold fan. rewrite nth_error_map, (nth_error_nth' _ O) by (rewrite seq_length; lia).
      rewrite seq_nth by lia. reflexivity. }
    destruct (G _ _ _ _ _ E) as (-> & -> & ->).
    rewrite !(nth_error_nth' p 0) by lia. auto.
Qed.

Definition v_ (x y z : Z) : f32 * f32 * f32 := (f_of_Z x, f_of_Z y, f_of_Z z).
Example C59_example :
  mTris NewMeshLoaderOBJ = [] /\
  exists m, Load NewMeshLoaderOBJ [v_ 0 0 0; v_ 1 0 0; v_ 1 0 1; v_ 0 0 1] [[0; 1; 2; 3]; [0; 1; 7]; [3; 2; 1]] = Ok m /\
    mTris m = [0; 1; 2; 0; 2; 3; 3; 2; 1].
Proof. split; [reflexivity|]. eexists. split; vm_compute; reflexivity. Qed.

(** A loader used twice keeps the triangles of the first file but only the vertices of the
    second: loading a smaller mesh after a larger one panics. *)
Theorem C59_second_load_refuted : exists v1 p1 v2 p2 m,
  Load NewMeshLoaderOBJ v1 p1 = Ok m /\ (exists m', Load NewMeshLoaderOBJ v2 p2 = Ok m') /\
  Load m v2 p2 = Panic.
Proof.
  exists [v_ 0 0 0; v_ 1 0 0; v_ 1 0 1; v_ 0 0 1], [[0; 2; 3]], [v_ 0 0 0; v_ 1 0 0; v_ 1 0 1], [[0; 1; 2]].
  eexists. split; [vm_compute; reflexivity|]. split; [eexists; vm_compute; reflexivity|].
  vm_compute. reflexivity.
Qed.

(** ** C57 Convex volumes *)

(** Adding appends the volume as given (up to 256 volumes of at most 12 vertices). *)
Theorem C57_add : forall ig verts lo hi area, geom_ok ig -> zlen verts <= 36 ->
  exists ig', AddConvexVolume ig verts lo hi area = Ok ig' /\ geom_ok ig' /\
    map shape (stored ig') =
      map shape (stored ig) ++ (if zlen (stored ig) <? 256 then [(verts, lo, hi, area)] else []).
Proof. exact add_volume. Qed.

(** Deleting an existing volume removes that one and keeps all others. *)
Theorem C57_delete : forall ig i, geom_ok ig -> 0 <= i < zlen (stored ig) ->
  exists ig' v, DeleteConvexVolume ig i = Ok ig' /\ geom_ok ig' /\ get (stored ig) i = Ok v /\
    Permutation (v :: stored ig') (stored ig).
Proof. exact delete_volume. Qed.

(** Over any history the volumes stored together with those deleted are those added. *)
Theorem C57_history : forall ops, volValid 0 ops ->
  exists ig added deleted, volRun newGeom ops [] [] = Ok (ig, added, deleted) /\
    zlen (stored ig) = volumeCount ig /\ volumeCount ig <= 256 /\
    Permutation (map shape (stored ig) ++ deleted) added.
Proof.
  intros ops Hv. destruct (volRun_spec ops newGeom [] [] newGeom_ok Hv) as (ig & a & d & E & Hg & Hp).
  { apply Permutation_refl. }
  exists ig, a, d. split; [exact E|]. split; [now apply stored_length|]. split; [|exact Hp].
  destruct Hg as (_ & H & _). unfold maxVolumes in H. lia.
Qed.

Definition tri_ (a b c : f32 * f32 * f32) : list f32 := flat3 [a; b; c].
Definition t1 := tri_ (v_ 0 0 0) (v_ 1 0 0) (v_ 0 0 1).
Definition t2 := tri_ (v_ 5 0 0) (v_ 6 0 0) (v_ 5 0 1).
Definition t3 := tri_ (v_ 8 0 0) (v_ 9 0 0) (v_ 8 0 1).
Example C57_example :
  let ops := [VAdd t1 f0 f1 1; VAdd t2 f0 f1 2; VAdd t3 f0 f1 3; VDel 0] in
  volValid 0 ops /\
  match volRun newGeom ops [] [] with
  | Ok (ig, _, _) => map shape (stored ig) = [(t3, f0, f1, 3); (t2, f0, f1, 2)]
  | _ => False
  end.
Proof. split; [cbn; lia|]. vm_compute. reflexivity. Qed.

(** Deleting from an empty table panics. *)
Theorem C57_delete_empty_refuted : forall i, DeleteConvexVolume newGeom i = Panic.
Proof. reflexivity. Qed.

(** ** C63 Marking the area of a polygon *)

(** MarkConvexPolyArea changes area ids only: of walkable spans in columns of the grid whose
    centre passes the polygon test and whose floor lies between the two heights, and to the
    given id. *)
Theorem C63_mark : forall verts nverts hmin hmax area bx by_ bz cs ch chf areas,
  MarkConvexPolyArea verts nverts hmin hmax area bx by_ bz cs ch chf = Ok areas ->
  zlen areas = zlen (chf_areas chf) /\
  forall i a, get areas i = Ok a -> get (chf_areas chf) i <> Ok a ->
    a = area /\ markable verts nverts hmin hmax bx by_ bz cs ch chf i /\
    exists b, get (chf_areas chf) i = Ok b /\ b <> nullArea.
Proof.
  intros verts nverts hmin hmax area bx by_ bz cs ch chf areas H.
  destruct (mark_spec _ _ _ _ _ _ _ _ _ _ _ _ H) as [HL HM]. split; [exact HL|].
  intros i a Ha Hn. destruct (HM i a Ha) as [E|E]; [contradiction|exact E].
Qed.

(** A field of 2 x 2 columns with corner (4, 0, 4), one walkable span each, and a triangle
    that contains the centre of the column at (5, 5) and no other centre. *)
Definition mk_chf : CompactHeightfield :=
  mkCHF 2 2 4 2 1 [mkCell 0 1; mkCell 1 1; mkCell 2 1; mkCell 3 1]
    (repeat (mkCSpan 0 0 0 255) 4) [63; 63; 63; 63].
Definition mk_tri : list f32 := tri_ (v_ 4 0 7) (v_ 7 0 7) (v_ 7 0 3).
Definition mk_run (verts : list f32) (nverts : Z) : res (list Z) :=
  MarkConvexPolyArea verts nverts f0 (f_of_Z 10) 5 (f_of_Z 4) f0 (f_of_Z 4) f1 f1 mk_chf.
Definition mk_padded : list f32 := mk_tri ++ mk_tri ++ mk_tri.
Example C63_example : mk_run mk_padded 9 = Ok [63; 63; 63; 5].
Proof. vm_compute. reflexivity. Qed.

(** With the documented number of vertices the box covers the first third of the vertices
    only, and nothing is marked although the column at (5, 5) is inside. *)
Theorem C63_vertex_count_refuted :
  pointInPoly 3 mk_tri (fadd (f_of_Z 5) (f_ratio 1 2)) (fadd (f_of_Z 5) (f_ratio 1 2)) = Ok true /\
  mk_run mk_tri 3 = Ok (chf_areas mk_chf).
Proof. split; vm_compute; reflexivity. Qed.

(** A volume stored by AddConvexVolume is not marked as given: NVerts counts floats. The
    column at (4, 4) fails the test with the three vertices of the triangle, yet it is marked,
    and a volume of five vertices makes MarkConvexPolyArea panic. *)
Definition mk_stored (verts : list f32) : res (list Z) :=
  let* ig := AddConvexVolume newGeom verts f0 (f_of_Z 10) 5 in
  let* v := get (stored ig) 0 in
  mk_run (volVerts v) (volNVerts v).
Theorem C63_stored_volume_refuted :
  pointInPoly 3 mk_tri (fadd (f_of_Z 4) (f_ratio 1 2)) (fadd (f_of_Z 4) (f_ratio 1 2)) = Ok false /\
  (let* areas := mk_stored mk_tri in get areas 0) = Ok 5.
Proof. split; vm_compute; reflexivity. Qed.
Definition mk_five : list f32 := flat3 [v_ 4 0 4; v_ 4 0 6; v_ 5 0 7; v_ 6 0 6; v_ 6 0 4].
Theorem C63_five_vertices_refuted : mk_stored mk_five = Panic.
Proof. vm_compute. reflexivity. Qed.

Print Assumptions C58_log.
Print Assumptions C58_disabled.
Print Assumptions C59_load.
Print Assumptions C59_fan.
Print Assumptions C59_second_load_refuted.
Print Assumptions C57_add.
Print Assumptions C57_delete.
Print Assumptions C57_history.
Print Assumptions C57_delete_empty_refuted.
Print Assumptions C63_mark.
Print Assumptions C63_vertex_count_refuted.
Print Assumptions C63_stored_volume_refuted.
Print Assumptions C63_five_vertices_refuted.
