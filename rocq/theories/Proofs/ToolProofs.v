(** Build log (C58), OBJ loader (C59), convex volumes (C57). *)
From Coq Require Import ZArith Bool String List Lia Permutation.
From Verif.Base Require Import Res GoNum Grid F32.
From Verif.Model Require Import BuildLog MeshLoader InputGeom.
From Verif.Spec Require Import ToolSpec.
Import ListNotations.
Open Scope Z_scope.

(** ** Build log *)

Definition log_inv (ctx : BuildContext) (s : bool * list string) : Prop :=
  logEnabled ctx = fst s /\ zlen (messages ctx) = maxMessages /\
  numMessages ctx = Z.min maxMessages (zlen (snd s)) /\
  firstn (Z.to_nat (numMessages ctx)) (messages ctx) = firstn (Z.to_nat maxMessages) (snd s).

Lemma firstn_app_ge : forall {A} (l k : list A) n, (n <= length l)%nat -> firstn n (l ++ k) = firstn n l.
Proof.
  intros A l k n H. rewrite firstn_app. replace (n - length l)%nat with O by lia.
  cbn [firstn]. apply app_nil_r.
Qed.

Lemma log_step_inv : forall ctx s o, log_inv ctx s ->
  exists ctx', logStep ctx o = Ok ctx' /\ log_inv ctx' (ideal_step s o).
Proof.
  intros ctx [on es] o (He & Hl & Hn & Hf). cbn [fst snd] in *.
  pose proof (zlen_nonneg es).
  destruct o as [b| |c t]; cbn [logStep ideal_step fst snd].
  - eexists. split; [reflexivity|]. unfold log_inv, EnableLog. cbn. auto.
  - unfold ResetLog. rewrite He. eexists. split; [reflexivity|].
    destruct on; unfold log_inv; cbn [logEnabled messages numMessages fst snd].
    + split; [auto|]. split; [auto|]. split; [reflexivity|]. cbn. now rewrite firstn_nil.
    + auto.
  - unfold log. rewrite He. destruct on; cbn [andb].
    2:{ eexists. split; [reflexivity|]. unfold log_inv. cbn [fst snd]. auto. }
    destruct (Z.ltb_spec (numMessages ctx) maxMessages) as [Hlt|Hge].
    + assert (numMessages ctx = zlen es) as En by lia.
      rewrite set_in_range by lia. cbn [bind]. eexists. split; [reflexivity|].
      unfold log_inv. cbn [logEnabled messages numMessages fst snd].
      split; [auto|]. split; [now rewrite zlen_upd|].
      split; [rewrite zlen_snoc; lia|].
      replace (Z.to_nat (numMessages ctx + 1)) with (S (Z.to_nat (numMessages ctx))) by lia.
      rewrite (firstn_snoc _ _ (prefix c ++ t)%string) by (apply nth_error_upd_eq; unfold zlen in *; lia).
      rewrite firstn_upd_ge by lia. rewrite Hf.
      assert (length es < Z.to_nat maxMessages)%nat by (unfold zlen in *; lia).
      rewrite (firstn_all2 es) by lia.
      rewrite firstn_all2 by (rewrite app_length; cbn [length]; lia).
      f_equal. f_equal. destruct c; reflexivity.
    + eexists. split; [reflexivity|]. unfold log_inv. cbn [fst snd].
      split; [auto|]. split; [auto|]. split; [rewrite zlen_snoc; lia|].
      rewrite firstn_app_ge; [auto|unfold zlen in *; lia].
Qed.

Lemma log_run_inv : forall h ctx s, log_inv ctx s ->
  exists ctx', logRun ctx h = Ok ctx' /\ log_inv ctx' (fold_left ideal_step h s).
Proof.
  induction h as [|o h IH]; intros ctx s H; cbn [logRun fold_left]; [eauto|].
  destruct (log_step_inv ctx s o H) as (ctx' & E & H'). rewrite E. cbn [bind]. auto.
Qed.

Lemma log_new_inv : forall on, log_inv (NewBuildContext on) (on, []).
Proof.
  intros on. unfold log_inv, NewBuildContext. cbn [logEnabled messages numMessages fst snd].
  split; [auto|]. split; [unfold zlen; rewrite repeat_length; unfold maxMessages; lia|].
  split; [reflexivity|]. cbn [Z.to_nat firstn]. now rewrite firstn_nil.
Qed.

Lemma dump_from_ok : forall ctx k i, 0 <= i -> i + Z.of_nat k <= zlen (messages ctx) ->
  dump_from ctx i k = Ok (firstn k (skipn (Z.to_nat i) (messages ctx))).
Proof.
  induction k as [|k IH]; intros i Hi Hk; cbn [dump_from]; [reflexivity|].
  destruct (get_in_range (messages ctx) i) as [m E]; [lia|]. rewrite E. cbn [bind].
  rewrite IH by lia. cbn [bind]. apply get_ok in E. destruct E as [_ E].
  f_equal. replace (Z.to_nat (i + 1)) with (S (Z.to_nat i)) by lia.
  revert E. generalize (Z.to_nat i) as n, (messages ctx) as l. clear.
  induction n as [|n IH]; intros [|a l] E; cbn [nth_error skipn firstn] in *; try discriminate.
  - congruence.
  - now apply IH.
Qed.

Lemma log_observed : forall ctx s, log_inv ctx s ->
  LogCount ctx = Z.min 1000 (zlen (snd s)) /\
  (forall i, 0 <= i < LogCount ctx -> LogText ctx i = get (snd s) i) /\
  (forall header, DumpLog ctx header = Ok (header :: firstn 1000 (snd s))).
Proof.
  intros ctx [on es] (He & Hl & Hn & Hf). cbn [fst snd] in *. pose proof (zlen_nonneg es).
  change 1000%nat with (Z.to_nat maxMessages).
  split; [exact Hn|]. split.
  - intros i Hi. unfold LogCount in Hi. unfold LogText, get.
    destruct (Z.ltb_spec i 0); [lia|].
    assert (nth_error (firstn (Z.to_nat (numMessages ctx)) (messages ctx)) (Z.to_nat i) =
            nth_error (firstn (Z.to_nat maxMessages) es) (Z.to_nat i)) as E by now rewrite Hf.
    assert (forall (l : list string) n k, (k < n)%nat -> nth_error (firstn n l) k = nth_error l k) as F.
    { induction l as [|a l IH]; intros [|n] [|k] Hk; cbn; auto; try lia. apply IH. lia. }
    rewrite !F in E by lia. now rewrite E.
  - intros header. unfold DumpLog. rewrite dump_from_ok by (unfold maxMessages in *; lia). cbn [bind Z.to_nat skipn].
    now rewrite Hf.
Qed.

(** ** OBJ loader *)

Lemma flat3_app : forall {A} (a b : list (A * A * A)), flat3 (a ++ b) = flat3 a ++ flat3 b.
Proof. intros. unfold flat3. apply flat_map_app. Qed.

Lemma badIdx_spec : forall n a b c,
  badIdx n a || badIdx n b || badIdx n c = negb (valid_tri n (a, b, c)).
Proof.
  intros n a b c.
  assert (forall x, badIdx n x = negb ((0 <=? x) && (x <? n))) as H.
  { intros x. unfold badIdx.
    destruct (Z.ltb_spec x 0), (Z.leb_spec 0 x), (Z.ltb_spec x n), (Z.geb_spec x n); try lia; reflexivity. }
  unfold valid_tri. cbn [forallb]. rewrite !H, andb_true_r, !negb_andb, !orb_assoc. reflexivity.
Qed.

(** The fan of [a :: b :: rest]. *)
Fixpoint fan_from (a b : Z) (rest : list Z) : list (Z * Z * Z) :=
  match rest with [] => [] | c :: rest => (a, b, c) :: fan_from a c rest end.

Lemma fan_from_spec : forall rest a b, fan (a :: b :: rest) = fan_from a b rest.
Proof.
  induction rest as [|c rest IH]; intros a b; [reflexivity|].
  cbn [fan_from]. rewrite <- IH. unfold fan. cbn [length].
  replace (S (S (S (length rest))) - 2)%nat with (S (length rest)) by lia.
  replace (S (S (length rest)) - 2)%nat with (length rest) by lia.
  cbn [seq map]. f_equal. rewrite <- seq_shift, map_map. apply map_ext. intros i.
  replace (i + 1)%nat with (S i) by lia. replace (i + 2)%nat with (S (S i)) by lia.
  replace (S i + 1)%nat with (S (S i)) by lia. replace (S i + 2)%nat with (S (S (S i))) by lia. reflexivity.
Qed.

Lemma addPolyFrom_spec : forall n rest a b tris,
  addPolyFrom n a b rest tris = tris ++ flat3 (filter (valid_tri n) (fan_from a b rest)).
Proof.
  induction rest as [|c rest IH]; intros a b tris; cbn [addPolyFrom fan_from filter].
  - symmetry. apply app_nil_r.
  - rewrite IH, badIdx_spec. destruct (valid_tri n (a, b, c)); cbn [negb]; [|reflexivity].
    rewrite <- app_assoc. reflexivity.
Qed.

Lemma addPoly_spec : forall n tris p, addPoly n tris p = tris ++ flat3 (filter (valid_tri n) (fan p)).
Proof.
  intros n tris [|a [|b rest]]; cbn [addPoly]; try (symmetry; apply app_nil_r).
  now rewrite addPolyFrom_spec, fan_from_spec.
Qed.

Lemma addPolys_spec : forall n polys tris,
  fold_left (addPoly n) polys tris = tris ++ flat3 (filter (valid_tri n) (flat_map fan polys)).
Proof.
  induction polys as [|p polys IH]; intros tris; cbn [fold_left flat_map].
  - symmetry. apply app_nil_r.
  - rewrite IH, addPoly_spec, filter_app, flat3_app. apply app_assoc_reverse.
Qed.

Lemma scaleVerts_nth : forall sc verts k x y z, nth_error verts k = Some (x, y, z) ->
  firstn 3 (skipn (k * 3) (scaleVerts sc verts)) = [fmul x sc; fmul y sc; fmul z sc].
Proof.
  induction verts as [|[[a b] c] verts IH]; intros [|k] x y z H; cbn [nth_error] in H; try discriminate.
  - inversion H; subst. reflexivity.
  - cbn [Nat.mul Nat.add]. unfold scaleVerts. cbn [flat_map app skipn]. now apply IH.
Qed.

Lemma scaleVerts_len : forall sc verts, zlen (scaleVerts sc verts) = 3 * zlen verts.
Proof.
  induction verts as [|[[a b] c] verts IH]; [reflexivity|].
  unfold scaleVerts in *. cbn [flat_map app]. rewrite !zlen_cons, IH. lia.
Qed.

Definition nth_vert (sc : f32) (verts : list (f32 * f32 * f32)) (k : Z) : f32 * f32 * f32 :=
  match nth_error verts (Z.to_nat k) with
  | Some (x, y, z) => (fmul x sc, fmul y sc, fmul z sc)
  | None => (f0, f0, f0)
  end.

Lemma vert3_ok : forall sc verts k, 3 * zlen verts < 2147483648 -> 0 <= k < zlen verts ->
  vert3 (scaleVerts sc verts) k = Ok (nth_vert sc verts k).
Proof.
  intros sc verts k Hs Hk. unfold vert3, nth_vert.
  destruct (nth_error verts (Z.to_nat k)) as [[[x y] z]|] eqn:E.
  2:{ apply nth_error_None in E. unfold zlen in *. lia. }
  rewrite (i32_id (k * 3)) by (unfold is_i32; lia). rewrite i32_id by (unfold is_i32; lia).
  unfold slice. rewrite scaleVerts_len.
  destruct (Z.leb_spec 0 (k * 3)); [|lia]. destruct (Z.leb_spec (k * 3) (3 + k * 3)); [|lia].
  destruct (Z.leb_spec (3 + k * 3) (3 * zlen verts)); [|lia]. cbn [andb bind].
  replace (Z.to_nat (3 + k * 3 - k * 3)) with 3%nat by lia.
  replace (Z.to_nat (k * 3)) with (Z.to_nat k * 3)%nat by lia.
  now rewrite (scaleVerts_nth sc verts _ x y z E).
Qed.

Lemma valid_tri_range : forall n a b c, valid_tri n (a, b, c) = true ->
  0 <= a < n /\ 0 <= b < n /\ 0 <= c < n.
Proof.
  intros n a b c H. unfold valid_tri in H. cbn [forallb] in H.
  rewrite !andb_true_iff, !Z.leb_le, !Z.ltb_lt in H. tauto.
Qed.

Lemma normalsOf_ok : forall sc verts ts, 3 * zlen verts < 2147483648 ->
  Forall (fun t => valid_tri (zlen verts) t = true) ts ->
  normalsOf (scaleVerts sc verts) (flat3 ts) =
  Ok (flat_map (fun '(a, b, c) =>
        triNormal (nth_vert sc verts a) (nth_vert sc verts b) (nth_vert sc verts c)) ts).
Proof.
  intros sc verts ts Hs. induction ts as [|[[a b] c] ts IH]; intros H; [reflexivity|].
  inversion H as [|t l Ht Hl]; subst. apply valid_tri_range in Ht. destruct Ht as (Ha & Hb & Hc).
  change (flat3 ((a, b, c) :: ts)) with (a :: b :: c :: flat3 ts). cbn [normalsOf].
  rewrite !vert3_ok by lia. cbn [bind]. rewrite IH by assumption. reflexivity.
Qed.

Lemma Load_spec : forall mlo verts polys, mTris mlo = [] -> 3 * zlen verts < 2147483648 ->
  let ts := filter (valid_tri (zlen verts)) (flat_map fan polys) in
  Load mlo verts polys = Ok (mkMLO (mScale mlo) (scaleVerts (mScale mlo) verts) (flat3 ts)
    (flat_map (fun '(a, b, c) => triNormal (nth_vert (mScale mlo) verts a)
        (nth_vert (mScale mlo) verts b) (nth_vert (mScale mlo) verts c)) ts)).
Proof.
  intros mlo verts polys Ht Hs ts. unfold Load. pose proof (zlen_nonneg verts).
  rewrite (i32_id (zlen verts)) by (unfold is_i32; lia). rewrite i32_id by (unfold is_i32; lia).
  destruct (Z.ltb_spec (zlen verts * 3) 0); [lia|].
  rewrite addPolys_spec, Ht. cbn [app]. fold ts. rewrite normalsOf_ok; [reflexivity|assumption|].
  apply Forall_forall. intros t Hi. apply filter_In in Hi. tauto.
Qed.

(** ** Convex volumes *)

(** What a stored volume says: the floats given, the heights and the area. *)
Definition shape (v : ConvexVolume) : list f32 * f32 * f32 * Z :=
  (firstn (Z.to_nat (volNVerts v)) (volVerts v), volHMin v, volHMax v, volArea v).
Definition stored (ig : InputGeom) : list ConvexVolume := firstn (Z.to_nat (volumeCount ig)) (volumes ig).
Definition geom_ok (ig : InputGeom) : Prop :=
  zlen (volumes ig) = maxVolumes /\ 0 <= volumeCount ig <= maxVolumes /\
  Forall (fun v => length (volVerts v) = 36%nat) (volumes ig).

Lemma newGeom_ok : geom_ok newGeom.
Proof.
  unfold geom_ok, newGeom. cbn [volumes volumeCount].
  split; [unfold zlen; rewrite repeat_length; unfold maxVolumes; lia|]. split; [unfold maxVolumes; lia|].
  apply Forall_forall. intros v H. apply repeat_spec in H. subst. unfold zeroVol. cbn [volVerts].
  now rewrite repeat_length.
Qed.

Lemma stored_length : forall ig, geom_ok ig -> zlen (stored ig) = volumeCount ig.
Proof.
  intros ig (Hl & Hc & _). unfold stored, zlen in *. rewrite firstn_length. lia.
Qed.

Lemma Forall_upd : forall {A} (P : A -> Prop) l n v, Forall P l -> P v -> Forall P (upd l n v).
Proof.
  intros A P l. induction l as [|a l IH]; intros [|n] v Hl Hv; cbn [upd]; auto; inversion Hl; subst;
    constructor; auto.
Qed.

Lemma add_volume : forall ig verts lo hi area, geom_ok ig -> zlen verts <= 36 ->
  exists ig', AddConvexVolume ig verts lo hi area = Ok ig' /\ geom_ok ig' /\
    map shape (stored ig') =
      map shape (stored ig) ++ (if zlen (stored ig) <? 256 then [(verts, lo, hi, area)] else []).
Proof.
  intros ig verts lo hi area Hg Hv. pose proof (stored_length ig Hg) as Hs.
  destruct Hg as (Hl & Hc & Hf). unfold AddConvexVolume. rewrite Hs. pose proof (zlen_nonneg verts).
  unfold maxVolumes in *.
  destruct (Z.geb_spec (volumeCount ig) 256), (Z.ltb_spec (volumeCount ig) 256); try lia.
  - eexists. split; [reflexivity|]. split; [unfold geom_ok, maxVolumes; auto|]. now rewrite app_nil_r.
  - destruct (get_in_range (volumes ig) (volumeCount ig)) as [v E]; [lia|]. rewrite E. cbn [bind].
    rewrite set_in_range by lia. cbn [bind]. eexists. split; [reflexivity|].
    apply get_ok in E. destruct E as [_ E].
    assert (length (volVerts v) = 36%nat) as L36.
    { rewrite Forall_forall in Hf. apply Hf. eapply nth_error_In; eauto. }
    split.
    + unfold geom_ok. cbn [volumes volumeCount]. unfold maxVolumes.
      split; [now rewrite zlen_upd|]. split; [lia|]. apply Forall_upd; auto. cbn [volVerts].
      unfold copyInto. rewrite app_length, firstn_length, skipn_length. unfold zlen in *. lia.
    + unfold stored at 1. cbn [volumes volumeCount].
      replace (Z.to_nat (volumeCount ig + 1)) with (S (Z.to_nat (volumeCount ig))) by lia.
      erewrite firstn_snoc by (apply nth_error_upd_eq; unfold zlen in *; lia).
      rewrite firstn_upd_ge by lia. rewrite map_app. unfold stored. f_equal. cbn [map]. f_equal.
      unfold shape. cbn [volVerts volHMin volHMax volNVerts volArea].
      rewrite i32_id by (unfold is_i32; lia). unfold copyInto, zlen in *. rewrite Nat2Z.id, L36.
      rewrite (firstn_all2 verts) by lia. rewrite firstn_app_ge by lia. now rewrite firstn_all2 by lia.
Qed.

Lemma delete_volume : forall ig i, geom_ok ig -> 0 <= i < zlen (stored ig) ->
  exists ig' v, DeleteConvexVolume ig i = Ok ig' /\ geom_ok ig' /\ get (stored ig) i = Ok v /\
    Permutation (v :: stored ig') (stored ig).
Proof.
  intros ig i Hg Hi. pose proof (stored_length ig Hg) as Hs. rewrite Hs in Hi.
  destruct (get_in_range (stored ig) i) as [v Ev]; [lia|].
  destruct Hg as (Hl & Hc & Hf). unfold DeleteConvexVolume. unfold maxVolumes in *.
  destruct (get_in_range (volumes ig) (volumeCount ig - 1)) as [last E]; [lia|]. rewrite E. cbn [bind].
  rewrite set_in_range by lia. cbn [bind]. eexists. exists v. split; [reflexivity|].
  apply get_ok in E. destruct E as [_ E].
  split; [|split; [exact Ev|]].
  - unfold geom_ok. cbn [volumes volumeCount]. unfold maxVolumes. split; [now rewrite zlen_upd|].
    split; [lia|]. apply Forall_upd; auto. rewrite Forall_forall in Hf. apply Hf. eapply nth_error_In; eauto.
  - apply get_ok in Ev. destruct Ev as [_ Ev]. unfold stored in *. cbn [volumes volumeCount].
    set (n := Z.to_nat (volumeCount ig - 1)) in *.
    assert (Z.to_nat (volumeCount ig) = S n) as En by lia. rewrite En in *.
    rewrite (firstn_snoc _ _ _ E) in *.
    destruct (Nat.eq_dec (Z.to_nat i) n) as [Ei|Ei].
    + rewrite Ei in Ev. rewrite nth_error_app2 in Ev by (rewrite firstn_length; lia).
      rewrite firstn_length in Ev. replace (n - Nat.min n (length (volumes ig)))%nat with O in Ev
        by (unfold zlen in *; lia). cbn in Ev. inversion Ev; subst.
      rewrite Ei, firstn_upd_ge by lia. apply Permutation_cons_append.
    + assert (Z.to_nat i < n)%nat by lia. rewrite firstn_upd by assumption.
      assert (length (firstn n (volumes ig)) = n) as Ln by (rewrite firstn_length; unfold zlen in *; lia).
      rewrite nth_error_app1 in Ev by lia.
      revert Ev. generalize (firstn n (volumes ig)) as l, (Z.to_nat i) as k. clear.
      induction l as [|a l IH]; intros [|k] Ev; cbn [nth_error upd app] in *; try discriminate.
      * inversion Ev; subst. constructor. apply Permutation_cons_append.
      * etransitivity; [apply perm_swap|]. constructor. now apply IH.
Qed.

(** Histories of volumes. *)
Inductive volOp := VAdd (verts : list f32) (lo hi : f32) (area : Z) | VDel (i : Z).
Definition volStep (ig : InputGeom) (o : volOp) : res InputGeom :=
  match o with
  | VAdd vs lo hi a => AddConvexVolume ig vs lo hi a
  | VDel i => DeleteConvexVolume ig i
  end.
(** A run that also writes down what was added (when there was room) and what was deleted. *)
Fixpoint volRun (ig : InputGeom) (ops : list volOp) (added deleted : list (list f32 * f32 * f32 * Z))
    : res (InputGeom * list (list f32 * f32 * f32 * Z) * list (list f32 * f32 * f32 * Z)) :=
  match ops with
  | [] => Ok (ig, added, deleted)
  | o :: ops =>
      let* ig' := volStep ig o in
      match o with
      | VAdd vs lo hi a =>
          volRun ig' ops (if volumeCount ig <? 256 then added ++ [(vs, lo, hi, a)] else added) deleted
      | VDel i => let* v := get (stored ig) i in volRun ig' ops added (deleted ++ [shape v])
      end
  end.
(** Volumes have at most 12 vertices and only existing volumes are deleted. *)
Fixpoint volValid (count : Z) (ops : list volOp) : Prop :=
  match ops with
  | [] => True
  | VAdd vs _ _ _ :: ops => zlen vs <= 36 /\ volValid (Z.min 256 (count + 1)) ops
  | VDel i :: ops => 0 <= i < count /\ volValid (count - 1) ops
  end.

Lemma volRun_spec : forall ops ig added deleted, geom_ok ig -> volValid (volumeCount ig) ops ->
  Permutation (map shape (stored ig) ++ deleted) added ->
  exists ig' added' deleted', volRun ig ops added deleted = Ok (ig', added', deleted') /\
    geom_ok ig' /\ Permutation (map shape (stored ig') ++ deleted') added'.
Proof.
  induction ops as [|[vs lo hi a|i] ops IH]; intros ig added deleted Hg Hv Hp; cbn [volRun volStep volValid] in *.
  - eauto 10.
  - destruct Hv as [Hv Hr]. pose proof (stored_length ig Hg) as Hs.
    destruct (add_volume ig vs lo hi a Hg Hv) as (ig' & E & Hg' & Hm). rewrite E. cbn [bind].
    pose proof (stored_length ig' Hg') as Hs'.
    assert (zlen (map shape (stored ig')) = zlen (stored ig')) as L1 by (unfold zlen; now rewrite map_length).
    assert (zlen (map shape (stored ig)) = zlen (stored ig)) as L2 by (unfold zlen; now rewrite map_length).
    assert (volumeCount ig' = Z.min 256 (volumeCount ig + 1)) as Hc.
    { rewrite Hm in L1. rewrite zlen_app, L2 in L1. rewrite Hs in L1. destruct Hg as (_ & Hc & _).
      unfold maxVolumes in Hc. destruct (Z.ltb_spec (volumeCount ig) 256);
        [rewrite zlen_cons in L1|]; rewrite zlen_nil in L1; lia. }
    apply IH; [assumption|now rewrite Hc|].
    rewrite Hm, Hs. destruct (volumeCount ig <? 256).
    + rewrite <- app_assoc. etransitivity; [apply Permutation_app_head, Permutation_app_comm|].
      rewrite app_assoc. now apply Permutation_app_tail.
    + now rewrite app_nil_r.
  - destruct Hv as [Hi Hr]. pose proof (stored_length ig Hg) as Hs.
    destruct (delete_volume ig i Hg) as (ig' & v & E & Hg' & Ev & Hperm); [lia|].
    rewrite E, Ev. cbn [bind].
    assert (volumeCount ig' = volumeCount ig - 1) as Hc.
    { rewrite <- (stored_length ig Hg), <- (stored_length ig' Hg').
      apply Permutation_length in Hperm. unfold zlen. cbn [length] in Hperm. lia. }
    apply IH; [assumption|now rewrite Hc|].
    etransitivity; [|exact Hp]. etransitivity; [|apply Permutation_app_tail, Permutation_map, Hperm].
    cbn [map app]. rewrite app_assoc. symmetry. apply Permutation_cons_append.
Qed.

(** ** MarkConvexPolyArea *)

(** [later] differs from [before] only at walkable spans allowed by [P], which carry [area]. *)
Definition only_marked (P : Z -> Prop) (area : Z) (before later : list Z) : Prop :=
  zlen later = zlen before /\
  forall i a, get later i = Ok a ->
    get before i = Ok a \/
    (a = area /\ P i /\ exists b, get before i = Ok b /\ b <> Heightfield.nullArea).

Lemma only_marked_refl : forall P area l, only_marked P area l l.
Proof. split; auto. Qed.
Lemma only_marked_trans : forall P area a b c,
  only_marked P area a b -> only_marked P area b c -> only_marked P area a c.
Proof.
  intros P area a b c [L1 H1] [L2 H2]. split; [congruence|].
  intros i x Hx. destruct (H2 i x Hx) as [E|(-> & HP & y & Ey & Hy)]; [now apply H1|].
  right. split; auto. split; auto. destruct (H1 i y Ey) as [E|(_ & _ & z & Ez & Hz)]; eauto.
Qed.

Lemma foldM_inv : forall {S A} (f : S -> A -> res S) (R : S -> S -> Prop) l,
  (forall s, R s s) -> (forall a b c, R a b -> R b c -> R a c) ->
  (forall s a s', In a l -> f s a = Ok s' -> R s s') ->
  forall s s', foldM f l s = Ok s' -> R s s'.
Proof.
  intros S A f R l Hr Ht. induction l as [|a l IH]; intros Hf s s' H; cbn [foldM] in H.
  - apply Ok_inj in H. subst. auto.
  - bind_inv H. eapply Ht; [eapply Hf; [left; reflexivity|eassumption]|].
    apply IH; auto. intros. eapply Hf; [right|]; eauto.
Qed.

Lemma in_zrange : forall a b z, In z (zrange a b) <-> a <= z <= b.
Proof.
  intros a b z. unfold zrange. rewrite in_map_iff. split.
  - intros (k & <- & H). apply in_zseq in H. lia.
  - intros H. exists (z - a). split; [lia|]. apply in_zseq. lia.
Qed.
Lemma in_krange : forall a n z, In z (Compact.krange a n) <-> a <= z < a + n.
Proof.
  intros a n z. unfold Compact.krange. rewrite in_map_iff. split.
  - intros (k & <- & H). apply in_zseq in H. lia.
  - intros H. exists (z - a). split; [lia|]. apply in_zseq. lia.
Qed.

(** Span [i] lies in column (x, z) of the grid, between the two heights, and the centre of
    the column is inside the polygon according to the test. *)
Definition markable (verts : list f32) (nverts : Z) (hmin hmax bx by_ bz cs ch : f32)
    (chf : Compact.CompactHeightfield) (i : Z) : Prop :=
  exists x z c s,
    0 <= x < Compact.chf_w chf /\ 0 <= z < Compact.chf_h chf /\
    get (Compact.chf_cells chf) (x + z * Compact.chf_w chf) = Ok c /\
    Compact.cIndex c <= i < Compact.cIndex c + Compact.cCount c /\
    get (Compact.chf_spans chf) i = Ok s /\
    Num.f_to_i32 (fdiv (fsub hmin by_) ch) <= Compact.csY s <= Num.f_to_i32 (fdiv (fsub hmax by_) ch) /\
    pointInPoly nverts verts (fadd bx (fmul (fadd (f_of_Z x) (f_ratio 1 2)) cs))
                             (fadd bz (fmul (fadd (f_of_Z z) (f_ratio 1 2)) cs)) = Ok true.

Lemma mark_spec : forall verts nverts hmin hmax area bx by_ bz cs ch chf areas,
  MarkConvexPolyArea verts nverts hmin hmax area bx by_ bz cs ch chf = Ok areas ->
  only_marked (markable verts nverts hmin hmax bx by_ bz cs ch chf) area (Compact.chf_areas chf) areas.
Proof.
  intros verts nverts hmin hmax area bx by_ bz cs ch chf areas H. unfold MarkConvexPolyArea in H.
  apply bind_ok in H; destruct H as ([vx vz] & _ & H).
  apply bind_ok in H; destruct H as ([[[x0 z0] x1] z1] & _ & H).
  match type of H with (if ?c then _ else _) = _ => destruct c eqn:Ec end.
  { apply Ok_inj in H. subst. apply only_marked_refl. }
  repeat (rewrite orb_false_iff in Ec).
  destruct Ec as [[[E1 E2] E3] E4].
  apply Z.ltb_ge in E1, E3. rewrite Z.geb_leb in E2, E4. apply Z.leb_gt in E2, E4.
  set (minx := Num.f_to_i32 (fdiv (fsub x0 bx) cs)) in *.
  set (maxx := Num.f_to_i32 (fdiv (fsub x1 bx) cs)) in *.
  set (minz := Num.f_to_i32 (fdiv (fsub z0 bz) cs)) in *.
  set (maxz := Num.f_to_i32 (fdiv (fsub z1 bz) cs)) in *.
  revert H. apply foldM_inv; [apply only_marked_refl|apply only_marked_trans|].
  intros s z s' Hz. apply in_zrange in Hz.
  apply foldM_inv; [apply only_marked_refl|apply only_marked_trans|].
  intros s0 x s0' Hx H. apply in_zrange in Hx. apply bind_ok in H; destruct H as (c & Hc & H). revert H.
  apply foldM_inv; [apply only_marked_refl|apply only_marked_trans|].
  intros s1 i s1' Hi H. apply in_krange in Hi. unfold markSpan in H.
  apply bind_ok in H; destruct H as (a0 & E0 & H). destruct (Z.eqb_spec a0 Heightfield.nullArea) as [En|En].
  { apply Ok_inj in H. subst. apply only_marked_refl. }
  apply bind_ok in H; destruct H as (sp & Esp & H).
  match type of H with (if ?c then _ else _) = _ => destruct c eqn:Ey end.
  2:{ apply Ok_inj in H. subst. apply only_marked_refl. }
  apply andb_true_iff in Ey. destruct Ey as [Ey1 Ey2]. rewrite Z.geb_leb in Ey1.
  apply Z.leb_le in Ey1, Ey2.
  apply bind_ok in H; destruct H as ([|] & Ein & H).
  2:{ apply Ok_inj in H. subst. apply only_marked_refl. }
  pose proof (get_range _ _ _ E0) as Hr. rewrite set_in_range in H by lia.
  apply Ok_inj in H. subst. split; [now rewrite zlen_upd|].
  intros j a Hj. pose proof (get_range _ _ _ Hj) as Hjr. rewrite zlen_upd in Hjr.
  rewrite get_upd in Hj by lia. destruct (Z.eqb_spec j i) as [->|Hne]; [|now left].
  right. destruct (Z.ltb_spec i (zlen s1)); [|lia].
  cbn [andb] in Hj. split; [congruence|]. split; [|eauto].
  exists x, z, c, sp.
  assert (0 <= x < Compact.chf_w chf).
  { destruct (minx <? 0) eqn:?, (maxx >=? Compact.chf_w chf) eqn:?; try lia. }
  assert (0 <= z < Compact.chf_h chf).
  { destruct (minz <? 0) eqn:?, (maxz >=? Compact.chf_h chf) eqn:?; try lia. }
  intuition.
Qed.
