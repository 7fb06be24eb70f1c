(** The sections CreateNavMeshData fills are those of the specification. *)
From Coq Require Import ZArith List Lia Bool.
From Verif.Base Require Import Res GoNum F32 Num Grid Bits Bytes.
From Verif.Model Require Import Poly MeshTypes Geom MeshLinks BvTree Serial SegDist Create.
From Verif.Spec Require Import SerialSpec CreateSpec.
From Verif.Proofs Require Import CompactProofs SerialProofs FloatAdd FloatMag FloatMono FloatOk CreateBase.
Import ListNotations.
Open Scope Z_scope.

Ltac wrap := rewrite ?i32_id by (unfold is_i32; lia).

Lemma order_excl : forall x lo hi, ok32 x -> ok32 lo -> ok32 hi -> fle lo hi = true -> fge x hi = true -> flt x lo = false.
Proof.
  intros x lo hi Ox Ol Oh L G.
  assert (Hx : num x) by (destruct Ox as [->|]; [exfalso; destruct hi as [[]|[]| |[]]; discriminate G|assumption]).
  assert (Hl : num lo) by (destruct Ol as [->|]; [exfalso; destruct hi as [[]|[]| |[]]; discriminate L|assumption]).
  assert (Hh : num hi) by (destruct Oh as [->|]; [exfalso; destruct lo as [[]|[]| |[]]; discriminate L|assumption]).
  change (fge x hi) with (fle hi x) in G. rewrite fle_SV in L, G by assumption. rewrite flt_SV by assumption. apply Z.leb_le in L, G. apply Z.ltb_ge. lia.
Qed.
Lemma numbered_snoc : forall l x, numbered (l ++ [x]) = numbered l ++ [(zlen l, x)].
Proof.
  intros l x. unfold numbered. rewrite app_length. cbn [length]. rewrite Nat.add_1_r, zseq_S.
  assert (K : forall (a b : list Z) y z, length a = length b -> combine (a ++ [y]) (b ++ [z]) = combine a b ++ [(y, z)]).
  { induction a as [|u a IH]; intros [|w b] y z E; cbn [length] in E; try lia; [reflexivity|]. cbn [app combine]. rewrite IH by lia. reflexivity. }
  apply K. apply zseq_length.
Qed.
Lemma numbered_zlen : forall l, zlen (numbered l) = zlen l.
Proof. intros l. unfold numbered, zlen. rewrite combine_length, zseq_length. lia. Qed.
Lemma filter_map_zlen : forall {A} (f : A -> bool) (g : Z -> A) l, zlen (filter f (map g l)) = zlen (filter (fun i => f (g i)) l).
Proof. intros A f g l. induction l as [|x l IH]; [reflexivity|]. cbn [map filter]. destruct (f (g x)); rewrite ?zlen_cons, IH; reflexivity. Qed.
Lemma filter_zlen_le : forall {A} (f : A -> bool) l, zlen (filter f l) <= zlen l.
Proof. intros A f l. induction l as [|x l IH]; cbn [filter]; [lia|]. destruct (f x); rewrite ?zlen_cons; lia. Qed.
Lemma flat_map_snoc : forall {A B} (f : A -> list B) l x, flat_map f (l ++ [x]) = flat_map f l ++ f x.
Proof. intros. rewrite flat_map_app. cbn [flat_map]. now rewrite app_nil_r. Qed.
Lemma flat_map_zlen : forall {A B} (f : A -> list B) l c, (forall x, In x l -> zlen (f x) = c) -> zlen (flat_map f l) = c * zlen l.
Proof.
  intros A B f l c. induction l as [|x l IH]; intros H; [cbn [flat_map]; change (zlen (@nil B)) with 0; change (zlen (@nil A)) with 0; lia|].
  cbn [flat_map]. rewrite zlen_app, zlen_cons, H by (now left). rewrite IH by (intros; apply H; now right). lia.
Qed.
Lemma map_zlen : forall {A B} (f : A -> B) l, zlen (map f l) = zlen l.
Proof. intros. unfold zlen. now rewrite map_length. Qed.
Lemma zseq_zlen : forall n, zlen (zseq n) = Z.of_nat n.
Proof. intros. unfold zlen. now rewrite zseq_length. Qed.
Lemma fold_left_snoc : forall {A B} (f : A -> B -> A) l x a, fold_left f (l ++ [x]) a = f (fold_left f l a) x.
Proof. intros. rewrite fold_left_app. reflexivity. Qed.

Section Create.
Variable p : CreateParams.
Hypothesis Hz : sized p.
Let vs := nilOr (cpVerts p).
Let ps := nilOr (cpPolys p).
Let dm := nilOr (cpDMeshes p).
Let dv := nilOr (cpDVerts p).
Let nvp := cpNvp p.
Let vc := cpVertCount p.
Let pc := cpPolyCount p.
Let om := cpOMCount p.

Lemma b_verts : 3 * vc <= zlen vs.
Proof using Hz. destruct (z_verts p Hz) as (l & E & A). unfold vs. rewrite E. exact A. Qed.
Lemma b_polys : 2 * nvp * pc <= zlen ps /\ forall k, 0 <= k < 2 * nvp * pc -> is_u16 (elt ps k).
Proof using Hz. destruct (z_polys p Hz) as (l & E & A & B). unfold ps. rewrite E. exact (conj A B). Qed.
Lemma b_nums : 1 <= nvp <= 6 /\ 1 <= vc < 65535 /\ 1 <= pc < 67108864 /\ 0 <= om /\ vc + 2 * om <= 65536.
Proof using Hz. pose proof (z_nvp p Hz). pose proof (z_vc p Hz). pose proof (z_pc p Hz). pose proof (z_om p Hz). unfold nvp, vc, pc, om. lia. Qed.

(** ** Connections *)
Lemma sector_eq : forall pt h h', 0 < om -> ok32 (vx pt) -> ok32 (vz pt) ->
  classifyOffMeshPoint pt (vx (fvec_of (cpBMin p)), h, vz (fvec_of (cpBMin p))) (vx (fvec_of (cpBMax p)), h', vz (fvec_of (cpBMax p))) = sector p pt.
Proof using Hz.
  intros pt h h' Ho Ox Oz. destruct (z_box p Hz Ho) as [Bx Bz]. unfold classifyOffMeshPoint, sector, side1. cbn [vx vz].
  set (x0 := vx (fvec_of (cpBMin p))) in *. set (x1 := vx (fvec_of (cpBMax p))) in *. set (z0 := vz (fvec_of (cpBMin p))) in *. set (z1 := vz (fvec_of (cpBMax p))) in *.
  assert (Kx : fge (vx pt) x1 = true -> flt (vx pt) x0 = false).
  { apply order_excl; try assumption; unfold x0, x1; [destruct (cpBMin p) as [[? ?] ?]|destruct (cpBMax p) as [[? ?] ?]]; apply ok_of_bits. }
  assert (Kz : fge (vz pt) z1 = true -> flt (vz pt) z0 = false).
  { apply order_excl; try assumption; unfold z0, z1; [destruct (cpBMin p) as [[? ?] ?]|destruct (cpBMax p) as [[? ?] ?]]; apply ok_of_bits. }
  destruct (fge (vx pt) x1), (fge (vz pt) z1); rewrite ?Kx, ?Kz by reflexivity; destruct (flt (vx pt) x0), (flt (vz pt) z0); try reflexivity;
  try (specialize (Kx eq_refl); discriminate); try (specialize (Kz eq_refl); discriminate).
Qed.
Definition start_class (i : Z) : Z :=
  if (sector p (start_pt p i) =? 255) && (flt (vy (start_pt p i)) (hlow p) || fgt (vy (start_pt p i)) (hhigh p)) then 0 else sector p (start_pt p i).
Lemma start_class_255 : forall i, (start_class i =? 255) = starts_here p i.
Proof.
  intros i. unfold start_class, starts_here. destruct (Z.eqb_spec (sector p (start_pt p i)) 255) as [E|E]; cbn [andb].
  - destruct (flt _ _), (fgt _ _); cbn [orb negb andb]; try reflexivity; now rewrite E.
  - now apply Z.eqb_neq.
Qed.
Definition classes : list (Z * Z) := map (fun i => (start_class i, sector p (end_pt p i))) (upto om).

Lemma heights_eq : 0 < om -> heightBounds p = Ok (fold_left fminf (heights p) maxFloat32, fold_left fmaxf (heights p) (fopp maxFloat32)).
Proof using Hz.
  intros Ho. pose proof b_verts as Lv. pose proof b_nums as N. pose proof (z_dcount p Hz) as D. unfold heightBounds, heights.
  assert (K : forall (f : f32 * f32 -> Z -> res (f32 * f32)) (g : Z -> f32) n,
    (forall mn mx i, 0 <= i < Z.of_nat n -> f (mn, mx) i = Ok (fminf mn (g i), fmaxf mx (g i))) ->
    foldM f (zseq n) (maxFloat32, fopp maxFloat32) = Ok (fold_left fminf (map g (zseq n)) maxFloat32, fold_left fmaxf (map g (zseq n)) (fopp maxFloat32))).
  { intros f g n H. apply (foldM_fun f (fun k => (fold_left fminf (map g (zseq k)) maxFloat32, fold_left fmaxf (map g (zseq k)) (fopp maxFloat32)))).
    intros k Hk. rewrite H by lia. change (1 + k)%nat with (S k). rewrite zseq_S, map_app. cbn [map]. now rewrite !fold_left_snoc. }
  assert (M : foldM (fun '(mn, mx) i => let* iv := from vs (i32 (i * 3)) in let* y := get iv 1 in
        let h := fadd (vy (fvec_of (cpBMin p))) (fmul (f_of_Z y) (f_of_bits (cpCh p))) in Ok (fminf mn h, fmaxf mx h)) (zseq (Z.to_nat vc)) (maxFloat32, fopp maxFloat32) =
      Ok (fold_left fminf (map (fun i => fadd (vy (fvec_of (cpBMin p))) (fmul (f_of_Z (elt vs (3 * i + 1))) (f_of_bits (cpCh p)))) (upto vc)) maxFloat32,
          fold_left fmaxf (map (fun i => fadd (vy (fvec_of (cpBMin p))) (fmul (f_of_Z (elt vs (3 * i + 1))) (f_of_bits (cpCh p)))) (upto vc)) (fopp maxFloat32))).
  { unfold upto. apply K. intros mn mx i Hi. wrap. rewrite from_ok by lia. cbn [bind]. rewrite get_skipn by lia. cbn [bind]. replace (i * 3 + 1) with (3 * i + 1) by lia. reflexivity. }
  unfold nilOr in D. destruct (cpDVerts p) as [d|]; [|exact M]. destruct (cpDVertsCount p =? 0); [exact M|]. clear M. unfold upto. apply K.
  intros mn mx i Hi. wrap. rewrite get_elt by lia. cbn [bind]. replace (i * 3 + 1) with (3 * i + 1) by lia. reflexivity.
Qed.
Lemma vec3_elt : forall l o, 0 <= o -> o + 3 <= zlen l -> vec3_at l o = Ok (f_of_bits (elt l o), f_of_bits (elt l (o + 1)), f_of_bits (elt l (o + 2))).
Proof. intros l o H1 H2. unfold vec3_at. rewrite !get_elt by lia. reflexivity. Qed.
Lemma classify_eq : classifyAll p = Ok classes.
Proof using Hz.
  pose proof b_nums as N. destruct (z_omverts p Hz) as [Lo _]. unfold classifyAll. fold om in Lo |- *. unfold classes.
  destruct (Z.ltb_spec 0 om) as [Ho|Ho]; [|replace om with 0 by lia; reflexivity].
  wrap. unfold make_len. destruct (Z.ltb_spec (om * 2) 0); [lia|]. cbn [bind]. rewrite heights_eq by assumption. cbn [bind]. fold (hlow p) (hhigh p).
  unfold upto. apply (foldM_fun _ (fun k => map (fun i => (start_class i, sector p (end_pt p i))) (zseq k))).
  intros k Hk. unfold classifyCon. wrap. rewrite !vec3_elt by lia. cbn [bind].
  replace (Z.of_nat k * 2 * 3) with (6 * Z.of_nat k + 0) by lia. replace ((Z.of_nat k * 2 + 1) * 3) with (6 * Z.of_nat k + 3) by lia.
  rewrite <- !Z.add_assoc. change (0 + 1) with 1. change (0 + 2) with 2. change (3 + 1) with 4. change (3 + 2) with 5.
  fold (start_pt p (Z.of_nat k)) (end_pt p (Z.of_nat k)).
  rewrite !sector_eq by (try assumption; apply ok_of_bits). change (1 + k)%nat with (S k). rewrite zseq_S, map_app. reflexivity.
Qed.
Lemma stored_eq : storedCount classes = zlen (kept p).
Proof. unfold storedCount, classes, kept. rewrite filter_map_zlen. cbn [fst]. f_equal. apply filter_ext. intros i. apply start_class_255. Qed.
Lemma ends_eq : endCount classes = zlen (kept p) + zlen (ends_here p).
Proof. unfold endCount. rewrite stored_eq. unfold classes, ends_here. rewrite filter_map_zlen. reflexivity. Qed.
Lemma kept_le : 0 <= zlen (kept p) <= om.
Proof using Hz. pose proof b_nums. split; [apply zlen_nonneg|]. unfold kept. etransitivity; [apply filter_zlen_le|]. fold om. rewrite upto_zlen; lia. Qed.
Lemma ends_le : 0 <= zlen (ends_here p) <= om.
Proof using Hz. pose proof b_nums. split; [apply zlen_nonneg|]. unfold ends_here. etransitivity; [apply filter_zlen_le|]. fold om. rewrite upto_zlen; lia. Qed.
Lemma get_class : forall i, 0 <= i < om -> get classes i = Ok (start_class i, sector p (end_pt p i)).
Proof. intros i H. unfold classes, upto. rewrite get_map, get_zseq by lia. reflexivity. Qed.

(** ** Polygon rows *)
Lemma row_base : forall i, 0 <= i < pc -> 0 <= 2 * nvp * i /\ 2 * nvp * i + 2 * nvp <= zlen ps /\ 2 * nvp * i < 2147483648.
Proof using Hz. intros i Hi. destruct b_polys as [L _]. pose proof b_nums. nia. Qed.
Lemma skipn_u16 : forall i, 0 <= i < pc -> forall k, 0 <= k < 2 * nvp -> is_u16 (elt (skipn (Z.to_nat (2 * nvp * i)) ps) k).
Proof using Hz. intros i Hi k Hk. destruct b_polys as [_ F]. pose proof b_nums. rewrite elt_skipn by nia. apply F. nia. Qed.
Lemma row_u16 : forall i a n, 0 <= i < pc -> 0 <= a -> a + n <= 2 * nvp -> Forall is_u16 (part ps (2 * nvp * i + a) n).
Proof using Hz.
  intros i a n Hi Ha Hn. destruct b_polys as [L F]. pose proof b_nums. apply Forall_forall. intros x Hx. apply (In_nth _ _ 0) in Hx as (t & Ht & <-).
  unfold part in *. rewrite firstn_length, skipn_length in Ht. rewrite nth_firstn_z, nth_skipn_z by lia.
  replace (Z.to_nat (2 * nvp * i + a) + t)%nat with (Z.to_nat (2 * nvp * i + a + Z.of_nat t)) by nia. apply (F (2 * nvp * i + a + Z.of_nat t)). nia.
Qed.
Lemma row_verts : forall i, 0 <= i -> row (skipn (Z.to_nat (2 * nvp * i)) ps) 0 (Z.to_nat nvp) = verts_of p i.
Proof using Hz. intros i Hi. pose proof b_nums. unfold row, verts_of. fold ps nvp. rewrite part_skipn by nia. rewrite Z.add_0_r, Z2Nat.id by lia. reflexivity. Qed.
Lemma row_edges : forall i, 0 <= i -> part (skipn (Z.to_nat (2 * nvp * i)) ps) (nvp + 0) (zlen (verts_of p i)) = edges_of p i.
Proof using Hz. intros i Hi. pose proof b_nums. unfold edges_of. fold ps nvp. rewrite part_skipn by nia. f_equal. lia. Qed.
Lemma verts_len : forall i, zlen (verts_of p i) <= nvp.
Proof using Hz. intros i. pose proof b_nums. unfold verts_of. etransitivity; [apply before_null_le|]. apply part_zlen_le. fold nvp. lia. Qed.
Lemma edges_len : forall i, 0 <= i < pc -> zlen (edges_of p i) = zlen (verts_of p i).
Proof using Hz.
  intros i Hi. pose proof (row_base i Hi). pose proof (verts_len i). pose proof (zlen_nonneg (verts_of p i)). pose proof b_nums. unfold edges_of. fold ps nvp. apply part_zlen; lia.
Qed.

Lemma edges_eq : allEdges p = Ok (zlen (all_edges p), zlen (filter is_portal (all_edges p))) /\ zlen (all_edges p) <= 6 * pc.
Proof using Hz.
  pose proof b_nums as N.
  assert (B : forall k, (k <= Z.to_nat pc)%nat -> zlen (flat_map (edges_of p) (zseq k)) <= 6 * Z.of_nat k).
  { induction k as [|k IH]; intros Hk; [cbn; lia|]. rewrite zseq_S, flat_map_snoc, zlen_app, edges_len by lia. specialize (IH ltac:(lia)). pose proof (verts_len (Z.of_nat k)). lia. }
  split; [|unfold all_edges, upto; fold pc; specialize (B (Z.to_nat pc) ltac:(lia)); lia].
  unfold allEdges. fold ps nvp pc. unfold all_edges, upto. fold pc.
  apply (foldM_fun _ (fun k => (zlen (flat_map (edges_of p) (zseq k)), zlen (filter is_portal (flat_map (edges_of p) (zseq k)))))).
  intros k Hk. destruct (row_base (Z.of_nat k) ltac:(lia)) as (B1 & B2 & B3). replace (Z.of_nat k * 2 * nvp) with (2 * nvp * Z.of_nat k) by lia. wrap.
  rewrite from_ok by lia. cbn [bind]. specialize (B k ltac:(lia)). pose proof (filter_zlen_le is_portal (flat_map (edges_of p) (zseq k))).
  rewrite countEdges_eq; try lia; [|rewrite zlen_skipn; lia|apply skipn_u16; lia|apply zlen_nonneg|apply zlen_nonneg].
  rewrite row_verts, row_edges by lia. change (1 + k)%nat with (S k). rewrite zseq_S, flat_map_snoc, filter_app, !zlen_app, edges_len by lia. reflexivity.
Qed.
Lemma ground_u : forall a, Z.lor (Z.land (Z.lor (Z.land 0 192) (Z.land a 63)) 63) (u8 (Z.shiftl 0 6)) = a mod 64.
Proof.
  intros a. change (u8 (Z.shiftl 0 6)) with 0. rewrite Z.lor_0_r. change (Z.land 0 192) with 0. rewrite Z.lor_0_l, <- Z.land_assoc. exact (land_mask a 6 ltac:(lia)).
Qed.
Lemma con_u : forall a, Z.lor (Z.land (Z.lor (Z.land 0 192) (Z.land a 63)) 63) (u8 (Z.shiftl 1 6)) = 64 + a mod 64.
Proof.
  intros a. change (u8 (Z.shiftl 1 6)) with 64. change (Z.land 0 192) with 0. rewrite Z.lor_0_l, <- Z.land_assoc. change (Z.land 63 63) with (2 ^ 6 - 1). rewrite land_mask by lia.
  pose proof (Z.mod_pos_bound a (2 ^ 6) ltac:(lia)). change 64 with (Z.shiftl 1 6) at 1. rewrite Z.lor_comm. rewrite lor_shiftl_add by lia. reflexivity.
Qed.

(** ** Vertices *)
Lemma world_len : forall i, zlen (world p i) = 3.
Proof. intros i. unfold world. destruct (fvec_of (cpBMin p)) as [[? ?] ?]. reflexivity. Qed.
Lemma ends_len : forall i, 0 <= i < om -> zlen (ends p i) = 6.
Proof using Hz. intros i Hi. destruct (z_omverts p Hz) as [L _]. unfold ends. fold om in L. apply part_zlen; lia. Qed.
Lemma fillVerts_eq : forall n, 3 * vc <= Z.of_nat n ->
  foldM (fillVert p) (zseq (Z.to_nat vc)) (repeat 0 n) = Ok (pad n 0 (flat_map (world p) (upto vc))).
Proof using Hz.
  intros n Hn. pose proof b_nums as N. pose proof b_verts as Lv. unfold upto.
  assert (E0 : repeat 0 n = pad n 0 (flat_map (world p) (zseq 0))) by (symmetry; apply pad_nil). rewrite E0. clear E0.
  apply (foldM_fun _ (fun k => pad n 0 (flat_map (world p) (zseq k)))).
  intros k Hk. unfold fillVert. fold vs. wrap. rewrite slice_part by lia. cbn [bind].
  set (i := Z.of_nat k) in *. assert (Hi : 0 <= i < vc) by lia. replace (i * 3 + 3 - i * 3) with (1 + (1 + (1 + 0))) by lia.
  rewrite !part_cons by lia. rewrite part_0. replace (i * 3) with (3 * i) by lia. replace (3 * i + 1 + 1) with (3 * i + 2) by lia. cbn [get]. 
  change (get [elt vs (3 * i); elt vs (3 * i + 1); elt vs (3 * i + 2)] 0) with (Ok (elt vs (3 * i))). 
  change (get [elt vs (3 * i); elt vs (3 * i + 1); elt vs (3 * i + 2)] 1) with (Ok (elt vs (3 * i + 1))).
  change (get [elt vs (3 * i); elt vs (3 * i + 1); elt vs (3 * i + 2)] 2) with (Ok (elt vs (3 * i + 2))). cbn [bind].
  assert (L : zlen (flat_map (world p) (zseq k)) = 3 * i) by (rewrite (flat_map_zlen _ _ 3) by (intros; apply world_len); rewrite zseq_zlen; reflexivity).
  rewrite putA_pad; [|now rewrite L|rewrite L, !zlen_cons; change (zlen (@nil Z)) with 0; lia]. change (1 + k)%nat with (S k). rewrite zseq_S, flat_map_snoc. fold i.
  unfold world. fold vs. destruct (fvec_of (cpBMin p)) as [[? ?] ?]. reflexivity.
Qed.
Definition kept_to (k : nat) : list Z := filter (starts_here p) (zseq k).
Lemma kept_S : forall k, kept_to (S k) = kept_to k ++ (if starts_here p (Z.of_nat k) then [Z.of_nat k] else []).
Proof. intros k. unfold kept_to. rewrite zseq_S, filter_app. reflexivity. Qed.
Lemma kept_to_in : forall k i, In i (kept_to k) -> 0 <= i < Z.of_nat k.
Proof. intros k i H. apply filter_In in H as [H _]. now apply in_zseq. Qed.
Lemma kept_to_len : forall k, zlen (kept_to k) <= Z.of_nat k.
Proof. intros k. unfold kept_to. etransitivity; [apply filter_zlen_le|]. rewrite zseq_zlen. lia. Qed.
Lemma kept_to_kept : kept_to (Z.to_nat om) = kept p.
Proof. reflexivity. Qed.
Lemma kept_to_mono : forall k, (S k <= Z.to_nat om)%nat -> starts_here p (Z.of_nat k) = true -> zlen (kept_to k) + 1 <= zlen (kept p).
Proof.
  intros k Hk Hs. rewrite <- kept_to_kept. assert (K : forall j, (S k <= j)%nat -> zlen (kept_to k) + 1 <= zlen (kept_to j)).
  { induction j as [|j IH]; intros Hj; [lia|]. destruct (Nat.eq_dec k j) as [->|].
    - rewrite kept_S, Hs, zlen_snoc. lia.
    - rewrite kept_S, zlen_app. specialize (IH ltac:(lia)). pose proof (zlen_nonneg (if starts_here p (Z.of_nat j) then [Z.of_nat j] else [])). lia. }
  apply K. exact Hk.
Qed.
Lemma slice_ends : forall i, 0 <= i < om -> slice (cpOMVerts p) (i32 (i * 2 * 3)) (i32 (i * 2 * 3) + 6) = Ok (ends p i).
Proof using Hz.
  intros i Hi. pose proof b_nums. destruct (z_omverts p Hz) as [L _]. fold om in L. wrap. rewrite slice_part by lia. unfold ends. f_equal. f_equal; lia.
Qed.
Lemma fillConVerts_eq : forall n done, zlen done = 3 * vc -> 3 * vc + 6 * zlen (kept p) <= Z.of_nat n ->
  exists m, foldM (fillConVerts p classes) (zseq (Z.to_nat om)) (pad n 0 done, 0) = Ok (pad n 0 (done ++ flat_map (ends p) (kept p)), m).
Proof using Hz.
  intros n done Ld Hn. pose proof b_nums as N.
  destruct (foldM_zseq (fillConVerts p classes) (fun k st => st = (pad n 0 (done ++ flat_map (ends p) (kept_to k)), zlen (kept_to k))) (Z.to_nat om) (pad n 0 done, 0)) as (s & E & ->).
  - cbn [kept_to zseq seq map filter flat_map]. now rewrite app_nil_r.
  - intros k s Hk ->. unfold fillConVerts. rewrite get_class by lia. cbn [bind fst]. rewrite start_class_255. rewrite kept_S.
    destruct (starts_here p (Z.of_nat k)) eqn:Hs; [|eexists; split; [reflexivity|rewrite app_nil_r; reflexivity]].
    pose proof (kept_to_mono k ltac:(lia) Hs) as KM. pose proof (zlen_nonneg (kept_to k)). pose proof kept_le.
    rewrite slice_ends by lia. cbn [bind]. assert (L : zlen (flat_map (ends p) (kept_to k)) = 6 * zlen (kept_to k)).
    { apply flat_map_zlen. intros x Hx. apply ends_len. apply kept_to_in in Hx. lia. }
    fold vc. wrap. rewrite putA_pad; [|rewrite zlen_app; lia|rewrite zlen_app, ends_len by lia; lia]. cbn [bind].
    eexists. split; [reflexivity|]. rewrite flat_map_snoc, zlen_snoc, app_assoc. reflexivity.
  - rewrite E, kept_to_kept. eauto.
Qed.

(** ** Polygons *)
Lemma fillPolys_eq : forall n, pc <= Z.of_nat n ->
  exists src, foldM (fillPoly p) (zseq (Z.to_nat pc)) (repeat zeroPoly n, ps) = Ok (pad n zeroPoly (map (ground p) (upto pc)), src).
Proof using Hz.
  intros n Hn. pose proof b_nums as N. destruct b_polys as [Lp Up].
  destruct (foldM_zseq (fillPoly p) (fun k st => st = (pad n zeroPoly (map (ground p) (zseq k)), skipn (Z.to_nat (2 * nvp * Z.of_nat k)) ps)) (Z.to_nat pc) (repeat zeroPoly n, ps)) as (s & E & ->).
  - f_equal; [symmetry; apply pad_nil|]. now rewrite Z.mul_0_r.
  - intros k s Hk ->. destruct (row_base (Z.of_nat k) ltac:(lia)) as (B1 & B2 & B3). unfold fillPoly.
    assert (L : zlen (map (ground p) (zseq k)) = Z.of_nat k) by (rewrite map_zlen, zseq_zlen; reflexivity).
    rewrite get_pad_next by lia. cbn [bind]. destruct (z_pflags p Hz) as [Lf _]. destruct (z_pareas p Hz) as [La _]. fold pc in Lf, La.
    rewrite !get_elt by lia. cbn [bind]. unfold SetType, SetArea, with_AreaAndType. cbn [pFirstLink pVerts pNeis pFlags pVertCount pAreaAndType zeroPoly].
    rewrite ground_u. fold nvp. change (repeat 0 6) with (six []).
    rewrite fillEdges_eq; try lia; try reflexivity; [|rewrite zlen_skipn; lia|apply skipn_u16; lia]. cbn [bind app].
    rewrite row_verts, row_edges by lia. rewrite set_pad by lia. cbn [bind]. wrap. rewrite from_ok by (rewrite zlen_skipn; lia). cbn [bind].
    eexists. split; [reflexivity|]. change (1 + k)%nat with (S k). rewrite zseq_S, map_app. cbn [map]. f_equal.
    rewrite skipn_skipn. f_equal. rewrite Nat2Z.inj_succ. nia.
  - rewrite E. unfold upto. eauto.
Qed.
Lemma fillConPolys_eq : forall n done, zlen done = pc -> pc + zlen (kept p) <= Z.of_nat n ->
  exists m, foldM (fillConPoly p classes) (zseq (Z.to_nat om)) (pad n zeroPoly done, 0) = Ok (pad n zeroPoly (done ++ map (con_poly p) (numbered (kept p))), m).
Proof using Hz.
  intros n done Ld Hn. pose proof b_nums as N.
  destruct (foldM_zseq (fillConPoly p classes) (fun k st => st = (pad n zeroPoly (done ++ map (con_poly p) (numbered (kept_to k))), zlen (kept_to k))) (Z.to_nat om) (pad n zeroPoly done, 0)) as (s & E & ->).
  - change (numbered (kept_to 0)) with (@nil (Z * Z)). cbn [map]. now rewrite app_nil_r.
  - intros k s Hk ->. unfold fillConPoly. rewrite get_class by lia. cbn [bind fst]. rewrite start_class_255. rewrite kept_S.
    destruct (starts_here p (Z.of_nat k)) eqn:Hs; [|eexists; split; [reflexivity|rewrite app_nil_r; reflexivity]].
    pose proof (kept_to_mono k ltac:(lia) Hs) as KM. pose proof (zlen_nonneg (kept_to k)). pose proof kept_le.
    assert (L : zlen (done ++ map (con_poly p) (numbered (kept_to k))) = pc + zlen (kept_to k)) by (rewrite zlen_app, map_zlen, numbered_zlen; lia).
    fold pc vc. wrap. rewrite get_pad_next by lia. cbn [bind]. cbn [pFirstLink pVerts pNeis pFlags pVertCount pAreaAndType zeroPoly].
    rewrite !u16_id by (unfold is_u16; lia). change (set (repeat 0 6) 0 (vc + zlen (kept_to k) * 2)) with (Ok [vc + zlen (kept_to k) * 2; 0; 0; 0; 0; 0]). cbn [bind].
    match goal with |- context [set [?a; 0; 0; 0; 0; 0] 1 ?b] => change (set [a; 0; 0; 0; 0; 0] 1 b) with (Ok [a; b; 0; 0; 0; 0]) end. cbn [bind].
    destruct (z_omflags p Hz) as [Lf _]. destruct (z_omareas p Hz) as [La _]. fold om in Lf, La. rewrite !get_elt by lia. cbn [bind].
    unfold SetType, SetArea, with_AreaAndType. cbn [pFirstLink pVerts pNeis pFlags pVertCount pAreaAndType]. change polyTypeOffMeshConnection with 1. rewrite con_u.
    rewrite set_pad by lia. cbn [bind]. eexists. split; [reflexivity|]. rewrite zlen_snoc, numbered_snoc, map_app, app_assoc. cbn [map con_poly]. fold vc.
    replace (zlen (kept_to k) * 2) with (2 * zlen (kept_to k)) by lia. reflexivity.
  - rewrite E, kept_to_kept. eauto.
Qed.

(** ** Connections *)
Lemma fillCons_eq : exists m, foldM (fillCon p classes) (zseq (Z.to_nat om)) (repeat zeroCon (Z.to_nat (zlen (kept p))), 0) = Ok (map (con_of p) (numbered (kept p)), m).
Proof using Hz.
  pose proof b_nums as N. set (n := Z.to_nat (zlen (kept p))). assert (En : Z.of_nat n = zlen (kept p)) by (unfold n; pose proof kept_le; lia).
  destruct (foldM_zseq (fillCon p classes) (fun k st => st = (pad n zeroCon (map (con_of p) (numbered (kept_to k))), zlen (kept_to k))) (Z.to_nat om) (repeat zeroCon n, 0)) as (s & E & ->).
  - change (numbered (kept_to 0)) with (@nil (Z * Z)). cbn [map]. now rewrite pad_nil.
  - intros k s Hk ->. unfold fillCon. rewrite get_class by lia. cbn [bind fst snd]. rewrite start_class_255. rewrite kept_S.
    destruct (starts_here p (Z.of_nat k)) eqn:Hs; [|eexists; split; [reflexivity|rewrite app_nil_r; reflexivity]].
    pose proof (kept_to_mono k ltac:(lia) Hs) as KM. pose proof (zlen_nonneg (kept_to k)). pose proof kept_le. pose proof (z_ompoly p Hz ltac:(fold om; lia)) as OP. fold pc om in OP.
    rewrite slice_ends by lia. cbn [bind]. destruct (z_omrad p Hz) as [Lr _]. pose proof (z_omdir p Hz) as Ldir. destruct (z_omuid p Hz) as [Lu _]. fold om in Lr, Ldir, Lu.
    rewrite !get_elt by lia. cbn [bind].
    assert (Eu : match cpOMUserID p with [] => Ok 0 | l => get l (Z.of_nat k) end = Ok (elt (cpOMUserID p) (Z.of_nat k))).
    { destruct (cpOMUserID p) as [|u l]; [unfold elt; now destruct (Z.to_nat (Z.of_nat k))|]. destruct Lu as [Lu|Lu]; [discriminate|]. apply get_elt. lia. }
    rewrite Eu. cbn [bind]. assert (L : zlen (map (con_of p) (numbered (kept_to k))) = zlen (kept_to k)) by (now rewrite map_zlen, numbered_zlen).
    rewrite set_pad by lia. cbn [bind]. fold pc. rewrite u16_id by (unfold is_u16; lia). eexists. split; [reflexivity|].
    rewrite zlen_snoc, numbered_snoc, map_app. reflexivity.
  - rewrite E, kept_to_kept. rewrite pad_full; [eauto|]. pose proof (numbered_zlen (kept p)) as L. unfold zlen in L. rewrite map_length. unfold n, zlen. lia.
Qed.

(** ** Details *)
Hypothesis Hd : detailed p.
Lemma b_dm : cpDMeshes p = Some dm /\ 4 * pc <= zlen dm.
Proof using Hd. destruct (d_some p Hd) as (l & E & A & _). unfold dm. rewrite E. auto. Qed.
Lemma b_each : forall i, 0 <= i < pc -> 0 <= elt dm (4 * i) /\ 1 <= elt dm (4 * i + 1) /\ 0 <= extra p i <= 255 /\ elt dm (4 * i + 1) = zlen (verts_of p i) + extra p i /\
  3 * (elt dm (4 * i) + elt dm (4 * i + 1)) <= Z.min (zlen dv) 2147483647 /\ 0 <= elt dm (4 * i + 2) < 2147483648 /\ 0 <= elt dm (4 * i + 3) <= 255.
Proof using Hd.
  intros i Hi. pose proof (d_each p Hd i Hi) as K. cbv zeta in K. fold dm dv in K. unfold extra. fold dm.
  destruct (d_some p Hd) as (l & E & A & F). fold pc in A. assert (dm = l) as El by (unfold dm; now rewrite E). rewrite <- El in *.
  pose proof (elt_Forall _ dm (4 * i + 2) F ltac:(lia)) as U. unfold is_i32 in U. lia.
Qed.
Lemma sum_app : forall a b, sum_up (a ++ b) = sum_up a + sum_up b.
Proof. unfold sum_up. induction a as [|x a IH]; intros b; cbn [app fold_right]; [reflexivity|]. rewrite IH. lia. Qed.
Lemma extra_S : forall k, extra_total p (Z.of_nat (S k)) = extra_total p (Z.of_nat k) + extra p (Z.of_nat k).
Proof. intros k. unfold extra_total. rewrite !upto_nat, zseq_S, map_app, sum_app. unfold sum_up. cbn [map fold_right]. lia. Qed.
Lemma extra_mono : forall k j, (k <= j)%nat -> (j <= Z.to_nat pc)%nat -> 0 <= extra_total p (Z.of_nat k) <= extra_total p (Z.of_nat j).
Proof using Hd.
  intros k j Hkj Hj. assert (P : forall n, (n <= Z.to_nat pc)%nat -> 0 <= extra_total p (Z.of_nat n)).
  { induction n as [|n IH]; intros Hn; [cbn; lia|]. rewrite extra_S. specialize (IH ltac:(lia)). pose proof (b_each (Z.of_nat n) ltac:(lia)). lia. }
  split; [apply P; lia|]. induction Hkj as [|j Hkj IH]; [lia|]. rewrite extra_S. specialize (IH ltac:(lia)). pose proof (b_each (Z.of_nat j) ltac:(lia)). lia.
Qed.
Lemma extra_le : forall k, (k <= Z.to_nat pc)%nat -> 0 <= extra_total p (Z.of_nat k) <= extra_total p pc /\ 3 * extra_total p pc <= 65535.
Proof using Hd Hz. intros k Hk. pose proof b_nums. pose proof (extra_mono k (Z.to_nat pc) Hk ltac:(lia)) as M. rewrite Z2Nat.id in M by lia. pose proof (d_total p Hd) as D. fold pc in D. lia. Qed.
Lemma detailCounts_eq : detailCounts p = Ok (extra_total p pc, cpDTriCount p).
Proof using Hd Hz.
  pose proof b_nums as N. destruct b_dm as [E L]. unfold detailCounts. rewrite E. fold ps nvp pc.
  assert (K : foldM (fun u i => let* q := from ps (i32 (i * nvp * 2)) in let* ndv := get dm (i32 (i * 4 + 1)) in let* nv := countVerts (Z.to_nat nvp) q 0 0 in Ok (i32 (u + i32 (ndv - nv))))
                (zseq (Z.to_nat pc)) 0 = Ok (extra_total p (Z.of_nat (Z.to_nat pc)))).
  { apply (foldM_fun _ (fun k => extra_total p (Z.of_nat k))). intros k Hk. destruct (row_base (Z.of_nat k) ltac:(lia)) as (B1 & B2 & B3).
    replace (Z.of_nat k * nvp * 2) with (2 * nvp * Z.of_nat k) by lia. rewrite (i32_id (2 * nvp * Z.of_nat k)), (i32_id (Z.of_nat k * 4 + 1)) by (unfold is_i32; lia).
    rewrite from_ok by lia. cbn [bind]. rewrite get_elt by lia. cbn [bind].
    rewrite (countVerts_eq _ nvp) by (try rewrite zlen_skipn; lia). cbn [bind]. rewrite row_verts by lia.
    change (1 + k)%nat with (S k). rewrite extra_S. destruct (b_each (Z.of_nat k) ltac:(lia)) as (_ & _ & D & De & _). destruct (extra_le k ltac:(lia)).
    replace (Z.of_nat k * 4 + 1) with (4 * Z.of_nat k + 1) by lia. rewrite De. replace (zlen (verts_of p (Z.of_nat k)) + extra p (Z.of_nat k) - (0 + zlen (verts_of p (Z.of_nat k)))) with (extra p (Z.of_nat k)) by lia. rewrite (i32_id (extra p (Z.of_nat k))) by (unfold is_i32; lia). wrap. reflexivity. }
  rewrite K, Z2Nat.id by lia. reflexivity.
Qed.
Lemma extra_verts_len : forall i, 0 <= i < pc -> zlen (extra_verts p i) = 3 * extra p i.
Proof using Hd.
  intros i Hi. destruct (b_each i Hi) as (A & _ & B & C & D & _). unfold extra_verts. fold dm dv. pose proof (zlen_nonneg (verts_of p i)). apply part_zlen; lia.
Qed.
Lemma extra_flat : forall k, (k <= Z.to_nat pc)%nat -> zlen (flat_map (extra_verts p) (zseq k)) = 3 * extra_total p (Z.of_nat k).
Proof using Hd.
  induction k as [|k IH]; intros Hk; [reflexivity|]. rewrite zseq_S, flat_map_snoc, zlen_app, IH, extra_verts_len, extra_S by lia. lia.
Qed.
Lemma fillDetails_eq : forall polys rest, polys = map (ground p) (upto pc) ++ rest ->
  let nd := Z.to_nat pc in let nv := Z.to_nat (3 * extra_total p pc) in
  exists vb, foldM (fillDetail p dm polys) (zseq (Z.to_nat pc)) (repeat zeroDetail nd, repeat 0 nv, 0) =
    Ok (map (detail_of p) (upto pc), flat_map (extra_verts p) (upto pc), vb).
Proof using Hd Hz.
  intros polys rest -> nd nv. pose proof b_nums as N. destruct b_dm as [_ Ldm]. destruct (extra_le (Z.to_nat pc) ltac:(lia)) as [X0 X1].
  rewrite Z2Nat.id in X0 by lia.
  destruct (foldM_zseq (fillDetail p dm (map (ground p) (upto pc) ++ rest)) (fun k st => st = (pad nd zeroDetail (map (detail_of p) (zseq k)), pad nv 0 (flat_map (extra_verts p) (zseq k)), extra_total p (Z.of_nat k)))
    (Z.to_nat pc) (repeat zeroDetail nd, repeat 0 nv, 0)) as (s & E & ->).
  - cbn [zseq seq map flat_map]. now rewrite !pad_nil.
  - intros k s Hk ->. set (i := Z.of_nat k) in *. assert (Hi : 0 <= i < pc) by lia. destruct (b_each i Hi) as (D1 & D2 & D3 & D4 & D5 & D6 & D7).
    pose proof (extra_flat k ltac:(lia)) as LF. fold i in LF. destruct (extra_le k ltac:(lia)) as [X2 _]. fold i in X2. destruct (extra_le (S k) ltac:(lia)) as [X3 _]. rewrite extra_S in X3. fold i in X3.
    unfold fillDetail. wrap. replace (i * 4) with (4 * i) by lia. rewrite !get_elt by lia. cbn [bind].
    assert (Gp : get (map (ground p) (upto pc) ++ rest) i = Ok (ground p i)).
    { rewrite get_app1 by (rewrite map_zlen, upto_zlen; lia). unfold upto. rewrite get_map, get_zseq by lia. reflexivity. }
    rewrite Gp. cbn [bind ground pVertCount]. replace (elt dm (4 * i + 1) - zlen (verts_of p i)) with (extra p i) by lia.
    rewrite (u32_id (elt dm (4 * i + 2))) by (unfold is_u32; lia). rewrite (u8_id (extra p i)), (u8_id (elt dm (4 * i + 3))) by (unfold is_u8; lia).
    rewrite set_pad by (rewrite ?map_zlen, zseq_zlen; lia). cbn [bind]. change (1 + k)%nat with (S k). rewrite zseq_S, map_app, flat_map_snoc. fold i. cbn [map].
    change (mkDetail (extra_total p i) (elt dm (4 * i + 2)) (extra p i) (elt dm (4 * i + 3))) with (detail_of p i). rewrite extra_S. fold i.
    rewrite (i32_id (extra p i)) by (unfold is_i32; lia). destruct (Z.eqb_spec (extra p i) 0) as [X|X].
    + eexists. split; [reflexivity|]. rewrite X, Z.add_0_r. unfold extra_verts. rewrite X. change (3 * 0) with 0. rewrite part_0, app_nil_r. reflexivity.
    + pose proof (zlen_nonneg (verts_of p i)). rewrite (i32_id (elt dm (4 * i) + zlen (verts_of p i))) by (unfold is_i32; lia). rewrite (i32_id (3 * extra p i)) by (unfold is_i32; lia). wrap. fold dv.
      rewrite slice_part by lia. cbn [bind].
      replace (part dv ((elt dm (4 * i) + zlen (verts_of p i)) * 3) ((elt dm (4 * i) + zlen (verts_of p i)) * 3 + 3 * extra p i - (elt dm (4 * i) + zlen (verts_of p i)) * 3)) with (extra_verts p i) by (unfold extra_verts; fold dm dv; f_equal; lia).
      rewrite (u16_id (extra p i)), (u16_id (extra_total p i * 3)), (u16_id (extra_total p i + extra p i)) by (unfold is_u16; lia).
      rewrite copyA_pad; [|lia|rewrite LF, extra_verts_len by lia; unfold nv; lia]. cbn [bind]. eexists. split; reflexivity.
  - exists (extra_total p (Z.of_nat (Z.to_nat pc))). rewrite E. unfold upto. rewrite !pad_full; [reflexivity| |].
    + pose proof (extra_flat (Z.to_nat pc) ltac:(lia)) as LF. rewrite Z2Nat.id in LF by lia. unfold zlen in LF. unfold nv. lia.
    + rewrite map_length, zseq_length. reflexivity.
Qed.
End Create.
