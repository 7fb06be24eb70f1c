(** C33: the tile CreateNavMeshData makes. *)
From Coq Require Import ZArith List Lia Bool Permutation.
From Verif.Base Require Import Res GoNum F32 Num Grid Bytes.
From Verif.Model Require Import Poly MeshTypes Geom MeshLinks BvTree Serial Create.
From Verif.Spec Require Import SerialSpec CreateSpec.
From Verif.Proofs Require Import SerialProofs FloatOk CreateBase CreateProofs CreateTile CreateAll CreateNeeds.
From Verif.Properties Require Import DetourBv.
Import ListNotations.
Open Scope Z_scope.

(** For input with the documented array sizes, with detail meshes and the tree flag, the result is
    a buffer of exactly the bytes of the header and of the sections the header counts, the header
    reads back, and the sections read back are those of the specification: without stored
    connections exactly, with connections up to the damage of C19. [bv] is the result of
    createBVTree, for which see C21 and C64. *)
Theorem C33_create : forall sort p, (forall less l, Permutation (sort less l) l) -> sized p -> detailed p -> cpBuildBvTree p = true ->
  exists bv buf, let t := spec_tile p bv in let h := spec_header p in
    createBVTree sort (cpPolyCount p) (nilOr (cpDMeshes p)) (map f_of_bits (nilOr (cpDVerts p))) (fvec_of (cpBMin p)) (f_of_bits (cpCs p))
      (repeat zeroBv (Z.to_nat (2 * cpPolyCount p))) = Ok (bv, 2 * cpPolyCount p - 1) /\
    CreateNavMeshData sort p = Ok (Some buf) /\
    zlen buf = header_size + data_bytes t /\ header_unserialize buf = Ok h /\ typed_header h /\ typed_tile t /\ counts_match h t /\
    (kept p = [] -> tile_unserialize h (skipn (Z.to_nat header_size) buf) = Ok t) /\
    (forall l i, kept p = l ++ [i] -> let c := con_of p (zlen l, i) in
      tile_unserialize h (skipn (Z.to_nat header_size) buf) =
        Ok (mkTD (upd (tdVerts t) 7 (nth 7 (tdVerts t) 0 mod 65536 + 65536 * ocFlags c + 16777216 * ocSide c))
                 (tdPolys t) (tdLinks t) (tdDMeshes t) (tdDVerts t) (tdDTris t) (tdBv t)
                 (map (fun o => mkCon (ocPos o) (ocRad o) (ocPoly o) (ocFlags c) (ocSide c) (ocUserID o)) (tdCons t)))).
Proof.
  intros sort p Hs Hz Hd Hb. destruct (tree_ok sort Hs p Hz Hd) as (bv & T & Lb & Fb). exists bv.
  pose proof (spec_typed p Hz Hd bv Fb) as Ht. pose proof (spec_counts p Hz Hd bv Lb) as Hc. pose proof (header_typed p Hz Hd) as Hh.
  pose proof (b_nums p Hz) as N.
  assert (LH : length (enc_header (spec_header p)) = 100%nat) by (unfold spec_header; destruct (cpBMin p) as [[? ?] ?], (cpBMax p) as [[? ?] ?]; reflexivity).
  assert (SK : forall b, skipn (Z.to_nat header_size) (enc_header (spec_header p) ++ b) = b).
  { intros b. unfold header_size. rewrite skipn_app, skipn_all2 by lia. rewrite LH. reflexivity. }
  destruct (kept p) as [|x l0] eqn:Ek.
  - assert (NC : tdCons (spec_tile p bv) = []) by (unfold spec_tile; cbn [tdCons]; rewrite Ek; reflexivity).
    destruct (roundtrip_nocons (spec_header p) (spec_tile p bv) (data_bytes (spec_tile p bv)) Ht Hc NC ltac:(lia)) as (bytes & S & L & U).
    exists (enc_header (spec_header p) ++ bytes). cbv zeta. rewrite SK. split; [exact T|]. split; [exact (create_eq sort p Hz Hd Hb bv T Lb bytes S)|].
    split; [unfold header_size; rewrite zlen_app, L; unfold zlen at 1; lia|]. split; [now apply header_unserialize_enc|]. split; [exact Hh|]. split; [exact Ht|]. split; [exact Hc|].
    split; [intros _; exact U|]. intros l i X. destruct l; discriminate X.
  - destruct (exists_last (l := x :: l0)) as (l & i & El); [discriminate|]. rewrite El in Ek.
    assert (CC : tdCons (spec_tile p bv) = map (con_of p) (numbered l) ++ [con_of p (zlen l, i)]).
    { unfold spec_tile. cbn [tdCons]. rewrite Ek, numbered_snoc, map_app. reflexivity. }
    assert (V3 : 3 <= hVertCount (spec_header p)).
    { unfold spec_header. cbn [hVertCount]. rewrite Ek, zlen_snoc. pose proof (zlen_nonneg l). lia. }
    destruct (roundtrip_cons (spec_header p) (spec_tile p bv) (data_bytes (spec_tile p bv)) _ _ Ht Hc CC V3 ltac:(lia)) as (bytes & S & L & U).
    exists (enc_header (spec_header p) ++ bytes). cbv zeta. rewrite SK. split; [exact T|]. split; [exact (create_eq sort p Hz Hd Hb bv T Lb bytes S)|].
    split; [unfold header_size; rewrite zlen_app, L; unfold zlen at 1; lia|]. split; [now apply header_unserialize_enc|]. split; [exact Hh|]. split; [exact Ht|]. split; [exact Hc|].
    split; [intros X; discriminate X|]. intros l' i' X. rewrite El in X. apply app_inj_tail in X as [<- <-]. exact U.
Qed.

(** The quantization factor in the header is the one the tree was built with. *)
Theorem C33_quant_factor : forall p, f_of_bits (hBvQuantFactor (spec_header p)) = fdiv f1 (f_of_bits (cpCs p)).
Proof. intros p. unfold spec_header. cbn [hBvQuantFactor]. apply bits_back, ok_inv, ok_of_bits. Qed.

(** An error is returned iff one of the six checks fails. *)
Theorem C33_rejects : forall sort p, CreateNavMeshData sort p = Ok None <->
  6 < cpNvp p \/ 65535 <= cpVertCount p \/ cpVertCount p = 0 \/ cpVerts p = None \/ cpPolyCount p = 0 \/ cpPolys p = None.
Proof.
  intros sort p.
  assert (R : rejects p = true <-> 6 < cpNvp p \/ 65535 <= cpVertCount p \/ cpVertCount p = 0 \/ cpVerts p = None \/ cpPolyCount p = 0 \/ cpPolys p = None).
  { unfold rejects, VertsPerPolygon. rewrite !orb_true_iff, Z.gtb_ltb, Z.ltb_lt, Z.geb_leb, Z.leb_le, !Z.eqb_eq.
    destruct (cpVerts p), (cpPolys p); intuition congruence. }
  rewrite <- R. unfold CreateNavMeshData. destruct (rejects p); [tauto|]. split; [|discriminate].
  intros E. apply bind_ok in E as ([[h td] n] & _ & E). apply bind_ok in E as (k & _ & E). apply bind_ok in E as (b & _ & E).
  apply bind_ok in E as (tl & _ & E). apply bind_ok in E as (tl' & _ & E). discriminate.
Qed.

(** Both the flag and the detail meshes are needed, although the documentation of the parameters
    makes them optional: without them the function does not return. *)
Theorem C33_needs_tree_and_details : forall sort p, sized p -> nilOr (cpDMeshes p) = [] \/ detailed p ->
  forall r, CreateNavMeshData sort p = Ok r -> cpBuildBvTree p = true /\ nilOr (cpDMeshes p) <> [].
Proof. intros sort p Hz Hd. exact (create_needs p Hz sort Hd). Qed.

(** ** Examples: two triangles, a portal, one detail vertex of its own, n connections *)
Definition F (n : Z) : Z := bits_of_f (f_of_Z n).
Definition ex_dverts : list Z :=
  [F 0; F 0; F 0; F 10; F 0; F 0; F 10; F 0; F 10; F 7; F 1; F 4;  F 0; F 0; F 0; F 10; F 0; F 10; F 0; F 0; F 10].
Definition ex_params (dm : option (list Z)) (tree : bool) (n : Z) : CreateParams :=
  mkCP (Some [0; 0; 0; 10; 0; 0; 10; 0; 10; 0; 0; 10]) 4
       (Some [0; 1; 2; 65535; 65535; 32770; 1; 65535; 0; 2; 3; 65535; 0; 65535; 32783; 65535]) [1; 3] [5; 64] 2 4
       dm (Some ex_dverts) 7
       [0; 1; 3; 0; 1; 2; 3; 0; 2; 0; 3; 0; 0; 1; 2; 0] 4
       [F 2; F 0; F 2; F 20; F 0; F 5] [F 1] [9] [3] [1] [] n
       77 1 (-2) 0 (F 0, F 0, F 0) (F 10, F 5, F 10) (F 2) (F 1) (F 1) (F 1) (F 1) tree.
Definition ex_dm : option (list Z) := Some [0; 4; 0; 3; 4; 3; 3; 1].
Lemma ex_sized : forall dm tree n, 0 <= n <= 1 -> sized (ex_params dm tree n).
Proof.
  intros dm tree n Hn. assert (F0 : forall l, forallb (fun x => (0 <=? x) && (x <=? 4294967295)) l = true -> Forall is_u32 l).
  { intros l H. apply Forall_forall. intros x Hx. rewrite forallb_forall in H. specialize (H x Hx). apply andb_true_iff in H as [A B]. apply Z.leb_le in A, B. unfold is_u32. lia. }
  constructor; unfold ex_params; cbn [cpVerts cpVertCount cpPolys cpPolyFlags cpPolyAreas cpPolyCount cpNvp cpDMeshes cpDVerts cpDVertsCount cpDTris cpDTriCount cpOMVerts cpOMRad cpOMFlags cpOMAreas cpOMDir cpOMUserID cpOMCount cpUserID cpTileX cpTileY cpTileLayer cpBMin cpBMax cpWalkableHeight cpWalkableRadius cpWalkableClimb cpCs cpCh nilOr]; try lia.
  - eexists. split; [reflexivity|]. cbn; lia.
  - eexists. split; [reflexivity|]. split; [cbn; lia|]. intros k _. apply elt_default; [|unfold is_u16; lia]. repeat (constructor; [unfold is_u16; lia|]). constructor.
  - split; [cbn; lia|]. repeat (constructor; [unfold is_u16; lia|]). constructor.
  - split; [cbn; lia|]. repeat (constructor; [unfold is_u8; lia|]). constructor.
  - split; [unfold zlen; cbn [length]; lia|]. apply F0. reflexivity.
  - split; [unfold zlen; cbn [length]; lia|]. apply F0. reflexivity.
  - split; [unfold zlen; cbn [length]; lia|]. repeat (constructor; [unfold is_u16; lia|]). constructor.
  - split; [unfold zlen; cbn [length]; lia|]. repeat (constructor; [unfold is_u8; lia|]). constructor.
  - unfold zlen; cbn [length]; lia.
  - split; [now left|constructor].
  - unfold zlen, ex_dverts; cbn [length]; lia.
  - unfold zlen; cbn [length]; lia.
  - apply F0. reflexivity.
  - cbn. repeat (constructor; [unfold is_u8; lia|]). constructor.
  - split; [repeat (constructor; [unfold is_i32; lia|]); constructor|]. split; [apply F0; reflexivity|]. split; vm_compute; intuition discriminate.
  - intros _. split; reflexivity.
Qed.
Lemma ex_detailed : forall tree n, detailed (ex_params ex_dm tree n).
Proof.
  intros tree n. constructor.
  - eexists. split; [reflexivity|]. split; [cbn; lia|]. repeat (constructor; [unfold is_i32; lia|]). constructor.
  - intros i Hi. cbn [ex_params cpPolyCount] in Hi. assert (i = 0 \/ i = 1) as [-> | ->] by lia; vm_compute; intuition discriminate.
  - vm_compute. discriminate.
Qed.
Example C33_example : (forall less l, Permutation (isort less l) l) /\ sized (ex_params ex_dm true 0) /\ detailed (ex_params ex_dm true 0) /\ kept (ex_params ex_dm true 0) = [] /\
  hMaxLinkCount (spec_header (ex_params ex_dm true 0)) = 8 /\ hDetailVertCount (spec_header (ex_params ex_dm true 0)) = 1 /\
  exists buf, CreateNavMeshData isort (ex_params ex_dm true 0) = Ok (Some buf) /\ zlen buf = 424.
Proof.
  split; [exact isort_perm|]. split; [apply ex_sized; lia|]. split; [apply ex_detailed|]. split; [reflexivity|]. split; [vm_compute; reflexivity|]. split; [vm_compute; reflexivity|].
  eexists. split; vm_compute; reflexivity.
Qed.
Example C33_example_connection : sized (ex_params ex_dm true 1) /\ detailed (ex_params ex_dm true 1) /\ kept (ex_params ex_dm true 1) = [] ++ [0] /\
  sector (ex_params ex_dm true 1) (end_pt (ex_params ex_dm true 1) 0) = 0 /\ hVertCount (spec_header (ex_params ex_dm true 1)) = 6.
Proof. split; [apply ex_sized; lia|]. split; [apply ex_detailed|]. repeat split; vm_compute; reflexivity. Qed.
Example C33_example_needs : sized (ex_params ex_dm false 0) /\ detailed (ex_params ex_dm false 0) /\ CreateNavMeshData isort (ex_params ex_dm false 0) = Panic /\
  sized (ex_params None true 0) /\ CreateNavMeshData isort (ex_params None true 0) = Panic /\ CreateNavMeshData isort (ex_params None false 0) = Panic.
Proof. split; [apply ex_sized; lia|]. split; [apply ex_detailed|]. split; [vm_compute; reflexivity|]. split; [apply ex_sized; lia|]. split; vm_compute; reflexivity. Qed.
Example C33_example_reject : CreateNavMeshData isort (mkCP None 0 None [] [] 0 3 None None 0 [] 0 [] [] [] [] [] [] 0 0 0 0 0 (0, 0, 0) (0, 0, 0) 0 0 0 0 0 true) = Ok None.
Proof. reflexivity. Qed.

Print Assumptions C33_create.
Print Assumptions C33_quant_factor.
Print Assumptions C33_rejects.
Print Assumptions C33_needs_tree_and_details.
