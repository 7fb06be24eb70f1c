(** C18, C19: headers and tile data survive serialization. *)
From Coq Require Import ZArith List Bool Lia.
From Verif.Base Require Import Res GoNum Bytes.
From Verif.Model Require Import Poly PolyRef MeshTypes Serial.
From Verif.Spec Require Import SerialSpec.
From Verif.Proofs Require Import SerialProofs.
Import ListNotations.
Open Scope Z_scope.

(** ** C18: serialize followed by the matching reader gives the values back, for every field
    value of its Go type and every buffer of at least the structure's size; the structure
    takes the announced number of bytes and nothing behind it changes. *)
Theorem C18_mesh_header : forall h dst, typed_header h -> header_size <= zlen dst ->
  exists bytes, header_serialize dst h = Ok bytes /\ zlen bytes = zlen dst /\
    header_unserialize bytes = Ok h /\ skipn (Z.to_nat header_size) bytes = skipn (Z.to_nat header_size) dst.
Proof.
  intros h dst Ht Hl. exists (enc_header h ++ skipn 100 dst).
  assert (zlen (enc_header h) = 100) as L by (destruct h as [? ? ? ? ? ? ? ? ? ? ? ? ? ? ? ? ? ? [[? ?] ?] [[? ?] ?] ?]; reflexivity).
  split; [now apply header_serialize_enc|]. split; [|split].
  - unfold header_size, zlen in *. rewrite app_length, skipn_length. lia.
  - now apply header_unserialize_enc.
  - unfold header_size, zlen in *. rewrite skipn_app, skipn_all2 by lia.
    replace (Z.to_nat 100 - length (enc_header h))%nat with O by lia. reflexivity.
Qed.

Theorem C18_set_header : forall magic version n p dst,
  is_u32 magic -> is_u32 version -> is_u32 n -> typed_params p -> setHeader_size <= zlen dst ->
  exists bytes, setHeader_serialize dst magic version n p = Ok bytes /\ zlen bytes = zlen dst /\
    setHeader_decode bytes = Ok (magic, version, n, p) /\
    skipn (Z.to_nat setHeader_size) bytes = skipn (Z.to_nat setHeader_size) dst.
Proof.
  intros magic version n p dst H1 H2 H3 Hp Hl. change setHeader_size with 40 in *.
  exists ((le32 magic ++ le32 version ++ le32 n ++ enc_params p) ++ skipn 40 dst).
  set (e := le32 magic ++ le32 version ++ le32 n ++ enc_params p).
  assert (zlen e = 40) as L by (destruct p as [[[? ?] ?] ? ? ? ?]; reflexivity).
  split; [now apply setHeader_serialize_enc|]. split; [|split].
  - unfold zlen in *. rewrite app_length, skipn_length. lia.
  - now apply setHeader_decode_enc.
  - unfold zlen in *. rewrite skipn_app, skipn_all2 by lia. replace (Z.to_nat 40 - length e)%nat with O by lia. reflexivity.
Qed.

Theorem C18_params : forall p dst, typed_params p -> params_size <= zlen dst ->
  exists bytes, params_serialize dst p = Ok bytes /\ zlen bytes = zlen dst /\
    params_decode bytes 0 = Ok p /\ skipn (Z.to_nat params_size) bytes = skipn (Z.to_nat params_size) dst.
Proof.
  intros p dst Hp Hl. change params_size with 28 in *. exists (enc_params p ++ skipn 28 dst).
  assert (zlen (enc_params p) = 28) as L by (destruct p as [[[? ?] ?] ? ? ? ?]; reflexivity).
  split; [now apply params_serialize_enc|]. split; [|split].
  - unfold zlen in *. rewrite app_length, skipn_length. lia.
  - apply (params_decode_enc p []). assumption.
  - unfold zlen in *. rewrite skipn_app, skipn_all2 by lia. replace (Z.to_nat 28 - length (enc_params p))%nat with O by lia. reflexivity.
Qed.

Theorem C18_tile_header : forall r s dst, is_u32 r -> is_i32 s -> tileHeader_size <= zlen dst ->
  exists bytes, tileHeader_serialize dst r s = Ok bytes /\ zlen bytes = zlen dst /\
    tileHeader_decode bytes = Ok (r, s) /\ skipn (Z.to_nat tileHeader_size) bytes = skipn (Z.to_nat tileHeader_size) dst.
Proof.
  intros r s dst Hr Hs Hl. change tileHeader_size with 8 in *. exists ((le32 r ++ lei s) ++ skipn 8 dst).
  split; [now apply tileHeader_serialize_enc|]. split; [|split].
  - unfold zlen in *. rewrite app_length, skipn_length. cbn [le32 lei app length]. lia.
  - now apply tileHeader_decode_enc.
  - rewrite skipn_app, skipn_all2 by (cbn; lia). reflexivity.
Qed.

(** A buffer that is too small is refused. *)
Theorem C18_small_buffer_panics : forall h p r s magic version n dst,
  (zlen dst < header_size -> header_serialize dst h = Panic) /\
  (zlen dst < params_size -> params_serialize dst p = Panic) /\
  (zlen dst < setHeader_size -> setHeader_serialize dst magic version n p = Panic) /\
  (zlen dst < tileHeader_size -> tileHeader_serialize dst r s = Panic).
Proof.
  intros. unfold header_serialize, params_serialize, setHeader_serialize, tileHeader_serialize, header_size, params_size, tileHeader_size.
  repeat split; intros H; apply Z.ltb_lt in H; now rewrite H.
Qed.

Definition ex_header : MeshHeader :=
  mkHeader navMeshMagic 7 (-3) 5 0 4294967295 2 4 6 2 0 4 3 0 2 1073741824 0 1065353216
    (0, 3212836864, 0) (1065353216, 1065353216, 2139095040) 1092616192.
Example C18_example_header : typed_header ex_header /\ header_size <= zlen (repeat 0 100) /\
  (let* b := header_serialize (repeat 0 100) ex_header in header_unserialize b) = Ok ex_header.
Proof.
  split; [|split; [vm_compute; discriminate|vm_compute; reflexivity]].
  unfold typed_header, ex_header; cbn. repeat split; repeat constructor; unfold is_i32, is_u32, navMeshMagic; lia.
Qed.

(** ** C19: tiles without off-mesh connections (missing: tiles with them, see below). *)
Theorem C19_tile_data_partial : forall h t n,
  typed_tile t -> counts_match h t -> tdCons t = [] -> data_bytes t <= n ->
  exists bytes, serializeTileData (repeat 0 (Z.to_nat n)) t = Ok bytes /\ zlen bytes = n /\
    tile_unserialize h bytes = Ok t.
Proof. exact roundtrip_nocons. Qed.

(** With off-mesh connections the data comes back damaged in exactly this way: the upper half
    of the eighth vertex component holds flags and side of the last connection, and every
    connection has these flags and side. *)
Theorem C19_tile_data_offmesh_exact : forall h t n cs c,
  typed_tile t -> counts_match h t -> tdCons t = cs ++ [c] -> 3 <= hVertCount h -> data_bytes t <= n ->
  exists bytes, serializeTileData (repeat 0 (Z.to_nat n)) t = Ok bytes /\ zlen bytes = n /\
    tile_unserialize h bytes =
      Ok (mkTD (upd (tdVerts t) 7 (nth 7 (tdVerts t) 0 mod 65536 + 65536 * ocFlags c + 16777216 * ocSide c))
               (tdPolys t) (tdLinks t) (tdDMeshes t) (tdDVerts t) (tdDTris t) (tdBv t)
               (map (fun o => mkCon (ocPos o) (ocRad o) (ocPoly o) (ocFlags c) (ocSide c) (ocUserID o)) (tdCons t))).
Proof. exact roundtrip_cons. Qed.

(** Full statement of C19 (with off-mesh connections), which does not hold of the code:
    [forall h t n, typed_tile t -> counts_match h t -> data_bytes t <= n ->
     exists bytes, serializeTileData (repeat 0 n) t = Ok bytes /\ tile_unserialize h bytes = Ok t]. *)
Definition ex_verts : list Z := [0; 0; 0; 1065353216; 0; 0; 0; 1073741824; 1065353216].
Definition ex_poly : Poly := mkPoly nullLink [0; 1; 2; 0; 0; 0] [0; 32770; 0; 0; 0; 0] 3 3 5.
Definition ex_con (f : Z) : OffMeshCon := mkCon [0; 0; 0; 1065353216; 0; 0] 1056964608 1 f 6 77.
Definition ex_tile (cs : list OffMeshCon) : TileData :=
  mkTD ex_verts [ex_poly; ex_poly] [mkLink 1 nullLink 0 255 0 0] [mkDetail 0 0 0 1] [1065353216; 0; 0]
       [0; 1; 2; 0] [mkBv (0, 1, 2) (3, 4, 5) (-1)] cs.
Definition ex_hdr (n : Z) : MeshHeader :=
  mkHeader navMeshMagic 7 0 0 0 0 2 3 1 1 1 1 1 n 2 0 0 0 (0, 0, 0) (0, 0, 0) 0.
Lemma ex_tile_typed : forall cs, Forall typed_con cs -> typed_tile (ex_tile cs).
Proof.
  intros cs H. unfold typed_tile, ex_tile; cbn [tdVerts tdPolys tdLinks tdDMeshes tdDVerts tdDTris tdBv tdCons].
  repeat (split; [|try assumption]); unfold ex_verts, ex_poly;
  repeat (constructor; try (unfold is_u32, is_u16, is_u8, nullLink; lia));
  cbn; repeat (split || constructor); unfold is_u32, is_u16, is_u8, is_i32, nullLink; try lia.
Qed.

Theorem C19_tile_data_offmesh_refuted : exists h t n bytes t',
  typed_tile t /\ counts_match h t /\ data_bytes t <= n /\
  serializeTileData (repeat 0 (Z.to_nat n)) t = Ok bytes /\ tile_unserialize h bytes = Ok t' /\
  tdVerts t' <> tdVerts t /\ tdCons t' <> tdCons t.
Proof.
  exists (ex_hdr 2), (ex_tile [ex_con 0; ex_con 1]), 233.
  assert (typed_tile (ex_tile [ex_con 0; ex_con 1])) as Ht.
  { apply ex_tile_typed. repeat constructor; cbn; unfold is_u32, is_u16, is_u8; lia. }
  assert (counts_match (ex_hdr 2) (ex_tile [ex_con 0; ex_con 1])) as Hc by (repeat split).
  destruct (roundtrip_cons (ex_hdr 2) (ex_tile [ex_con 0; ex_con 1]) 233 [ex_con 0] (ex_con 1)) as (bytes & E1 & _ & E2); auto.
  { cbn; lia. } { vm_compute; discriminate. }
  exists bytes. eexists. split; [assumption|]. split; [assumption|]. split; [vm_compute; discriminate|].
  split; [exact E1|]. split; [exact E2|]. split; vm_compute; discriminate.
Qed.

Example C19_example : typed_tile (ex_tile []) /\ counts_match (ex_hdr 0) (ex_tile []) /\ data_bytes (ex_tile []) <= 161 /\
  (let* b := serializeTileData (repeat 0 161) (ex_tile []) in tile_unserialize (ex_hdr 0) b) = Ok (ex_tile []).
Proof.
  split; [apply ex_tile_typed; constructor|]. split; [repeat split|]. split; [vm_compute; discriminate|vm_compute; reflexivity].
Qed.
Example C19_offmesh_example :
  typed_tile (ex_tile [ex_con 0; ex_con 1]) /\ counts_match (ex_hdr 2) (ex_tile [ex_con 0; ex_con 1]) /\
  tdCons (ex_tile [ex_con 0; ex_con 1]) = [ex_con 0] ++ [ex_con 1] /\ 3 <= hVertCount (ex_hdr 2) /\
  data_bytes (ex_tile [ex_con 0; ex_con 1]) <= 233.
Proof.
  split; [apply ex_tile_typed; repeat constructor; cbn; unfold is_u32, is_u16, is_u8; lia|].
  split; [repeat split|]. split; [reflexivity|]. split; [cbn; lia|vm_compute; discriminate].
Qed.

Print Assumptions C18_mesh_header.
Print Assumptions C18_set_header.
Print Assumptions C18_params.
Print Assumptions C18_tile_header.
Print Assumptions C18_small_buffer_panics.
Print Assumptions C19_tile_data_partial.
Print Assumptions C19_tile_data_offmesh_exact.
Print Assumptions C19_tile_data_offmesh_refuted.
