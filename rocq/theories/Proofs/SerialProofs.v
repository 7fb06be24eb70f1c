(** Round trips of the serializers. *)
From Coq Require Import ZArith List Bool Lia.
From Verif.Base Require Import Res GoNum Bytes Grid.
From Verif.Model Require Import Poly PolyRef MeshTypes Serial.
From Verif.Spec Require Import SerialSpec.
Import ListNotations.
Open Scope Z_scope.

(** A zeroed buffer of [n] bytes whose beginning holds [done]. *)
Definition W (n : Z) (done : list Z) : list Z := done ++ repeat 0 (Z.to_nat (n - zlen done)).

Lemma W_zlen : forall n done, zlen done <= n -> zlen (W n done) = n.
Proof. intros. unfold W, zlen in *. rewrite app_length, repeat_length. lia. Qed.

Lemma W_put : forall n done bs off, off = zlen done -> zlen done + zlen bs <= n ->
  put (W n done) off bs = Ok (W n (done ++ bs)).
Proof. intros. unfold W. now apply put_next. Qed.

Lemma zlen_repeat : forall {A} (x : A) k, zlen (repeat x k) = Z.of_nat k.
Proof. intros. unfold zlen. now rewrite repeat_length. Qed.

Lemma W_pad : forall n done k, zlen done + Z.of_nat k <= n -> W n (done ++ repeat 0 k) = W n done.
Proof.
  intros n done k H. unfold W. rewrite <- app_assoc, <- repeat_app. f_equal. f_equal.
  rewrite zlen_app, zlen_repeat. lia.
Qed.

Fixpoint contig (d : Z) (ws : list (Z * list Z)) : Prop :=
  match ws with
  | [] => True
  | (e, bs) :: ws' => e = d /\ contig (d + zlen bs) ws'
  end.

Lemma puts_W : forall ws n done off d, contig d ws -> off + d = zlen done ->
  zlen done + zlen (flat_map snd ws) <= n ->
  puts (W n done) off ws = Ok (W n (done ++ flat_map snd ws)).
Proof.
  induction ws as [|[e bs] ws IH]; intros n done off d Hc Hd Hn; cbn [puts flat_map snd] in *.
  - now rewrite app_nil_r.
  - destruct Hc as [-> Hc]. rewrite zlen_app in Hn.
    pose proof (zlen_nonneg (flat_map snd ws)).
    rewrite W_put by (try assumption; lia). cbn [bind].
    rewrite (IH n (done ++ bs) off (d + zlen bs)).
    + now rewrite app_assoc.
    + assumption.
    + rewrite zlen_app. lia.
    + rewrite zlen_app. lia.
Qed.

Lemma write_all_W : forall {A} (wr : list Z -> Z -> A -> res (list Z)) (enc : A -> list Z) (P : A -> Prop) stride n l done,
  0 <= stride ->
  (forall x done, P x -> zlen done + stride <= n -> wr (W n done) (zlen done) x = Ok (W n (done ++ enc x))) ->
  (forall x, P x -> zlen (enc x) = stride) ->
  Forall P l -> zlen done + stride * zlen l <= n ->
  write_all wr stride (W n done) (zlen done) l = Ok (W n (done ++ flat_map enc l), zlen done + stride * zlen l) /\
  zlen (flat_map enc l) = stride * zlen l.
Proof.
  intros A wr enc P stride n l. induction l as [|x l IH]; intros done Hs Hwr Hlen HP Hn.
  - cbn. rewrite app_nil_r. rewrite Z.mul_0_r, Z.add_0_r. split; reflexivity.
  - inversion HP as [|? ? Hx Hl]; subst. rewrite zlen_cons in Hn.
    pose proof (zlen_nonneg l). assert (0 <= stride * zlen l) by nia.
    cbn [write_all flat_map]. rewrite Hwr by (try assumption; lia). cbn [bind].
    specialize (IH (done ++ enc x) Hs Hwr Hlen Hl). rewrite zlen_app, (Hlen x Hx) in IH.
    destruct IH as [E1 E2]; [lia|]. rewrite E1. split.
    + rewrite <- app_assoc. f_equal. f_equal. rewrite zlen_cons. lia.
    + rewrite zlen_app, (Hlen x Hx), E2, zlen_cons. lia.
Qed.

Lemma read_all_app : forall {A} (rd : list Z -> Z -> res A) (enc : A -> list Z) (P : A -> Prop) stride l pre rest,
  (forall x pre rest, P x -> rd (pre ++ enc x ++ rest) (zlen pre) = Ok x) ->
  (forall x, P x -> zlen (enc x) = stride) -> Forall P l ->
  read_all (rd (pre ++ flat_map enc l ++ rest)) stride (length l) (zlen pre) = Ok l.
Proof.
  intros A rd enc P stride l. induction l as [|x l IH]; intros pre rest Hrd Hlen HP; [reflexivity|].
  inversion HP as [|? ? Hx Hl]; subst. cbn [read_all length flat_map].
  rewrite <- app_assoc. rewrite Hrd by assumption. cbn [bind].
  specialize (IH (pre ++ enc x) rest Hrd Hlen Hl). rewrite <- app_assoc, zlen_app, (Hlen x Hx) in IH.
  rewrite IH. reflexivity.
Qed.

(** Reading inside an explicit piece of the buffer. *)
Lemma rd8_mid : forall pre mid rest k, 0 <= k < zlen mid -> rd8 (pre ++ mid ++ rest) (zlen pre + k) = rd8 mid k.
Proof. intros. unfold rd8. now apply get_app_off. Qed.
Lemma rd16_mid : forall pre mid rest k, 0 <= k -> k + 2 <= zlen mid -> rd16 (pre ++ mid ++ rest) (zlen pre + k) = rd16 mid k.
Proof.
  intros. unfold rd16. rewrite <- Z.add_assoc. rewrite !get_app_off by lia. reflexivity.
Qed.
Lemma rd32_mid : forall pre mid rest k, 0 <= k -> k + 4 <= zlen mid -> rd32 (pre ++ mid ++ rest) (zlen pre + k) = rd32 mid k.
Proof.
  intros. unfold rd32. rewrite <- !Z.add_assoc. rewrite !get_app_off by lia. reflexivity.
Qed.
Lemma rdi32_mid : forall pre mid rest k, 0 <= k -> k + 4 <= zlen mid -> rdi32 (pre ++ mid ++ rest) (zlen pre + k) = rdi32 mid k.
Proof. intros. unfold rdi32. now rewrite rd32_mid. Qed.

Lemma rd32_lit : forall mid k v, is_u32 v ->
  get mid k = Ok (v mod 256) -> get mid (k + 1) = Ok (v / 256 mod 256) ->
  get mid (k + 2) = Ok (v / 65536 mod 256) -> get mid (k + 3) = Ok (v / 16777216 mod 256) -> rd32 mid k = Ok v.
Proof.
  intros mid k v H E0 E1 E2 E3. unfold rd32. rewrite E0, E1, E2, E3. cbn [bind]. f_equal. now apply le32_value.
Qed.
Lemma rdi32_lit : forall mid k v, is_i32 v ->
  get mid k = Ok (u32 v mod 256) -> get mid (k + 1) = Ok (u32 v / 256 mod 256) ->
  get mid (k + 2) = Ok (u32 v / 65536 mod 256) -> get mid (k + 3) = Ok (u32 v / 16777216 mod 256) -> rdi32 mid k = Ok v.
Proof.
  intros mid k v H E0 E1 E2 E3. unfold rdi32. rewrite (rd32_lit mid k (u32 v)) by (try assumption; apply u32_range).
  cbn [bind]. f_equal. unfold i32, u32, is_i32 in *. rewrite Zplus_mod_idemp_l, Z.mod_small; lia.
Qed.
Lemma rd16_lit : forall mid k v, is_u16 v ->
  get mid k = Ok (v mod 256) -> get mid (k + 1) = Ok (v / 256 mod 256) -> rd16 mid k = Ok v.
Proof.
  intros mid k v H E0 E1. unfold rd16. rewrite E0, E1. cbn [bind]. f_equal. unfold is_u16 in H.
  rewrite (Z.mod_small (v / 256)) by (split; [apply Z.div_pos; lia|apply Z.div_lt_upper_bound; lia]).
  pose proof (Z.div_mod v 256 ltac:(lia)). lia.
Qed.

Lemma get_pre : forall {A} (mid rest : list A) k a, get mid k = Ok a -> get (mid ++ rest) k = Ok a.
Proof.
  intros A mid rest k a H. apply get_ok in H. destruct H as [Hk H]. apply get_ok. split; [assumption|].
  rewrite nth_error_app1; [assumption|]. apply nth_error_Some. congruence.
Qed.
Lemma rd16_pre : forall mid rest k v, rd16 mid k = Ok v -> rd16 (mid ++ rest) k = Ok v.
Proof.
  intros mid rest k v H. unfold rd16 in *.
  apply bind_ok in H. destruct H as (a & E0 & H). apply bind_ok in H. destruct H as (b & E1 & H).
  rewrite (get_pre _ rest _ _ E0), (get_pre _ rest _ _ E1). exact H.
Qed.
Lemma rd32_pre : forall mid rest k v, rd32 mid k = Ok v -> rd32 (mid ++ rest) k = Ok v.
Proof.
  intros mid rest k v H. unfold rd32 in *.
  apply bind_ok in H. destruct H as (a & E0 & H). apply bind_ok in H. destruct H as (b & E1 & H).
  apply bind_ok in H. destruct H as (c & E2 & H). apply bind_ok in H. destruct H as (d & E3 & H).
  rewrite (get_pre _ rest _ _ E0), (get_pre _ rest _ _ E1), (get_pre _ rest _ _ E2), (get_pre _ rest _ _ E3). exact H.
Qed.
Lemma rdi32_pre : forall mid rest k v, rdi32 mid k = Ok v -> rdi32 (mid ++ rest) k = Ok v.
Proof.
  intros mid rest k v H. unfold rdi32 in *. apply bind_ok in H. destruct H as (a & E & H).
  now rewrite (rd32_pre _ rest _ _ E).
Qed.

(** ** Encodings *)
Definition enc_params (p : NavMeshParams) : list Z :=
  let '(o0, o1, o2) := npOrig p in
  le32 o0 ++ le32 o1 ++ le32 o2 ++ le32 (npTileWidth p) ++ le32 (npTileHeight p) ++ le32 (npMaxTiles p) ++ le32 (npMaxPolys p).
Definition enc_header (s : MeshHeader) : list Z :=
  let '(n0, n1, n2) := hBMin s in
  let '(x0, x1, x2) := hBMax s in
  lei (hMagic s) ++ lei (hVersion s) ++ lei (hX s) ++ lei (hY s) ++ lei (hLayer s) ++ le32 (hUserID s) ++
  lei (hPolyCount s) ++ lei (hVertCount s) ++ lei (hMaxLinkCount s) ++ lei (hDetailMeshCount s) ++
  lei (hDetailVertCount s) ++ lei (hDetailTriCount s) ++ lei (hBvNodeCount s) ++ lei (hOffMeshConCount s) ++
  lei (hOffMeshBase s) ++ le32 (hWalkableHeight s) ++ le32 (hWalkableRadius s) ++ le32 (hWalkableClimb s) ++
  le32 n0 ++ le32 n1 ++ le32 n2 ++ le32 x0 ++ le32 x1 ++ le32 x2 ++ le32 (hBvQuantFactor s).
Definition enc_poly (p : Poly) : list Z :=
  le32 (pFirstLink p) ++ flat_map le16 (pVerts p) ++ flat_map le16 (pNeis p) ++
  le16 (pFlags p) ++ [pVertCount p; pAreaAndType p].
Definition enc_link (l : Link) : list Z :=
  le32 (lRef l) ++ le32 (lNext l) ++ [lEdge l; lSide l; lBMin l; lBMax l].
Definition enc_detail (m : PolyDetail) : list Z :=
  le32 (dVertBase m) ++ le32 (dTriBase m) ++ [dVertCount m; dTriCount m; 0; 0].
Definition enc_bv (t : BvNode) : list Z :=
  let '(n0, n1, n2) := bMin t in
  let '(x0, x1, x2) := bMax t in
  le16 n0 ++ le16 n1 ++ le16 n2 ++ le16 x0 ++ le16 x1 ++ le16 x2 ++ lei (bI t).
Definition enc_con (o : OffMeshCon) : list Z :=
  flat_map le32 (ocPos o) ++ le32 (ocRad o) ++ le16 (ocPoly o) ++ [0; 0] ++ le32 (ocUserID o).
Definition enc_sections (t : TileData) : list Z :=
  flat_map le32 (tdVerts t) ++ flat_map enc_poly (tdPolys t) ++ flat_map enc_link (tdLinks t) ++
  flat_map enc_detail (tdDMeshes t) ++ flat_map le32 (tdDVerts t) ++ tdDTris t ++ flat_map enc_bv (tdBv t).
Definition enc_tile (t : TileData) : list Z := enc_sections t ++ flat_map enc_con (tdCons t).

(** ** Headers *)

Ltac lit := match goal with
  | |- rd32 _ _ = Ok _ => apply rd32_lit; [assumption|reflexivity|reflexivity|reflexivity|reflexivity]
  | |- rdi32 _ _ = Ok _ => apply rdi32_lit; [assumption|reflexivity|reflexivity|reflexivity|reflexivity]
  | |- rd16 _ _ = Ok _ => apply rd16_lit; [assumption|reflexivity|reflexivity]
  end.

Lemma header_unserialize_enc : forall h rest, typed_header h -> header_unserialize (enc_header h ++ rest) = Ok h.
Proof.
  intros [m v x y la u pc vc ml dm dv dt bv oc ob wh wr wc [[n0 n1] n2] [[x0 x1] x2] q] rest Ht.
  unfold typed_header in Ht. cbn [hMagic hVersion hX hY hLayer hUserID hPolyCount hVertCount hMaxLinkCount
    hDetailMeshCount hDetailVertCount hDetailTriCount hBvNodeCount hOffMeshConCount hOffMeshBase hWalkableHeight
    hWalkableRadius hWalkableClimb hBMin hBMax hBvQuantFactor u32x3] in Ht.
  destruct Ht as (Hi & Hu & Hn & Hx).
  repeat match goal with H : Forall _ (_ :: _) |- _ => inversion_clear H end.
  destruct Hn as (? & ? & ?). destruct Hx as (? & ? & ?).
  unfold header_unserialize.
  assert (zlen (enc_header (mkHeader m v x y la u pc vc ml dm dv dt bv oc ob wh wr wc (n0, n1, n2) (x0, x1, x2) q) ++ rest) <? 100 = false) as ->.
  { apply Z.ltb_ge. rewrite zlen_app. pose proof (zlen_nonneg rest).
    match goal with |- _ <= zlen ?l + _ => assert (zlen l = 100) as -> by reflexivity end. lia. }
  remember (enc_header (mkHeader m v x y la u pc vc ml dm dv dt bv oc ob wh wr wc (n0, n1, n2) (x0, x1, x2) q)) as mid eqn:Hmid.
  assert (rdi32 (mid ++ rest) 0 = Ok m) as R0 by (apply rdi32_pre; subst mid; lit).
  assert (rdi32 (mid ++ rest) 4 = Ok v) as R1 by (apply rdi32_pre; subst mid; lit).
  assert (rdi32 (mid ++ rest) 8 = Ok x) as R2 by (apply rdi32_pre; subst mid; lit).
  assert (rdi32 (mid ++ rest) 12 = Ok y) as R3 by (apply rdi32_pre; subst mid; lit).
  assert (rdi32 (mid ++ rest) 16 = Ok la) as R4 by (apply rdi32_pre; subst mid; lit).
  assert (rd32 (mid ++ rest) 20 = Ok u) as R5 by (apply rd32_pre; subst mid; lit).
  assert (rdi32 (mid ++ rest) 24 = Ok pc) as R6 by (apply rdi32_pre; subst mid; lit).
  assert (rdi32 (mid ++ rest) 28 = Ok vc) as R7 by (apply rdi32_pre; subst mid; lit).
  assert (rdi32 (mid ++ rest) 32 = Ok ml) as R8 by (apply rdi32_pre; subst mid; lit).
  assert (rdi32 (mid ++ rest) 36 = Ok dm) as R9 by (apply rdi32_pre; subst mid; lit).
  assert (rdi32 (mid ++ rest) 40 = Ok dv) as R10 by (apply rdi32_pre; subst mid; lit).
  assert (rdi32 (mid ++ rest) 44 = Ok dt) as R11 by (apply rdi32_pre; subst mid; lit).
  assert (rdi32 (mid ++ rest) 48 = Ok bv) as R12 by (apply rdi32_pre; subst mid; lit).
  assert (rdi32 (mid ++ rest) 52 = Ok oc) as R13 by (apply rdi32_pre; subst mid; lit).
  assert (rdi32 (mid ++ rest) 56 = Ok ob) as R14 by (apply rdi32_pre; subst mid; lit).
  assert (rd32 (mid ++ rest) 60 = Ok wh) as R15 by (apply rd32_pre; subst mid; lit).
  assert (rd32 (mid ++ rest) 64 = Ok wr) as R16 by (apply rd32_pre; subst mid; lit).
  assert (rd32 (mid ++ rest) 68 = Ok wc) as R17 by (apply rd32_pre; subst mid; lit).
  assert (rd32 (mid ++ rest) 72 = Ok n0) as R18 by (apply rd32_pre; subst mid; lit).
  assert (rd32 (mid ++ rest) 76 = Ok n1) as R19 by (apply rd32_pre; subst mid; lit).
  assert (rd32 (mid ++ rest) 80 = Ok n2) as R20 by (apply rd32_pre; subst mid; lit).
  assert (rd32 (mid ++ rest) 84 = Ok x0) as R21 by (apply rd32_pre; subst mid; lit).
  assert (rd32 (mid ++ rest) 88 = Ok x1) as R22 by (apply rd32_pre; subst mid; lit).
  assert (rd32 (mid ++ rest) 92 = Ok x2) as R23 by (apply rd32_pre; subst mid; lit).
  assert (rd32 (mid ++ rest) 96 = Ok q) as R24 by (apply rd32_pre; subst mid; lit).
  clear Hmid. rewrite R0, R1, R2, R3, R4, R5, R6, R7, R8, R9, R10, R11, R12, R13, R14, R15, R16, R17, R18, R19, R20, R21, R22, R23, R24. reflexivity.
Qed.

Lemma W_nil : forall n, W n [] = repeat 0 (Z.to_nat n).
Proof. intros. unfold W. cbn [app]. change (zlen (@nil Z)) with 0. now rewrite Z.sub_0_r. Qed.

(** The writers only look at the length of the buffer and overwrite its beginning. *)
Lemma put_any : forall dst done bs off, off = zlen done -> zlen done + zlen bs <= zlen dst ->
  put (done ++ skipn (length done) dst) off bs = Ok ((done ++ bs) ++ skipn (length (done ++ bs)) dst).
Proof.
  intros dst done bs off -> H. unfold put. unfold zlen in *.
  assert (zlen (done ++ skipn (length done) dst) = zlen dst) as E.
  { unfold zlen. rewrite app_length, skipn_length. lia. }
  unfold zlen in E. rewrite E.
  destruct (Z.leb_spec 0 (Z.of_nat (length done))); [|lia]. cbn [andb].
  destruct (Z.leb_spec (Z.of_nat (length done) + Z.of_nat (length bs)) (Z.of_nat (length dst))); [|lia].
  f_equal. rewrite <- app_assoc, Nat2Z.id, firstn_app, firstn_all, Nat.sub_diag, firstn_O, app_nil_r. f_equal. f_equal.
  rewrite app_length, skipn_app.
  replace (Z.to_nat (Z.of_nat (length done) + Z.of_nat (length bs))) with (length bs + length done)%nat by lia.
  rewrite skipn_all2 by lia. cbn [app]. rewrite skipn_skipn. f_equal. lia.
Qed.

Lemma puts_any : forall ws dst done off d, contig d ws -> off + d = zlen done ->
  zlen done + zlen (flat_map snd ws) <= zlen dst ->
  puts (done ++ skipn (length done) dst) off ws =
  Ok ((done ++ flat_map snd ws) ++ skipn (length (done ++ flat_map snd ws)) dst).
Proof.
  induction ws as [|[e bs] ws IH]; intros dst done off d Hc Hd Hn; cbn [puts flat_map snd] in *.
  - now rewrite app_nil_r.
  - destruct Hc as [-> Hc]. rewrite zlen_app in Hn.
    pose proof (zlen_nonneg (flat_map snd ws)).
    rewrite put_any by (try assumption; lia). cbn [bind].
    rewrite (IH dst (done ++ bs) off (d + zlen bs)).
    + now rewrite app_assoc.
    + assumption.
    + rewrite zlen_app. lia.
    + rewrite zlen_app. lia.
Qed.

Lemma header_serialize_enc : forall h dst, 100 <= zlen dst ->
  header_serialize dst h = Ok (enc_header h ++ skipn 100 dst).
Proof.
  intros [m v x y la u pc vc ml dm dv dt bv oc ob wh wr wc [[n0 n1] n2] [[x0 x1] x2] q] dst H.
  unfold header_serialize. destruct (Z.ltb_spec (zlen dst) 100); [lia|].
  cbn [hBMin hBMax npOrig]. match goal with |- context [puts dst 0 ?ws] => pose proof (puts_any ws dst [] 0 0) as P end.
  cbn [app length skipn] in P. rewrite P; [reflexivity|repeat split|reflexivity|exact H].
Qed.

Lemma params_serialize_enc : forall p dst, 28 <= zlen dst ->
  params_serialize dst p = Ok (enc_params p ++ skipn 28 dst).
Proof.
  intros [[[o0 o1] o2] tw th mt mp] dst H.
  unfold params_serialize. destruct (Z.ltb_spec (zlen dst) 28); [lia|].
  cbn [hBMin hBMax npOrig]. match goal with |- context [puts dst 0 ?ws] => pose proof (puts_any ws dst [] 0 0) as P end.
  cbn [app length skipn] in P. rewrite P; [reflexivity|repeat split|reflexivity|exact H].
Qed.

Lemma tileHeader_serialize_enc : forall r s dst, 8 <= zlen dst ->
  tileHeader_serialize dst r s = Ok ((le32 r ++ lei s) ++ skipn 8 dst).
Proof.
  intros r s dst H. unfold tileHeader_serialize. destruct (Z.ltb_spec (zlen dst) 8); [lia|].
  cbn [hBMin hBMax npOrig]. match goal with |- context [puts dst 0 ?ws] => pose proof (puts_any ws dst [] 0 0) as P end.
  cbn [app length skipn] in P. rewrite P; [reflexivity|repeat split|reflexivity|exact H].
Qed.

Lemma skipn_repeat : forall {A} (x : A) n k, skipn n (repeat x k) = repeat x (k - n).
Proof.
  intros A x n. induction n as [|n IH]; intros k; cbn [skipn]; [now rewrite Nat.sub_0_r|].
  destruct k as [|k]; [reflexivity|]. cbn [repeat]. rewrite IH. f_equal.
Qed.

Lemma setHeader_serialize_enc : forall magic version n p dst, 40 <= zlen dst ->
  setHeader_serialize dst magic version n p =
  Ok ((le32 magic ++ le32 version ++ le32 n ++ enc_params p) ++ skipn 40 dst).
Proof.
  intros magic version n p dst H. unfold setHeader_serialize, setHeader_size, params_size.
  destruct (Z.ltb_spec (zlen dst) (12 + 28)); [lia|].
  cbn [hBMin hBMax npOrig]. match goal with |- context [puts dst 0 ?ws] => pose proof (puts_any ws dst [] 0 0) as P end.
  cbn [app length skipn flat_map snd] in P. rewrite P; [|repeat split|reflexivity|unfold zlen in *; cbn [le32 app length]; lia].
  cbn [bind]. clear P.
  set (pre := le32 magic ++ le32 version ++ le32 n ++ []).
  change (length pre) with 12%nat.
  assert (firstn 12 (pre ++ skipn 12 dst) = pre) as -> by reflexivity.
  assert (skipn 12 (pre ++ skipn 12 dst) = skipn 12 dst) as -> by reflexivity.
  rewrite params_serialize_enc.
  - cbn [bind]. f_equal. rewrite skipn_skipn. unfold pre. rewrite app_nil_r, <- !app_assoc. reflexivity.
  - unfold zlen in *. rewrite skipn_length. lia.
Qed.

(** ** Tile sections: writing *)

Lemma length6 : forall {A} (l : list A), length l = 6%nat -> exists a b c d e f, l = [a; b; c; d; e; f].
Proof.
  intros A l H. do 6 (destruct l as [|? l]; [discriminate|]). destruct l; [|discriminate]. repeat eexists.
Qed.

Lemma write_f32_W : forall n b done, zlen done + 4 <= n -> write_f32 (W n done) (zlen done) b = Ok (W n (done ++ le32 b)).
Proof. intros. unfold write_f32, put32. apply W_put; auto. Qed.

Lemma write_u16s_W : forall n l done, zlen done + 2 * zlen l <= n ->
  write_all put16 2 (W n done) (zlen done) l = Ok (W n (done ++ flat_map le16 l), zlen done + 2 * zlen l) /\
  zlen (flat_map le16 l) = 2 * zlen l.
Proof.
  intros. apply (write_all_W put16 le16 (fun _ => True)); auto; try lia.
  - intros. apply W_put; auto.
  - now apply Forall_forall.
Qed.

Lemma write_poly_W : forall n p done, length (pVerts p) = 6%nat -> length (pNeis p) = 6%nat ->
  zlen done + 32 <= n -> write_poly (W n done) (zlen done) p = Ok (W n (done ++ enc_poly p)).
Proof.
  intros n p done Hv Hn H. unfold write_poly, put32.
  rewrite W_put by (rewrite ?zlen_le32; lia). cbn [bind].
  assert (zlen done + 4 = zlen (done ++ le32 (pFirstLink p))) as -> by (rewrite zlen_app, zlen_le32; reflexivity).
  assert (zlen (pVerts p) = 6) as Ev by (unfold zlen; lia).
  assert (zlen (pNeis p) = 6) as En by (unfold zlen; lia).
  destruct (write_u16s_W n (pVerts p) (done ++ le32 (pFirstLink p))) as [E1 L1]; [rewrite zlen_app, zlen_le32; lia|].
  rewrite E1. cbn [bind].
  rewrite Ev in *.
  assert (zlen (done ++ le32 (pFirstLink p)) + 2 * 6 = zlen ((done ++ le32 (pFirstLink p)) ++ flat_map le16 (pVerts p))) as ->
    by (rewrite (zlen_app _ (flat_map le16 (pVerts p))), L1; lia).
  destruct (write_u16s_W n (pNeis p) ((done ++ le32 (pFirstLink p)) ++ flat_map le16 (pVerts p))) as [E2 L2];
    [rewrite !zlen_app, L1, zlen_le32; lia|].
  rewrite E2. cbn [bind]. rewrite En in *.
  rewrite (puts_W _ n _ _ 0).
  - cbn [flat_map snd]. f_equal. f_equal. unfold enc_poly. rewrite <- !app_assoc. reflexivity.
  - repeat split.
  - rewrite (zlen_app _ (flat_map le16 (pNeis p))), L2. lia.
  - rewrite !zlen_app, L1, L2, zlen_le32. unfold zlen at 2. cbn. lia.
Qed.

Lemma write_link_W : forall n l done, zlen done + 12 <= n -> write_link (W n done) (zlen done) l = Ok (W n (done ++ enc_link l)).
Proof.
  intros n l done H. unfold write_link. rewrite (puts_W _ n _ _ 0).
  - reflexivity.
  - repeat split.
  - lia.
  - unfold zlen in *. cbn. lia.
Qed.

Lemma write_detail_W : forall n m done, zlen done + 12 <= n -> write_detail (W n done) (zlen done) m = Ok (W n (done ++ enc_detail m)).
Proof.
  intros n m done H. unfold write_detail. rewrite (puts_W _ n _ _ 0).
  - cbn [flat_map snd]. f_equal. rewrite <- (W_pad n _ 2).
    + rewrite <- app_assoc. reflexivity.
    + rewrite zlen_app. unfold zlen at 2. cbn. lia.
  - repeat split.
  - lia.
  - unfold zlen in *. cbn. lia.
Qed.

Lemma write_bv_W : forall n t done, zlen done + 16 <= n -> write_bv (W n done) (zlen done) t = Ok (W n (done ++ enc_bv t)).
Proof.
  intros n [[[n0 n1] n2] [[x0 x1] x2] i] done H. unfold write_bv. cbn [bMin bMax bI].
  rewrite (puts_W _ n _ _ 0).
  - cbn [flat_map snd]. rewrite app_nil_r. reflexivity.
  - repeat split.
  - lia.
  - unfold zlen in *. cbn. lia.
Qed.

Lemma enc_poly_len : forall p, length (pVerts p) = 6%nat -> length (pNeis p) = 6%nat -> zlen (enc_poly p) = 32.
Proof.
  intros p Hv Hn. apply length6 in Hv. apply length6 in Hn.
  destruct Hv as (a & b & c & d & e & f & Hv). destruct Hn as (a' & b' & c' & d' & e' & f' & Hn).
  unfold enc_poly. rewrite Hv, Hn. reflexivity.
Qed.
Lemma enc_bv_len : forall t, zlen (enc_bv t) = 16.
Proof. intros [[[n0 n1] n2] [[x0 x1] x2] i]. reflexivity. Qed.
Lemma enc_con_len : forall o, length (ocPos o) = 6%nat -> zlen (enc_con o) = 36.
Proof.
  intros o H. apply length6 in H. destruct H as (a & b & c & d & e & f & H). unfold enc_con. rewrite H. reflexivity.
Qed.

Lemma write_f32s_W : forall n l done, zlen done + 4 * zlen l <= n ->
  write_all write_f32 4 (W n done) (zlen done) l = Ok (W n (done ++ flat_map le32 l), zlen done + 4 * zlen l) /\
  zlen (flat_map le32 l) = 4 * zlen l.
Proof.
  intros. apply (write_all_W write_f32 le32 (fun _ => True)); auto; try lia.
  - intros. now apply write_f32_W.
  - now apply Forall_forall.
Qed.

Definition shaped_poly (p : Poly) : Prop := length (pVerts p) = 6%nat /\ length (pNeis p) = 6%nat.

(** Everything except the off-mesh connections. *)
Lemma serialize_sections : forall t n, Forall shaped_poly (tdPolys t) ->
  data_bytes t <= n ->
  serializeTileData (repeat 0 (Z.to_nat n)) t =
    (let* (dst, _) := write_all write_con 36 (W n (enc_sections t)) (zlen (enc_sections t)) (tdCons t) in Ok dst) /\
  zlen (enc_sections t) = data_bytes t - 36 * zlen (tdCons t).
Proof.
  intros t n Hp Hn. unfold data_bytes in *.
  pose proof (zlen_nonneg (tdVerts t)). pose proof (zlen_nonneg (tdPolys t)). pose proof (zlen_nonneg (tdLinks t)).
  pose proof (zlen_nonneg (tdDMeshes t)). pose proof (zlen_nonneg (tdDVerts t)). pose proof (zlen_nonneg (tdDTris t)).
  pose proof (zlen_nonneg (tdBv t)). pose proof (zlen_nonneg (tdCons t)).
  unfold serializeTileData. rewrite <- W_nil. change 0 with (zlen (@nil Z)) at 1.
  destruct (write_f32s_W n (tdVerts t) []) as [E1 L1]; [change (zlen (@nil Z)) with 0; lia|].
  rewrite E1. cbn [bind app]. change (zlen (@nil Z)) with 0. rewrite Z.add_0_l. rewrite <- L1.
  set (d1 := flat_map le32 (tdVerts t)) in *.
  destruct (write_all_W write_poly enc_poly shaped_poly 32 n (tdPolys t) d1) as [E2 L2]; try assumption; try lia.
  { intros x done [? ?] ?. now apply write_poly_W. }
  { intros x [? ?]. now apply enc_poly_len. }
  rewrite E2. cbn [bind]. rewrite <- L2, <- zlen_app.
  set (d2 := flat_map enc_poly (tdPolys t)) in *.
  destruct (write_all_W write_link enc_link (fun _ => True) 12 n (tdLinks t) (d1 ++ d2)) as [E3 L3]; try lia.
  { intros. now apply write_link_W. }
  { reflexivity. }
  { now apply Forall_forall. }
  { rewrite zlen_app. lia. }
  rewrite E3. cbn [bind]. rewrite <- L3, <- zlen_app.
  set (d3 := flat_map enc_link (tdLinks t)) in *.
  destruct (write_all_W write_detail enc_detail (fun _ => True) 12 n (tdDMeshes t) ((d1 ++ d2) ++ d3)) as [E4 L4]; try lia.
  { intros. now apply write_detail_W. }
  { reflexivity. }
  { now apply Forall_forall. }
  { rewrite !zlen_app. lia. }
  rewrite E4. cbn [bind]. rewrite <- L4, <- zlen_app.
  set (d4 := flat_map enc_detail (tdDMeshes t)) in *.
  destruct (write_f32s_W n (tdDVerts t) (((d1 ++ d2) ++ d3) ++ d4)) as [E5 L5]; [rewrite !zlen_app; lia|].
  rewrite E5. cbn [bind]. rewrite <- L5, <- zlen_app.
  set (d5 := flat_map le32 (tdDVerts t)) in *.
  assert (copy_at (W n ((((d1 ++ d2) ++ d3) ++ d4) ++ d5)) (zlen ((((d1 ++ d2) ++ d3) ++ d4) ++ d5)) (tdDTris t) =
          Ok (W n (((((d1 ++ d2) ++ d3) ++ d4) ++ d5) ++ tdDTris t))) as E6.
  { unfold copy_at. rewrite W_zlen by (rewrite !zlen_app; lia).
    pose proof (zlen_nonneg ((((d1 ++ d2) ++ d3) ++ d4) ++ d5)) as Hp0.
    destruct (Z.leb_spec 0 (zlen ((((d1 ++ d2) ++ d3) ++ d4) ++ d5))); [|lia]. cbn [andb].
    destruct (Z.leb_spec (zlen ((((d1 ++ d2) ++ d3) ++ d4) ++ d5)) n) as [|Hbad]; [|rewrite !zlen_app in Hbad; lia].
    rewrite firstn_all2.
    - apply W_put; [reflexivity|]. rewrite !zlen_app. lia.
    - rewrite !zlen_app. unfold zlen in *. lia. }
  rewrite E6. cbn [bind]. rewrite <- zlen_app.
  set (d6 := (((((d1 ++ d2) ++ d3) ++ d4) ++ d5) ++ tdDTris t)) in *.
  assert (zlen d6 = 4 * zlen (tdVerts t) + 32 * zlen (tdPolys t) + 12 * zlen (tdLinks t) + 12 * zlen (tdDMeshes t) +
     4 * zlen (tdDVerts t) + zlen (tdDTris t)) as L6 by (unfold d6; rewrite !zlen_app; lia).
  destruct (write_all_W write_bv enc_bv (fun _ => True) 16 n (tdBv t) d6) as [E7 L7]; try lia.
  { intros. now apply write_bv_W. }
  { intros. apply enc_bv_len. }
  { now apply Forall_forall. }
  rewrite E7. cbn [bind]. rewrite <- L7, <- zlen_app.
  assert (d6 ++ flat_map enc_bv (tdBv t) = enc_sections t) as ->.
  { unfold d6, d1, d2, d3, d4, d5, enc_sections. rewrite <- !app_assoc. reflexivity. }
  split; [reflexivity|].
  unfold enc_sections. rewrite !zlen_app. fold d1 d2 d3 d4 d5. lia.
Qed.

(** ** Tile sections: reading *)

Lemma read_all_src : forall {A} (rd : Z -> res A) (src : list Z) (enc : A -> list Z) (g : A -> A) (P : A -> Prop) stride l pre rest,
  (forall x pre rest, src = pre ++ enc x ++ rest -> P x -> rd (zlen pre) = Ok (g x)) ->
  (forall x, P x -> zlen (enc x) = stride) -> Forall P l -> src = pre ++ flat_map enc l ++ rest ->
  read_all rd stride (length l) (zlen pre) = Ok (map g l).
Proof.
  intros A rd src enc g P stride l. induction l as [|x l IH]; intros pre rest Hrd Hlen HP Hs; [reflexivity|].
  inversion HP as [|? ? Hx Hl]; subst x0 l0. cbn [read_all length flat_map map] in *.
  rewrite <- app_assoc in Hs. rewrite (Hrd x pre _ Hs) by assumption. cbn [bind].
  specialize (IH (pre ++ enc x) rest Hrd Hlen Hl). rewrite zlen_app, (Hlen x Hx) in IH.
  rewrite IH; [reflexivity|]. now rewrite <- app_assoc.
Qed.

Lemma read_u16s : forall l pre rest, Forall is_u16 l ->
  read_all (rd16 (pre ++ flat_map le16 l ++ rest)) 2 (length l) (zlen pre) = Ok l.
Proof.
  intros. apply (read_all_app rd16 le16 is_u16); auto.
  intros. now apply rd16_app.
Qed.
Lemma read_u32s : forall l pre rest, Forall is_u32 l ->
  read_all (rd32 (pre ++ flat_map le32 l ++ rest)) 4 (length l) (zlen pre) = Ok l.
Proof.
  intros. apply (read_all_app rd32 le32 is_u32); auto.
  intros. now apply rd32_app.
Qed.

Lemma read_poly_enc : forall p pre rest, typed_poly p -> read_poly (pre ++ enc_poly p ++ rest) (zlen pre) = Ok p.
Proof.
  intros [fl vs ns fg vc at_] pre rest (H1 & H2 & H3 & H4 & H5 & H6 & H7 & H8).
  cbn [pFirstLink pVerts pNeis pFlags pVertCount pAreaAndType] in *.
  unfold read_poly, enc_poly. cbn [pFirstLink pVerts pNeis pFlags pVertCount pAreaAndType].
  assert (zlen (flat_map le16 vs) = 12) as Lv.
  { apply length6 in H2. destruct H2 as (a & b & c & d & e & f & ->). reflexivity. }
  assert (zlen (flat_map le16 ns) = 12) as Ln.
  { apply length6 in H4. destruct H4 as (a & b & c & d & e & f & ->). reflexivity. }
  rewrite <- !app_assoc. rewrite rd32_app by assumption. cbn [bind].
  pose proof (read_u16s vs (pre ++ le32 fl) (flat_map le16 ns ++ le16 fg ++ [vc; at_] ++ rest) H3) as E1.
  rewrite zlen_app, zlen_le32, H2, <- app_assoc in E1. rewrite E1. cbn [bind].
  pose proof (read_u16s ns ((pre ++ le32 fl) ++ flat_map le16 vs) (le16 fg ++ [vc; at_] ++ rest) H5) as E2.
  rewrite !zlen_app, zlen_le32, Lv, H4, <- !app_assoc in E2.
  replace (zlen pre + 4 + 12) with (zlen pre + 16) in E2 by lia. rewrite E2. cbn [bind].
  pose proof (rd16_app (((pre ++ le32 fl) ++ flat_map le16 vs) ++ flat_map le16 ns) fg ([vc; at_] ++ rest) H6) as E3.
  rewrite !zlen_app, zlen_le32, Lv, Ln, <- !app_assoc in E3.
  replace (zlen pre + 4 + 12 + 12) with (zlen pre + 28) in E3 by lia. rewrite E3. cbn [bind].
  pose proof (rd8_app ((((pre ++ le32 fl) ++ flat_map le16 vs) ++ flat_map le16 ns) ++ le16 fg) vc ([at_] ++ rest)) as E4.
  rewrite !zlen_app, zlen_le32, zlen_le16, Lv, Ln, <- !app_assoc in E4.
  replace (zlen pre + 4 + 12 + 12 + 2) with (zlen pre + 30) in E4 by lia.
  cbn [app] in E4 |- *. rewrite E4. cbn [bind].
  pose proof (rd8_app (((((pre ++ le32 fl) ++ flat_map le16 vs) ++ flat_map le16 ns) ++ le16 fg) ++ [vc]) at_ rest) as E5.
  rewrite !zlen_app, zlen_le32, zlen_le16, Lv, Ln, <- !app_assoc in E5. change (zlen [vc]) with 1 in E5.
  replace (zlen pre + 4 + 12 + 12 + 2 + 1) with (zlen pre + 31) in E5 by lia.
  cbn [app] in E5 |- *. rewrite E5. reflexivity.
Qed.

(** Links whose words are uint32; the single bytes are written as they are. *)
Definition link32 (l : Link) : Prop := is_u32 (lRef l) /\ is_u32 (lNext l).
Definition typed_tile0 (t : TileData) : Prop :=
  Forall is_u32 (tdVerts t) /\ Forall typed_poly (tdPolys t) /\ Forall link32 (tdLinks t) /\
  Forall typed_detail (tdDMeshes t) /\ Forall is_u32 (tdDVerts t) /\ Forall is_u8 (tdDTris t) /\
  Forall typed_bv (tdBv t) /\ Forall typed_con (tdCons t).
Lemma typed_tile_0 : forall t, typed_tile t -> typed_tile0 t.
Proof.
  intros t (T1 & T2 & T3 & T4 & T5 & T6 & T7 & T8). unfold typed_tile0. split; [exact T1|]. split; [exact T2|].
  split; [eapply Forall_impl; [|exact T3]; intros l (A & B & _); now split|]. tauto.
Qed.
Lemma read_link_enc : forall l pre rest, link32 l -> read_link (pre ++ enc_link l ++ rest) (zlen pre) = Ok l.
Proof.
  intros [r n e s a b] pre rest (H1 & H2). cbn [lRef lNext] in *.
  unfold read_link. rewrite <- (Z.add_0_r (zlen pre)) at 1.
  rewrite !rd32_mid, !rd8_mid by (unfold zlen; cbn; lia).
  assert (rd32 (enc_link (mkLink r n e s a b)) 0 = Ok r) as -> by lit.
  assert (rd32 (enc_link (mkLink r n e s a b)) 4 = Ok n) as -> by lit. reflexivity.
Qed.

Lemma read_detail_enc : forall l pre rest, typed_detail l -> read_detail (pre ++ enc_detail l ++ rest) (zlen pre) = Ok l.
Proof.
  intros [v t vc tc] pre rest (H1 & H2 & H3 & H4). cbn [dVertBase dTriBase] in *.
  unfold read_detail. rewrite <- (Z.add_0_r (zlen pre)) at 1.
  rewrite !rd32_mid, !rd8_mid by (unfold zlen; cbn; lia).
  assert (rd32 (enc_detail (mkDetail v t vc tc)) 0 = Ok v) as -> by lit.
  assert (rd32 (enc_detail (mkDetail v t vc tc)) 4 = Ok t) as -> by lit. reflexivity.
Qed.

Lemma read_bv_enc : forall l pre rest, typed_bv l -> read_bv (pre ++ enc_bv l ++ rest) (zlen pre) = Ok l.
Proof.
  intros [[[n0 n1] n2] [[x0 x1] x2] i] pre rest ((H1 & H2 & H3) & (H4 & H5 & H6) & H7). cbn [bI] in *.
  unfold read_bv. rewrite <- (Z.add_0_r (zlen pre)) at 1.
  rewrite !rd16_mid, !rdi32_mid by (unfold zlen; cbn; lia).
  assert (rd16 (enc_bv (mkBv (n0, n1, n2) (x0, x1, x2) i)) 0 = Ok n0) as -> by lit.
  assert (rd16 (enc_bv (mkBv (n0, n1, n2) (x0, x1, x2) i)) 2 = Ok n1) as -> by lit.
  assert (rd16 (enc_bv (mkBv (n0, n1, n2) (x0, x1, x2) i)) 4 = Ok n2) as -> by lit.
  assert (rd16 (enc_bv (mkBv (n0, n1, n2) (x0, x1, x2) i)) 6 = Ok x0) as -> by lit.
  assert (rd16 (enc_bv (mkBv (n0, n1, n2) (x0, x1, x2) i)) 8 = Ok x1) as -> by lit.
  assert (rd16 (enc_bv (mkBv (n0, n1, n2) (x0, x1, x2) i)) 10 = Ok x2) as -> by lit.
  assert (rdi32 (enc_bv (mkBv (n0, n1, n2) (x0, x1, x2) i)) 12 = Ok i) as -> by lit. reflexivity.
Qed.

(** Off-mesh connections are read with the flags and side of bytes 30 and 31. *)
Definition with_fs (f s : Z) (o : OffMeshCon) : OffMeshCon :=
  mkCon (ocPos o) (ocRad o) (ocPoly o) f s (ocUserID o).

Lemma read_con_enc : forall o src pre rest f s, typed_con o -> src = pre ++ enc_con o ++ rest ->
  get src 30 = Ok f -> get src 31 = Ok s -> read_con src (zlen pre) = Ok (with_fs f s o).
Proof.
  intros [ps r p fo so u] src pre rest f s (H1 & H2 & H3 & H4 & _ & _ & H7) Hs Hf Hsd.
  cbn [ocPos ocRad ocPoly ocUserID] in *. unfold read_con, with_fs, rd8. rewrite Hf, Hsd. clear Hf Hsd. subst src.
  cbn [ocPos ocRad ocPoly ocUserID].
  assert (read_all (rd32 (pre ++ enc_con (mkCon ps r p fo so u) ++ rest)) 4 6 (zlen pre) = Ok ps) as ->.
  { unfold enc_con. cbn [ocPos ocRad ocPoly ocUserID]. rewrite <- app_assoc. rewrite <- H1. now apply read_u32s. }
  assert (zlen (enc_con (mkCon ps r p fo so u)) = 36) as L by now apply enc_con_len.
  rewrite !rd32_mid, !rd16_mid by lia.
  apply length6 in H1. destruct H1 as (a & b & c & d & e & g & ->).
  assert (rd32 (enc_con (mkCon [a; b; c; d; e; g] r p fo so u)) 24 = Ok r) as -> by lit.
  assert (rd16 (enc_con (mkCon [a; b; c; d; e; g] r p fo so u)) 28 = Ok p) as -> by lit.
  assert (rd32 (enc_con (mkCon [a; b; c; d; e; g] r p fo so u)) 32 = Ok u) as -> by lit. reflexivity.
Qed.

Lemma make_len_ok : forall n k, n = Z.of_nat k -> make_len n = Ok k.
Proof. intros n k ->. unfold make_len. destruct (Z.ltb_spec (Z.of_nat k) 0); [lia|]. now rewrite Nat2Z.id. Qed.

Lemma read_copy_app : forall pre l rest, read_copy (pre ++ l ++ rest) (zlen pre) (length l) = Ok l.
Proof.
  intros pre l rest. unfold read_copy. rewrite !zlen_app.
  pose proof (zlen_nonneg pre). pose proof (zlen_nonneg l). pose proof (zlen_nonneg rest).
  destruct (Z.leb_spec 0 (zlen pre)); [|lia]. destruct (Z.leb_spec (zlen pre) (zlen pre + (zlen l + zlen rest))); [|lia]. cbn [andb].
  assert (skipn (Z.to_nat (zlen pre)) (pre ++ l ++ rest) = l ++ rest) as ->.
  { unfold zlen. rewrite Nat2Z.id, skipn_app, skipn_all, Nat.sub_diag. reflexivity. }
  rewrite firstn_app, firstn_all, Nat.sub_diag, firstn_O, app_nil_r, Nat.sub_diag. cbn [repeat]. now rewrite app_nil_r.
Qed.

Definition set_tdCons (t : TileData) (l : list OffMeshCon) : TileData :=
  mkTD (tdVerts t) (tdPolys t) (tdLinks t) (tdDMeshes t) (tdDVerts t) (tdDTris t) (tdBv t) l.

Lemma tile_unserialize_enc0 : forall h t rest, typed_tile0 t -> counts_match h t ->
  tile_unserialize h (enc_tile t ++ rest) =
    match tdCons t with
    | [] => Ok t
    | _ => let* f := get (enc_tile t) 30 in
           let* s := get (enc_tile t) 31 in
           Ok (set_tdCons t (map (with_fs f s) (tdCons t)))
    end.
Proof.
  intros h t rest (T1 & T2 & T3 & T4 & T5 & T6 & T7 & T8) (C1 & C2 & C3 & C4 & C5 & C6 & C7 & C8 & B1 & B2 & B3).
  unfold tile_unserialize.
  assert (i32 (3 * hVertCount h) = Z.of_nat (length (tdVerts t))) as ->.
  { unfold zlen in C1. rewrite i32_id; [lia|]. unfold is_i32. lia. }
  assert (i32 (3 * hDetailVertCount h) = Z.of_nat (length (tdDVerts t))) as ->.
  { unfold zlen in C5. rewrite i32_id; [lia|]. unfold is_i32. lia. }
  assert (i32 (4 * hDetailTriCount h) = Z.of_nat (length (tdDTris t))) as ->.
  { unfold zlen in C6. rewrite i32_id; [lia|]. unfold is_i32. lia. }
  rewrite (make_len_ok _ _ eq_refl). cbn [bind].
  rewrite (make_len_ok (hPolyCount h) (length (tdPolys t))) by (unfold zlen in C2; lia).
  rewrite (make_len_ok (hMaxLinkCount h) (length (tdLinks t))) by (unfold zlen in C3; lia).
  rewrite (make_len_ok (hDetailMeshCount h) (length (tdDMeshes t))) by (unfold zlen in C4; lia).
  rewrite (make_len_ok (hBvNodeCount h) (length (tdBv t))) by (unfold zlen in C7; lia).
  rewrite (make_len_ok (hOffMeshConCount h) (length (tdCons t))) by (unfold zlen in C8; lia).
  rewrite !(make_len_ok _ _ eq_refl). clear C1 C2 C3 C4 C5 C6 C7 C8 B1 B2 B3.
  set (src := enc_tile t ++ rest).
  set (d1 := flat_map le32 (tdVerts t)). set (d2 := flat_map enc_poly (tdPolys t)).
  set (d3 := flat_map enc_link (tdLinks t)). set (d4 := flat_map enc_detail (tdDMeshes t)).
  set (d5 := flat_map le32 (tdDVerts t)). set (d7 := flat_map enc_bv (tdBv t)).
  set (d8 := flat_map enc_con (tdCons t)).
  assert (src = d1 ++ d2 ++ d3 ++ d4 ++ d5 ++ tdDTris t ++ d7 ++ d8 ++ rest) as Hsrc.
  { unfold src, enc_tile, enc_sections. fold d1 d2 d3 d4 d5 d7 d8. rewrite <- !app_assoc. reflexivity. }
  assert (forall l, zlen (flat_map le32 l) = 4 * Z.of_nat (length l)) as LU.
  { induction l as [|a l IH]; [reflexivity|]. cbn [flat_map length]. rewrite zlen_app, IH, zlen_le32. lia. }
  assert (forall {A} (enc : A -> list Z) (P : A -> Prop) k l, (forall x, P x -> zlen (enc x) = k) -> Forall P l ->
     zlen (flat_map enc l) = k * Z.of_nat (length l)) as LG.
  { intros A enc P k l He. induction l as [|a l IH]; intros Hf; [cbn; change (zlen (@nil Z)) with 0; lia|].
    inversion Hf; subst. cbn [flat_map length]. rewrite zlen_app, IH, He by assumption. lia. }
  assert (zlen d1 = 4 * Z.of_nat (length (tdVerts t))) as L1 by apply LU.
  assert (zlen d2 = 32 * Z.of_nat (length (tdPolys t))) as L2.
  { apply (LG _ _ typed_poly); [|assumption]. intros x (_ & ? & _ & ? & _). now apply enc_poly_len. }
  assert (zlen d3 = 12 * Z.of_nat (length (tdLinks t))) as L3 by (apply (LG _ _ link32); [reflexivity|assumption]).
  assert (zlen d4 = 12 * Z.of_nat (length (tdDMeshes t))) as L4 by (apply (LG _ _ typed_detail); [reflexivity|assumption]).
  assert (zlen d5 = 4 * Z.of_nat (length (tdDVerts t))) as L5 by apply LU.
  assert (zlen d7 = 16 * Z.of_nat (length (tdBv t))) as L7 by (apply (LG _ _ typed_bv); [intros; apply enc_bv_len|assumption]).
  clear LU LG.
  assert (read_all (rd32 src) 4 (length (tdVerts t)) 0 = Ok (tdVerts t)) as ->.
  { rewrite Hsrc. now apply (read_u32s (tdVerts t) []). }
  cbn [bind]. rewrite <- L1.
  assert (read_all (read_poly src) 32 (length (tdPolys t)) (zlen d1) = Ok (tdPolys t)) as ->.
  { rewrite Hsrc. apply (read_all_app read_poly enc_poly typed_poly); [intros; now apply read_poly_enc| |assumption].
    intros x (_ & ? & _ & ? & _). now apply enc_poly_len. }
  cbn [bind]. rewrite <- L2, <- zlen_app.
  assert (read_all (read_link src) 12 (length (tdLinks t)) (zlen (d1 ++ d2)) = Ok (tdLinks t)) as ->.
  { rewrite Hsrc, app_assoc. apply (read_all_app read_link enc_link link32); [intros; now apply read_link_enc|reflexivity|assumption]. }
  cbn [bind]. rewrite <- L3, <- zlen_app.
  assert (read_all (read_detail src) 12 (length (tdDMeshes t)) (zlen ((d1 ++ d2) ++ d3)) = Ok (tdDMeshes t)) as ->.
  { rewrite Hsrc, (app_assoc d1), (app_assoc (d1 ++ d2)).
    apply (read_all_app read_detail enc_detail typed_detail); [intros; now apply read_detail_enc|reflexivity|assumption]. }
  cbn [bind]. rewrite <- L4, <- zlen_app.
  assert (read_all (rd32 src) 4 (length (tdDVerts t)) (zlen (((d1 ++ d2) ++ d3) ++ d4)) = Ok (tdDVerts t)) as ->.
  { rewrite Hsrc, (app_assoc d1), (app_assoc (d1 ++ d2)), (app_assoc ((d1 ++ d2) ++ d3)). now apply read_u32s. }
  cbn [bind]. rewrite <- L5, <- zlen_app.
  assert (read_copy src (zlen ((((d1 ++ d2) ++ d3) ++ d4) ++ d5)) (length (tdDTris t)) = Ok (tdDTris t)) as ->.
  { rewrite Hsrc, (app_assoc d1), (app_assoc (d1 ++ d2)), (app_assoc ((d1 ++ d2) ++ d3)), (app_assoc (((d1 ++ d2) ++ d3) ++ d4)).
    apply read_copy_app. }
  cbn [bind]. change (Z.of_nat (length (tdDTris t))) with (zlen (tdDTris t)). rewrite <- zlen_app.
  assert (read_all (read_bv src) 16 (length (tdBv t)) (zlen (((((d1 ++ d2) ++ d3) ++ d4) ++ d5) ++ tdDTris t)) = Ok (tdBv t)) as ->.
  { rewrite Hsrc, (app_assoc d1), (app_assoc (d1 ++ d2)), (app_assoc ((d1 ++ d2) ++ d3)), (app_assoc (((d1 ++ d2) ++ d3) ++ d4)),
     (app_assoc ((((d1 ++ d2) ++ d3) ++ d4) ++ d5)).
    apply (read_all_app read_bv enc_bv typed_bv); [intros; now apply read_bv_enc|intros; apply enc_bv_len|assumption]. }
  cbn [bind]. rewrite <- L7, <- zlen_app.
  destruct (tdCons t) as [|c0 cs] eqn:Ecs.
  { cbn [length read_all bind]. destruct t; cbn in *; subst; reflexivity. }
  rewrite <- Ecs in *.
  assert (36 <= zlen (enc_tile t)) as Hlen.
  { unfold enc_tile. rewrite zlen_app, Ecs. cbn [flat_map]. rewrite zlen_app.
    rewrite Ecs in T8. inversion T8 as [|? ? (Hp & _) _]; subst. rewrite enc_con_len by assumption.
    pose proof (zlen_nonneg (enc_sections t)). pose proof (zlen_nonneg (flat_map enc_con cs)). lia. }
  destruct (get_in_range (enc_tile t) 30) as [f Hf]; [lia|]. destruct (get_in_range (enc_tile t) 31) as [s Hs]; [lia|].
  rewrite Hf, Hs. cbn [bind].
  assert (read_all (read_con src) 36 (length (tdCons t)) (zlen ((((((d1 ++ d2) ++ d3) ++ d4) ++ d5) ++ tdDTris t) ++ d7)) =
          Ok (map (with_fs f s) (tdCons t))) as ->.
  { apply (read_all_src (read_con src) src enc_con (with_fs f s) typed_con 36 (tdCons t) _ rest); auto.
    - intros x pre r E Hx. apply (read_con_enc x src pre r f s Hx E); apply get_pre; assumption.
    - intros x (Hp & _). now apply enc_con_len.
    - rewrite Hsrc, <- !app_assoc. unfold d8. rewrite <- Ecs. reflexivity. }
  cbn [bind]. reflexivity.
Qed.

Lemma tile_unserialize_enc : forall h t rest, typed_tile t -> counts_match h t ->
  tile_unserialize h (enc_tile t ++ rest) =
    match tdCons t with
    | [] => Ok t
    | _ => let* f := get (enc_tile t) 30 in
           let* s := get (enc_tile t) 31 in
           Ok (set_tdCons t (map (with_fs f s) (tdCons t)))
    end.
Proof. intros h t rest H. apply tile_unserialize_enc0. now apply typed_tile_0. Qed.

(** ** Off-mesh connections: writing *)

Lemma upd_put8 : forall n done i v, 0 <= i < zlen done -> zlen done <= n -> put8 (W n done) i v = Ok (W n (upd done (Z.to_nat i) v)).
Proof.
  intros n done i v Hi Hn. unfold put8, put. rewrite W_zlen by assumption. change (zlen [v]) with 1.
  destruct (Z.leb_spec 0 i); [|lia]. destruct (Z.leb_spec (i + 1) n); [|lia]. cbn [andb]. f_equal.
  unfold W. rewrite zlen_upd. set (z := repeat 0 _).
  assert (forall (l : list Z) k, (k < length l)%nat -> upd l k v = firstn k l ++ [v] ++ skipn (k + 1) l) as U.
  { induction l as [|x l IH]; intros [|k] Hk; cbn in *; try lia; [reflexivity|]. f_equal. apply IH. lia. }
  unfold zlen in *. rewrite (U done) by lia. rewrite <- !app_assoc.
  rewrite firstn_app. replace (Z.to_nat i - length done)%nat with O by lia. rewrite firstn_O, app_nil_r.
  f_equal. f_equal. rewrite skipn_app. replace (Z.to_nat (i + 1) - length done)%nat with O by lia.
  replace (Z.to_nat (i + 1)) with (Z.to_nat i + 1)%nat by lia. reflexivity.
Qed.

Definition patch (l : list Z) (f s : Z) : list Z := upd (upd l 30 f) 31 s.
Lemma patch_zlen : forall l f s, zlen (patch l f s) = zlen l.
Proof. intros. unfold patch. now rewrite !zlen_upd. Qed.
Lemma patch_patch : forall l f s f' s', patch (patch l f s) f' s' = patch l f' s'.
Proof. intros. unfold patch. rewrite (upd_comm (upd l 30 f) 31 30) by lia. rewrite !upd_upd. reflexivity. Qed.
Lemma upd_app1 : forall {A} (l k : list A) i v, (i < length l)%nat -> upd (l ++ k) i v = upd l i v ++ k.
Proof. induction l as [|x l IH]; intros k [|i] v H; cbn in *; try lia; auto. f_equal. apply IH. lia. Qed.
Lemma patch_app : forall l k f s, 32 <= zlen l -> patch (l ++ k) f s = patch l f s ++ k.
Proof. intros l k f s H. unfold patch, zlen in *. rewrite !upd_app1 by (rewrite ?upd_length; lia). reflexivity. Qed.

Lemma write_con_W : forall n o done, length (ocPos o) = 6%nat -> 32 <= zlen done -> zlen done + 36 <= n ->
  write_con (W n done) (zlen done) o = Ok (W n (patch done (ocFlags o) (ocSide o) ++ enc_con o)).
Proof.
  intros n o done Hp H32 Hn. apply length6 in Hp. destruct Hp as (a & b & c & d & e & g & Hp).
  unfold write_con. rewrite Hp. rewrite (puts_W _ n _ _ 0).
  2:{ repeat split. } 2:{ lia. } 2:{ unfold zlen in *. cbn. lia. }
  cbn [bind].
  set (w1 := flat_map snd _).
  assert (zlen w1 = 30) as L1 by reflexivity.
  rewrite upd_put8 by (rewrite zlen_app; lia). cbn [bind].
  rewrite upd_put8 by (rewrite zlen_upd, zlen_app; lia). cbn [bind].
  change (Z.to_nat 30) with 30%nat. change (Z.to_nat 31) with 31%nat.
  fold (patch (done ++ w1) (ocFlags o) (ocSide o)). rewrite patch_app by assumption.
  rewrite <- (W_pad n _ 2) by (rewrite zlen_app, patch_zlen; lia).
  rewrite (puts_W _ n _ _ 32).
  - f_equal. f_equal. rewrite <- !app_assoc. f_equal. unfold enc_con. rewrite Hp. reflexivity.
  - repeat split.
  - rewrite !zlen_app, patch_zlen, L1. change (zlen (repeat 0 2)) with 2. lia.
  - rewrite !zlen_app, patch_zlen, L1. change (zlen (repeat 0 2)) with 2. unfold zlen in *. cbn. lia.
Qed.

(** All connections leave their flags and side in bytes 30 and 31; the last one wins. *)
Definition patch_all (l : list Z) (cs : list OffMeshCon) : list Z :=
  fold_left (fun l c => patch l (ocFlags c) (ocSide c)) cs l.

Lemma patch_all_app : forall cs l k, 32 <= zlen l -> patch_all (l ++ k) cs = patch_all l cs ++ k.
Proof.
  induction cs as [|c cs IH]; intros l k H; [reflexivity|]. cbn. rewrite patch_app by assumption.
  apply IH. now rewrite patch_zlen.
Qed.
Lemma patch_all_last : forall cs c l, patch_all l (cs ++ [c]) = patch l (ocFlags c) (ocSide c).
Proof.
  intros cs c. induction cs as [|d cs IH]; intros l; [reflexivity|].
  cbn. change (fold_left _ (cs ++ [c]) ?x) with (patch_all x (cs ++ [c])). rewrite IH. apply patch_patch.
Qed.

Lemma write_cons_W : forall n cs done, Forall (fun o => length (ocPos o) = 6%nat) cs -> 32 <= zlen done ->
  zlen done + 36 * zlen cs <= n ->
  write_all write_con 36 (W n done) (zlen done) cs =
  Ok (W n (patch_all done cs ++ flat_map enc_con cs), zlen done + 36 * zlen cs).
Proof.
  intros n cs. induction cs as [|c cs IH]; intros done HF H32 Hn.
  - cbn. rewrite app_nil_r, Z.add_0_r. reflexivity.
  - inversion HF as [|? ? Hc HF']; subst. rewrite zlen_cons in Hn. pose proof (zlen_nonneg cs).
    cbn [write_all]. rewrite write_con_W by (try assumption; lia). cbn [bind].
    assert (zlen done + 36 = zlen (patch done (ocFlags c) (ocSide c) ++ enc_con c)) as ->.
    { rewrite zlen_app, patch_zlen, enc_con_len by assumption. reflexivity. }
    rewrite IH; try assumption.
    + f_equal. f_equal.
      * rewrite patch_all_app by (rewrite patch_zlen; assumption). cbn [flat_map]. rewrite <- app_assoc. reflexivity.
      * rewrite zlen_app, patch_zlen, zlen_cons, enc_con_len by assumption. lia.
    + rewrite zlen_app, patch_zlen, enc_con_len by assumption. lia.
    + rewrite zlen_app, patch_zlen, enc_con_len by assumption. lia.
Qed.

Lemma typed_shaped : forall t, typed_tile t -> Forall shaped_poly (tdPolys t) /\ Forall (fun o => length (ocPos o) = 6%nat) (tdCons t).
Proof.
  intros t (_ & H & _ & _ & _ & _ & _ & H'). split; eapply Forall_impl; try eassumption.
  - intros p (_ & ? & _ & ? & _). now split.
  - intros o (? & _). assumption.
Qed.

(** A tile without off-mesh connections survives. *)
Lemma roundtrip_nocons : forall h t n, typed_tile t -> counts_match h t -> tdCons t = [] -> data_bytes t <= n ->
  exists bytes, serializeTileData (repeat 0 (Z.to_nat n)) t = Ok bytes /\ zlen bytes = n /\ tile_unserialize h bytes = Ok t.
Proof.
  intros h t n Ht Hc He Hn. destruct (typed_shaped t Ht) as [Hp _].
  destruct (serialize_sections t n Hp Hn) as [E L]. rewrite He in E, L. cbn [write_all bind] in E.
  change (zlen (@nil OffMeshCon)) with 0 in L.
  exists (W n (enc_sections t)). split; [assumption|]. split; [apply W_zlen; lia|].
  assert (enc_sections t = enc_tile t) as Ee by (unfold enc_tile; rewrite He; cbn; now rewrite app_nil_r).
  unfold W. rewrite Ee, tile_unserialize_enc by assumption. now rewrite He.
Qed.

(** With connections: what is read back. *)
Definition set_vert7 (t : TileData) (f s : Z) : TileData :=
  set_tdVerts t (upd (tdVerts t) 7 (nth 7 (tdVerts t) 0 mod 65536 + 65536 * f + 16777216 * s)).

Lemma patch_vert7 : forall l f s, is_u8 f -> is_u8 s -> (8 <= length l)%nat ->
  patch (flat_map le32 l) f s = flat_map le32 (upd l 7 (nth 7 l 0 mod 65536 + 65536 * f + 16777216 * s)).
Proof.
  intros l f s Hf Hs Hl. do 8 (destruct l as [|? l]; [cbn in Hl; lia|]).
  unfold patch. cbn [flat_map le32 app upd nth]. do 28 f_equal.
  set (v := z6). unfold is_u8 in *. clearbody v.
  pose proof (Z.mod_pos_bound v 65536 ltac:(lia)) as Hm.
  assert (v mod 65536 mod 256 = v mod 256) as E0 
  by (rewrite (Z.mod_eq v 65536) by lia; replace (v - 65536 * (v / 65536)) with (v + (- (256 * (v / 65536))) * 256) by lia; apply Z.mod_add; lia).
  assert (v mod 65536 / 256 = v / 256 mod 256) as E1.
  { pose proof (Z.mul_comm 256 256). rewrite (Z.mod_eq v 65536), (Z.mod_eq (v / 256) 256) by lia.
    rewrite Z.div_div by lia. change (256 * 256) with 65536.
    replace (v - 65536 * (v / 65536)) with (v + (- (256 * (v / 65536))) * 256) by lia. rewrite Z.div_add by lia. lia. }
  set (x := v mod 65536) in *.
  assert ((x + 65536 * f + 16777216 * s) mod 256 = v mod 256) as ->.
  { replace (x + 65536 * f + 16777216 * s) with (x + (256 * f + 65536 * s) * 256) by lia. rewrite Z.mod_add by lia. assumption. }
  assert ((x + 65536 * f + 16777216 * s) / 256 mod 256 = v / 256 mod 256) as ->.
  { replace (x + 65536 * f + 16777216 * s) with (x + (256 * f + 65536 * s) * 256) by lia. rewrite Z.div_add by lia.
    rewrite E1. replace (v / 256 mod 256 + (256 * f + 65536 * s)) with (v / 256 mod 256 + (f + 256 * s) * 256) by lia.
    rewrite Z.mod_add by lia. apply Z.mod_mod. lia. }
  assert ((x + 65536 * f + 16777216 * s) / 65536 = f + 256 * s) as Eq.
  { replace (x + 65536 * f + 16777216 * s) with (x + (f + 256 * s) * 65536) by lia. rewrite Z.div_add by lia.
    rewrite Z.div_small by lia. lia. }
  assert ((x + 65536 * f + 16777216 * s) / 16777216 = s) as ->.
  { change 16777216 with (65536 * 256) at 2. rewrite <- Z.div_div by lia. rewrite Eq.
    replace (f + 256 * s) with (f + s * 256) by lia. rewrite Z.div_add by lia. rewrite Z.div_small by lia. lia. }
  rewrite Eq. f_equal. f_equal.
  f_equal; [|f_equal].
  - replace (f + 256 * s) with (f + s * 256) by lia. rewrite Z.mod_add by lia. now rewrite Z.mod_small.
  - now rewrite Z.mod_small.
Qed.

Lemma roundtrip_cons : forall h t n cs c, typed_tile t -> counts_match h t -> tdCons t = cs ++ [c] ->
  3 <= hVertCount h -> data_bytes t <= n ->
  exists bytes, serializeTileData (repeat 0 (Z.to_nat n)) t = Ok bytes /\ zlen bytes = n /\
    tile_unserialize h bytes =
      Ok (set_tdCons (set_vert7 t (ocFlags c) (ocSide c)) (map (with_fs (ocFlags c) (ocSide c)) (tdCons t))).
Proof.
  intros h t n cs c Ht Hc He Hv Hn. destruct (typed_shaped t Ht) as [Hp Hq].
  destruct (serialize_sections t n Hp Hn) as [E L].
  assert (9 <= zlen (tdVerts t)) as Hvl by (destruct Hc as (C1 & _); lia).
  assert (36 <= zlen (enc_sections t)) as H36.
  { rewrite L. unfold data_bytes. pose proof (zlen_nonneg (tdPolys t)). pose proof (zlen_nonneg (tdLinks t)).
    pose proof (zlen_nonneg (tdDMeshes t)). pose proof (zlen_nonneg (tdDVerts t)). pose proof (zlen_nonneg (tdDTris t)).
    pose proof (zlen_nonneg (tdBv t)). lia. }
  rewrite write_cons_W in E by (try assumption; lia). cbn [bind] in E.
  assert (is_u8 (ocFlags c) /\ is_u8 (ocSide c)) as [Uf Us].
  { destruct Ht as (_ & _ & _ & _ & _ & _ & _ & T8). rewrite He in T8. apply Forall_app in T8. destruct T8 as [_ T8].
    inversion T8 as [|? ? (_ & _ & _ & _ & ? & ? & _) _]; subst. split; assumption. }
  set (t' := set_vert7 t (ocFlags c) (ocSide c)).
  set (v' := nth 7 (tdVerts t) 0 mod 65536 + 65536 * ocFlags c + 16777216 * ocSide c) in *.
  assert (patch_all (enc_sections t) (tdCons t) ++ flat_map enc_con (tdCons t) = enc_tile t') as Ee.
  { rewrite He at 1. rewrite patch_all_last. unfold enc_tile, enc_sections, t', set_vert7, set_tdVerts.
    cbn [tdVerts tdPolys tdLinks tdDMeshes tdDVerts tdDTris tdBv tdCons]. f_equal.
    assert (forall l, zlen (flat_map le32 l) = 4 * zlen l) as Lv.
    { clear. induction l as [|a l IH]; [reflexivity|]. cbn [flat_map]. rewrite zlen_app, IH, zlen_le32, zlen_cons. lia. }
    specialize (Lv (tdVerts t)).
    rewrite patch_app by lia. f_equal. apply patch_vert7; try assumption. unfold zlen in Hvl. lia. }
  assert (is_u32 v') as Uv.
  { unfold v', is_u32, is_u8 in *. pose proof (Z.mod_pos_bound (nth 7 (tdVerts t) 0) 65536 ltac:(lia)). lia. }
  assert (typed_tile t') as Ht'.
  { destruct Ht as (T1 & T2 & T3 & T4 & T5 & T6 & T7 & T8). unfold t', set_vert7, set_tdVerts, typed_tile.
    cbn [tdVerts tdPolys tdLinks tdDMeshes tdDVerts tdDTris tdBv tdCons]. repeat (split; [|try assumption]); try assumption.
    fold v'. clear - T1 Uv. rewrite Forall_forall in *. intros x Hx. apply In_nth_error in Hx. destruct Hx as [k Hk].
    rewrite nth_error_upd in Hk. destruct (Nat.eqb k 7).
    - destruct (nth_error (tdVerts t) 7); congruence.
    - apply T1. eapply nth_error_In; eassumption. }
  assert (counts_match h t') as Hc'.
  { destruct Hc as (C1 & C). unfold counts_match, t', set_vert7, set_tdVerts.
    cbn [tdVerts tdPolys tdLinks tdDMeshes tdDVerts tdDTris tdBv tdCons]. rewrite zlen_upd. split; assumption. }
  exists (W n (enc_tile t')). rewrite <- Ee at 1. split; [assumption|].
  assert (zlen (enc_tile t') <= n) as Hle.
  { rewrite <- Ee. rewrite He at 1. rewrite patch_all_last, zlen_app, patch_zlen, L.
    assert (zlen (flat_map enc_con (tdCons t)) = 36 * zlen (tdCons t)) as ->; [|lia].
    clear - Hq. induction (tdCons t) as [|o l IH]; [reflexivity|]. inversion Hq; subst.
    cbn [flat_map]. rewrite zlen_app, enc_con_len, IH, zlen_cons by assumption. lia. }
  split; [apply W_zlen; assumption|].
  unfold W. rewrite tile_unserialize_enc by assumption.
  assert (get (enc_tile t') 30 = Ok (ocFlags c) /\ get (enc_tile t') 31 = Ok (ocSide c)) as [-> ->].
  { rewrite <- Ee. rewrite He at 1 3. rewrite patch_all_last. unfold patch. change 31%nat with (Z.to_nat 31). change 30%nat with (Z.to_nat 30).
    split; apply get_pre; rewrite !get_upd by lia; rewrite ?zlen_upd.
    - destruct (Z.ltb_spec 30 (zlen (enc_sections t))); [|lia]. reflexivity.
    - destruct (Z.ltb_spec 31 (zlen (enc_sections t))); [|lia]. reflexivity. }
  cbn [bind]. change (tdCons t') with (tdCons t). rewrite He. destruct cs; reflexivity.
Qed.

(** ** binary.Read of the small headers *)

Lemma params_decode_enc : forall p pre rest, typed_params p -> params_decode (pre ++ enc_params p ++ rest) (zlen pre) = Ok p.
Proof.
  intros [[[o0 o1] o2] tw th mt mp] pre rest (H1 & H2). cbn [npOrig npTileWidth npTileHeight npMaxTiles npMaxPolys u32x3] in *.
  destruct H1 as (? & ? & ?). repeat match goal with H : Forall _ (_ :: _) |- _ => inversion_clear H end.
  unfold params_decode. rewrite <- (Z.add_0_r (zlen pre)) at 1.
  rewrite !rd32_mid by (unfold zlen; cbn; lia).
  set (p := mkParams (o0, o1, o2) tw th mt mp).
  assert (rd32 (enc_params p) 0 = Ok o0) as -> by lit.
  assert (rd32 (enc_params p) 4 = Ok o1) as -> by lit.
  assert (rd32 (enc_params p) 8 = Ok o2) as -> by lit.
  assert (rd32 (enc_params p) 12 = Ok tw) as -> by lit.
  assert (rd32 (enc_params p) 16 = Ok th) as -> by lit.
  assert (rd32 (enc_params p) 20 = Ok mt) as -> by lit.
  assert (rd32 (enc_params p) 24 = Ok mp) as -> by lit. reflexivity.
Qed.

Lemma setHeader_decode_enc : forall magic version n p rest, is_u32 magic -> is_u32 version -> is_u32 n -> typed_params p ->
  setHeader_decode ((le32 magic ++ le32 version ++ le32 n ++ enc_params p) ++ rest) = Ok (magic, version, n, p).
Proof.
  intros magic version n p rest H1 H2 H3 Hp. unfold setHeader_decode.
  rewrite <- !app_assoc.
  pose proof (rd32_app [] magic (le32 version ++ le32 n ++ enc_params p ++ rest) H1) as E1.
  change (zlen (@nil Z)) with 0 in E1. rewrite app_nil_l in E1. rewrite E1. cbn [bind].
  pose proof (rd32_app (le32 magic) version (le32 n ++ enc_params p ++ rest) H2) as E2.
  change (zlen (le32 magic)) with 4 in E2. rewrite E2. cbn [bind].
  pose proof (rd32_app (le32 magic ++ le32 version) n (enc_params p ++ rest) H3) as E3.
  change (zlen (le32 magic ++ le32 version)) with 8 in E3. rewrite <- app_assoc in E3. rewrite E3. cbn [bind].
  pose proof (params_decode_enc p (le32 magic ++ le32 version ++ le32 n) rest Hp) as E4.
  change (zlen (le32 magic ++ le32 version ++ le32 n)) with 12 in E4. rewrite <- !app_assoc in E4. rewrite E4. reflexivity.
Qed.

Lemma tileHeader_decode_enc : forall r s rest, is_u32 r -> is_i32 s ->
  tileHeader_decode ((le32 r ++ lei s) ++ rest) = Ok (r, s).
Proof.
  intros r s rest Hr Hs. unfold tileHeader_decode. rewrite <- app_assoc.
  pose proof (rd32_app [] r (lei s ++ rest) Hr) as E1. change (zlen (@nil Z)) with 0 in E1. rewrite app_nil_l in E1. rewrite E1. cbn [bind].
  pose proof (rdi32_app (le32 r) s rest Hs) as E2. change (zlen (le32 r)) with 4 in E2. unfold lei. rewrite E2. reflexivity.
Qed.
