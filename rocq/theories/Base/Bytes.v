(** Byte slices and little-endian integers (encoding/binary). *)
From Coq Require Import ZArith List Bool Lia.
From Verif.Base Require Import Res GoNum.
Import ListNotations.
Open Scope Z_scope.

Definition le16 (v : Z) : list Z := [v mod 256; v / 256 mod 256].
Definition le32 (v : Z) : list Z := [v mod 256; v / 256 mod 256; v / 65536 mod 256; v / 16777216 mod 256].

(** binary.LittleEndian.PutUint32(dst[off:], v) and friends: write the bytes [bs] at
    [off]; panics when they do not fit. *)
Definition put (dst : list Z) (off : Z) (bs : list Z) : res (list Z) :=
  if (0 <=? off) && (off + zlen bs <=? zlen dst)
  then Ok (firstn (Z.to_nat off) dst ++ bs ++ skipn (Z.to_nat (off + zlen bs)) dst)
  else Panic.
Definition put32 dst off v := put dst off (le32 v).
Definition put16 dst off v := put dst off (le16 v).
(** dst[off] = v *)
Definition put8 dst off v := put dst off [v].

(** binary.LittleEndian.Uint32(src[off:]) and friends; panic when the slice is too short. *)
Definition rd8 (src : list Z) (off : Z) : res Z := get src off.
Definition rd16 (src : list Z) (off : Z) : res Z :=
  let* a := get src off in
  let* b := get src (off + 1) in
  Ok (a + 256 * b).
Definition rd32 (src : list Z) (off : Z) : res Z :=
  let* a := get src off in
  let* b := get src (off + 1) in
  let* c := get src (off + 2) in
  let* d := get src (off + 3) in
  Ok (a + 256 * b + 65536 * c + 16777216 * d).
(** int32(little.Uint32(...)) *)
Definition rdi32 src off := let* v := rd32 src off in Ok (i32 v).

Lemma zlen_le32 : forall v, zlen (le32 v) = 4. Proof. reflexivity. Qed.
Lemma zlen_le16 : forall v, zlen (le16 v) = 2. Proof. reflexivity. Qed.

Lemma get_app_here : forall {A} (pre : list A) x rest, get (pre ++ x :: rest) (zlen pre) = Ok x.
Proof.
  intros A pre x rest. apply get_ok. split; [apply zlen_nonneg|].
  unfold zlen. rewrite Nat2Z.id, nth_error_app2, Nat.sub_diag by lia. reflexivity.
Qed.

Lemma get_app_off : forall {A} (pre mid rest : list A) k, 0 <= k < zlen mid ->
  get (pre ++ mid ++ rest) (zlen pre + k) = get mid k.
Proof.
  intros A pre mid rest k Hk. unfold get, zlen in *.
  destruct (Z.ltb_spec (Z.of_nat (length pre) + k) 0); [lia|].
  destruct (Z.ltb_spec k 0); [lia|].
  rewrite nth_error_app2 by lia. rewrite nth_error_app1 by lia. f_equal. f_equal. lia.
Qed.

Lemma le32_value : forall v, is_u32 v ->
  v mod 256 + 256 * (v / 256 mod 256) + 65536 * (v / 65536 mod 256) + 16777216 * (v / 16777216 mod 256) = v.
Proof.
  intros v H. unfold is_u32 in H.
  assert (v / 65536 = v / 256 / 256) as E1 by (rewrite Z.div_div by lia; reflexivity).
  assert (v / 16777216 = v / 65536 / 256) as E2 by (rewrite Z.div_div by lia; reflexivity).
  pose proof (Z.div_mod v 256 ltac:(lia)). pose proof (Z.div_mod (v / 256) 256 ltac:(lia)).
  pose proof (Z.div_mod (v / 65536) 256 ltac:(lia)).
  assert (0 <= v / 16777216 < 256) as Hh by (split; [apply Z.div_pos; lia|apply Z.div_lt_upper_bound; lia]).
  rewrite (Z.mod_small (v / 16777216)) by assumption. rewrite <- E1 in *. rewrite <- E2 in *. lia.
Qed.

Lemma rd32_app : forall pre v rest, is_u32 v -> rd32 (pre ++ le32 v ++ rest) (zlen pre) = Ok v.
Proof.
  intros pre v rest H. unfold rd32. rewrite <- (Z.add_0_r (zlen pre)) at 1.
  rewrite !get_app_off by (rewrite zlen_le32; lia).
  unfold le32 at 1 2 3 4.
  change (get [v mod 256; v / 256 mod 256; v / 65536 mod 256; v / 16777216 mod 256] 0) with (Ok (v mod 256)).
  change (get [v mod 256; v / 256 mod 256; v / 65536 mod 256; v / 16777216 mod 256] 1) with (Ok (v / 256 mod 256)).
  change (get [v mod 256; v / 256 mod 256; v / 65536 mod 256; v / 16777216 mod 256] 2) with (Ok (v / 65536 mod 256)).
  change (get [v mod 256; v / 256 mod 256; v / 65536 mod 256; v / 16777216 mod 256] 3) with (Ok (v / 16777216 mod 256)).
  cbn [bind]. f_equal. apply le32_value. assumption.
Qed.

Lemma rd16_app : forall pre v rest, is_u16 v -> rd16 (pre ++ le16 v ++ rest) (zlen pre) = Ok v.
Proof.
  intros pre v rest H. unfold rd16. rewrite <- (Z.add_0_r (zlen pre)) at 1.
  rewrite !get_app_off by (rewrite zlen_le16; lia).
  unfold le16 at 1 2.
  change (get [v mod 256; v / 256 mod 256] 0) with (Ok (v mod 256)).
  change (get [v mod 256; v / 256 mod 256] 1) with (Ok (v / 256 mod 256)).
  cbn [bind]. f_equal. unfold is_u16 in H.
  rewrite (Z.mod_small (v / 256)) by (split; [apply Z.div_pos; lia|apply Z.div_lt_upper_bound; lia]).
  pose proof (Z.div_mod v 256 ltac:(lia)). lia.
Qed.

Lemma rd8_app : forall pre v rest, rd8 (pre ++ v :: rest) (zlen pre) = Ok v.
Proof. intros. apply get_app_here. Qed.

Lemma rdi32_app : forall pre v rest, is_i32 v -> rdi32 (pre ++ le32 (u32 v) ++ rest) (zlen pre) = Ok v.
Proof.
  intros pre v rest H. unfold rdi32. rewrite rd32_app by apply u32_range. cbn [bind]. f_equal.
  unfold i32, u32, is_i32 in *. rewrite Zplus_mod_idemp_l, Z.mod_small; lia.
Qed.

(** Writing just behind what was already written into a fresh (zeroed) buffer. *)
Lemma put_next : forall done n bs off, off = zlen done -> zlen done + zlen bs <= n ->
  put (done ++ repeat 0 (Z.to_nat (n - zlen done))) off bs =
  Ok ((done ++ bs) ++ repeat 0 (Z.to_nat (n - zlen (done ++ bs)))).
Proof.
  intros done n bs off -> H. unfold put.
  pose proof (zlen_nonneg done). pose proof (zlen_nonneg bs).
  assert (zlen (done ++ repeat 0 (Z.to_nat (n - zlen done))) = zlen done + Z.of_nat (Z.to_nat (n - zlen done))) as ->
    by (unfold zlen; rewrite app_length, repeat_length; lia).
  destruct (Z.leb_spec 0 (zlen done)); [|lia]. cbn [andb].
  destruct (Z.leb_spec (zlen done + zlen bs) (zlen done + Z.of_nat (Z.to_nat (n - zlen done)))); [|lia].
  f_equal. rewrite <- app_assoc.
  assert (Z.to_nat (zlen done) = length done) as E by (unfold zlen; lia).
  assert (Z.to_nat (zlen done + zlen bs) = length done + length bs)%nat as E2 by (unfold zlen; lia).
  rewrite E, E2, firstn_app, firstn_all, Nat.sub_diag, firstn_O, app_nil_r.
  f_equal. f_equal. rewrite skipn_app, skipn_all2, app_nil_l by lia.
  replace (length done + length bs - length done)%nat with (length bs) by lia.
  rewrite zlen_app.
  replace (Z.to_nat (n - zlen done)) with (length bs + Z.to_nat (n - (zlen done + zlen bs)))%nat by (unfold zlen in *; lia).
  rewrite repeat_app, skipn_app, skipn_all2, repeat_length, Nat.sub_diag by (rewrite repeat_length; lia). reflexivity.
Qed.

Lemma put_panic : forall dst off bs, ~ (0 <= off /\ off + zlen bs <= zlen dst) -> put dst off bs = Panic.
Proof.
  intros dst off bs H. unfold put.
  destruct (Z.leb_spec 0 off); cbn [andb]; auto.
  destruct (Z.leb_spec (off + zlen bs) (zlen dst)); auto. lia.
Qed.

Lemma skipn_skipn : forall {A} n m (l : list A), skipn n (skipn m l) = skipn (n + m) l.
Proof.
  intros A n m. revert n. induction m as [|m IH]; intros n l; [now rewrite Nat.add_0_r|].
  rewrite Nat.add_succ_r. destruct l as [|x l]; cbn [skipn]; [now rewrite skipn_nil|]. apply IH.
Qed.
