(** Go integers as [Z] with explicit wrap-around, and slices as lists. *)
From Coq Require Import ZArith List Bool Lia.
From Verif.Base Require Import Res.
Import ListNotations.
Open Scope Z_scope.

(** * Wrap-around of the fixed-size integer types (Go spec, "Integer overflow"). *)
Definition u8 (z : Z) : Z := z mod 256.
Definition u16 (z : Z) : Z := z mod 65536.
Definition u32 (z : Z) : Z := z mod 4294967296.
Definition i32 (z : Z) : Z := (z + 2147483648) mod 4294967296 - 2147483648.

Definition is_u8 (z : Z) : Prop := 0 <= z < 256.
Definition is_u16 (z : Z) : Prop := 0 <= z < 65536.
Definition is_u32 (z : Z) : Prop := 0 <= z < 4294967296.
Definition is_i32 (z : Z) : Prop := -2147483648 <= z < 2147483648.

Lemma u8_range : forall z, is_u8 (u8 z).
Proof. intros; unfold is_u8, u8; apply Z.mod_pos_bound; lia. Qed.
Lemma u16_range : forall z, is_u16 (u16 z).
Proof. intros; unfold is_u16, u16; apply Z.mod_pos_bound; lia. Qed.
Lemma u32_range : forall z, is_u32 (u32 z).
Proof. intros; unfold is_u32, u32; apply Z.mod_pos_bound; lia. Qed.
Lemma i32_range : forall z, is_i32 (i32 z).
Proof.
  intros; unfold is_i32, i32.
  pose proof (Z.mod_pos_bound (z + 2147483648) 4294967296). lia.
Qed.
Lemma u8_id : forall z, is_u8 z -> u8 z = z.
Proof. intros; apply Z.mod_small; assumption. Qed.
Lemma u16_id : forall z, is_u16 z -> u16 z = z.
Proof. intros; apply Z.mod_small; assumption. Qed.
Lemma u32_id : forall z, is_u32 z -> u32 z = z.
Proof. intros; apply Z.mod_small; assumption. Qed.
Lemma i32_id : forall z, is_i32 z -> i32 z = z.
Proof. intros z H; unfold i32, is_i32 in *; rewrite Z.mod_small; lia. Qed.

(** * Slices *)
Fixpoint upd {A} (l : list A) (n : nat) (v : A) : list A :=
  match l, n with
  | [], _ => []
  | _ :: t, O => v :: t
  | x :: t, S n' => x :: upd t n' v
  end.

Lemma upd_length : forall {A} (l : list A) n v, length (upd l n v) = length l.
Proof. induction l as [|x l IH]; intros [|n] v; simpl; auto. Qed.

Lemma nth_error_upd : forall {A} (l : list A) n m v,
  nth_error (upd l n v) m =
  if Nat.eqb m n then match nth_error l n with Some _ => Some v | None => None end
  else nth_error l m.
Proof.
  induction l as [|x l IH]; intros [|n] [|m] v; simpl; auto.
  - destruct (Nat.eqb m n); reflexivity.
Qed.

Lemma nth_error_upd_eq : forall {A} (l : list A) n v,
  (n < length l)%nat -> nth_error (upd l n v) n = Some v.
Proof.
  intros A l n v H. rewrite nth_error_upd, Nat.eqb_refl.
  destruct (nth_error l n) eqn:E; auto.
  apply nth_error_None in E. lia.
Qed.

Lemma nth_error_upd_neq : forall {A} (l : list A) n m v,
  m <> n -> nth_error (upd l n v) m = nth_error l m.
Proof.
  intros A l n m v H. rewrite nth_error_upd.
  destruct (Nat.eqb_spec m n); congruence.
Qed.

Lemma nth_upd : forall {A} (l : list A) n m v d,
  nth m (upd l n v) d = if (Nat.eqb m n && Nat.ltb n (length l))%bool then v else nth m l d.
Proof.
  induction l as [|x l IH]; intros [|n] [|m] v d; simpl; auto.
  - now rewrite andb_false_r.
  - apply IH.
Qed.

Lemma upd_self : forall {A} (l : list A) n v,
  nth_error l n = Some v -> upd l n v = l.
Proof.
  induction l as [|x l IH]; intros [|n] v H; simpl in *; try congruence.
  f_equal; auto.
Qed.

Lemma upd_upd : forall {A} (l : list A) n v w, upd (upd l n v) n w = upd l n w.
Proof. induction l as [|x l IH]; intros [|n] v w; simpl; auto. f_equal; auto. Qed.

Lemma upd_comm : forall {A} (l : list A) n m v w,
  n <> m -> upd (upd l n v) m w = upd (upd l m w) n v.
Proof.
  induction l as [|x l IH]; intros [|n] [|m] v w H; simpl; auto; try lia.
  f_equal; auto.
Qed.

(** Slice length as a Go [int]. *)
Definition zlen {A} (l : list A) : Z := Z.of_nat (length l).

(** [s[i]]: panics when the index is out of range. *)
Definition get {A} (l : list A) (i : Z) : res A :=
  if i <? 0 then Panic else of_option (nth_error l (Z.to_nat i)).

(** [s[i] = v]: panics when the index is out of range. *)
Definition set {A} (l : list A) (i : Z) (v : A) : res (list A) :=
  if (0 <=? i) && (i <? zlen l) then Ok (upd l (Z.to_nat i) v) else Panic.

(** [s[a:b]] for slices whose capacity is their length. *)
Definition slice {A} (l : list A) (a b : Z) : res (list A) :=
  if (0 <=? a) && (a <=? b) && (b <=? zlen l)
  then Ok (firstn (Z.to_nat (b - a)) (skipn (Z.to_nat a) l))
  else Panic.

Lemma get_ok : forall {A} (l : list A) i a,
  get l i = Ok a <-> 0 <= i /\ nth_error l (Z.to_nat i) = Some a.
Proof.
  intros A l i a. unfold get. destruct (Z.ltb_spec i 0).
  - split; [discriminate | lia].
  - destruct (nth_error l (Z.to_nat i)); simpl; split; intros; try (split; [lia|congruence]);
      try (destruct H0; congruence); discriminate.
Qed.

Lemma get_in_range : forall {A} (l : list A) i,
  0 <= i < zlen l -> exists a, get l i = Ok a.
Proof.
  intros A l i H. unfold zlen in H.
  destruct (nth_error l (Z.to_nat i)) as [a|] eqn:E.
  - exists a. apply get_ok. split; [lia|assumption].
  - apply nth_error_None in E. lia.
Qed.

Lemma get_panic : forall {A} (l : list A) i,
  ~ 0 <= i < zlen l -> get l i = Panic.
Proof.
  intros A l i H. unfold get, zlen in *. destruct (Z.ltb_spec i 0); auto.
  destruct (nth_error l (Z.to_nat i)) eqn:E; auto.
  assert (nth_error l (Z.to_nat i) <> None) as N by congruence.
  apply nth_error_Some in N. lia.
Qed.

Lemma get_range : forall {A} (l : list A) i a, get l i = Ok a -> 0 <= i < zlen l.
Proof.
  intros A l i a H. apply get_ok in H. destruct H as [H1 H2]. unfold zlen.
  assert (nth_error l (Z.to_nat i) <> None) as N by congruence.
  apply nth_error_Some in N. lia.
Qed.

Lemma set_ok : forall {A} (l l' : list A) i v,
  set l i v = Ok l' <-> 0 <= i < zlen l /\ l' = upd l (Z.to_nat i) v.
Proof.
  intros A l l' i v. unfold set.
  destruct (Z.leb_spec 0 i); destruct (Z.ltb_spec i (zlen l)); simpl; split; intros;
    try discriminate; try lia.
  - split; [lia|congruence].
  - destruct H1; congruence.
Qed.

Lemma set_in_range : forall {A} (l : list A) i v,
  0 <= i < zlen l -> set l i v = Ok (upd l (Z.to_nat i) v).
Proof. intros. apply set_ok. auto. Qed.

Lemma zlen_upd : forall {A} (l : list A) n v, zlen (upd l n v) = zlen l.
Proof. intros; unfold zlen; now rewrite upd_length. Qed.
Lemma zlen_nonneg : forall {A} (l : list A), 0 <= zlen l.
Proof. intros; unfold zlen; lia. Qed.
Lemma zlen_app : forall {A} (l k : list A), zlen (l ++ k) = zlen l + zlen k.
Proof. intros; unfold zlen; rewrite app_length; lia. Qed.
Lemma zlen_cons : forall {A} (x : A) l, zlen (x :: l) = 1 + zlen l.
Proof. intros; unfold zlen; simpl length; lia. Qed.
Lemma zlen_nil : forall {A}, zlen (@nil A) = 0.
Proof. reflexivity. Qed.

Lemma get_upd : forall {A} (l : list A) i j v,
  0 <= i -> 0 <= j ->
  get (upd l (Z.to_nat i) v) j =
  if (j =? i) && (j <? zlen l) then Ok v else get l j.
Proof.
  intros A l i j v Hi Hj. unfold get, zlen.
  destruct (Z.ltb_spec j 0); [lia|].
  rewrite nth_error_upd.
  destruct (Z.eqb_spec j i) as [->|N]; simpl.
  - rewrite Nat.eqb_refl. destruct (Z.ltb_spec i (Z.of_nat (length l))).
    + destruct (nth_error l (Z.to_nat i)) eqn:E; auto.
      apply nth_error_None in E. lia.
    + assert (nth_error l (Z.to_nat i) = None) as -> by (apply nth_error_None; lia).
      reflexivity.
  - destruct (Nat.eqb_spec (Z.to_nat j) (Z.to_nat i)); [lia|reflexivity].
Qed.

(** Number list [0; 1; ...; n-1] as [Z]. *)
Definition zseq (n : nat) : list Z := map Z.of_nat (seq 0 n).

(** Indexing by [nat] (indices that are non-negative by construction). *)
Definition getn {A} (l : list A) (n : nat) : res A := of_option (nth_error l n).
Definition setn {A} (l : list A) (n : nat) (v : A) : res (list A) :=
  if Nat.ltb n (length l) then Ok (upd l n v) else Panic.

Lemma getn_ok : forall {A} (l : list A) n a, getn l n = Ok a <-> nth_error l n = Some a.
Proof.
  intros A l n a. unfold getn. destruct (nth_error l n); simpl; split; intros; congruence.
Qed.
Lemma setn_ok : forall {A} (l l' : list A) n v,
  setn l n v = Ok l' <-> (n < length l)%nat /\ l' = upd l n v.
Proof.
  intros A l l' n v. unfold setn. destruct (Nat.ltb_spec n (length l)); split; intros.
  - split; congruence.
  - destruct H0; congruence.
  - discriminate.
  - lia.
Qed.
Lemma get_getn : forall {A} (l : list A) i, 0 <= i -> get l i = getn l (Z.to_nat i).
Proof. intros. unfold get. destruct (Z.ltb_spec i 0); [lia|reflexivity]. Qed.
Lemma nth_error_in_range : forall {A} (l : list A) n, (n < length l)%nat -> exists a, nth_error l n = Some a.
Proof.
  intros A l n H. destruct (nth_error l n) eqn:E; eauto. apply nth_error_None in E. lia.
Qed.
Lemma firstn_upd : forall {A} (l : list A) n i v, (i < n)%nat -> firstn n (upd l i v) = upd (firstn n l) i v.
Proof.
  induction l as [|x l IH]; intros [|n] [|i] v H; simpl; auto; try lia. f_equal. apply IH. lia.
Qed.
Lemma firstn_upd_ge : forall {A} (l : list A) n i v, (n <= i)%nat -> firstn n (upd l i v) = firstn n l.
Proof.
  induction l as [|x l IH]; intros [|n] [|i] v H; simpl; auto; try lia. f_equal. apply IH. lia.
Qed.
Lemma upd_app_length : forall {A} (l : list A) k v x, upd (l ++ x :: k) (length l) v = l ++ v :: k.
Proof. induction l as [|y l IH]; intros; simpl; auto. f_equal; auto. Qed.
Lemma firstn_snoc : forall {A} (l : list A) n x, nth_error l n = Some x -> firstn (S n) l = firstn n l ++ [x].
Proof.
  induction l as [|y l IH]; intros [|n] x H; simpl in *; try congruence.
  f_equal. apply IH. assumption.
Qed.
Lemma zlen_snoc : forall {A} (l : list A) x, zlen (l ++ [x]) = zlen l + 1.
Proof. intros. rewrite zlen_app. reflexivity. Qed.
