(** Buffers filled from the front, rows of polygons, and the single loops of CreateNavMeshData. *)
From Coq Require Import ZArith List Lia Bool.
From Verif.Base Require Import Res GoNum F32 Num Grid Bits Bytes.
From Verif.Model Require Import Poly MeshTypes Geom MeshLinks BvTree Serial Create.
From Verif.Spec Require Import SerialSpec CreateSpec.
From Verif.Proofs Require Import CompactProofs SerialProofs FloatAdd FloatMag FloatOk.
Import ListNotations.
Open Scope Z_scope.

Definition pad {A} (n : nat) (z : A) (done : list A) : list A := done ++ repeat z (n - length done).
Lemma pad_nil : forall {A} n (z : A), pad n z [] = repeat z n.
Proof. intros. unfold pad. cbn [app length]. now rewrite Nat.sub_0_r. Qed.
Lemma pad_full : forall {A} n (z : A) l, length l = n -> pad n z l = l.
Proof. intros A n z l <-. unfold pad. rewrite Nat.sub_diag. apply app_nil_r. Qed.
Lemma pad_zlen : forall {A} n (z : A) l, zlen l <= Z.of_nat n -> zlen (pad n z l) = Z.of_nat n.
Proof. intros. unfold pad, zlen in *. rewrite app_length, repeat_length. lia. Qed.
Lemma putA_pad : forall {A} n (z : A) done xs off, off = zlen done -> zlen done + zlen xs <= Z.of_nat n ->
  putA (pad n z done) off xs = Ok (pad n z (done ++ xs)).
Proof.
  intros A n z done xs off -> H. unfold putA. pose proof (zlen_nonneg done). pose proof (zlen_nonneg xs). rewrite pad_zlen by lia.
  destruct (Z.leb_spec 0 (zlen done)); [|lia]. destruct (Z.leb_spec (zlen done + zlen xs) (Z.of_nat n)); [|lia]. cbn [andb]. f_equal.
  unfold pad, zlen in *. rewrite Nat2Z.id, firstn_app, firstn_all, Nat.sub_diag, firstn_O, app_nil_r, <- app_assoc. f_equal. f_equal.
  replace (Z.to_nat (Z.of_nat (length done) + Z.of_nat (length xs))) with (length done + length xs)%nat by lia.
  rewrite skipn_app, skipn_all2 by lia. cbn [app]. replace (length done + length xs - length done)%nat with (length xs) by lia.
  rewrite app_length. replace (n - length done)%nat with (length xs + (n - (length done + length xs)))%nat by lia.
  rewrite repeat_app, skipn_app, skipn_all2, repeat_length, Nat.sub_diag by (rewrite repeat_length; lia). reflexivity.
Qed.
Lemma copyA_pad : forall {A} n (z : A) done xs off, off = zlen done -> zlen done + zlen xs <= Z.of_nat n ->
  copyA (pad n z done) off xs = Ok (pad n z (done ++ xs)).
Proof.
  intros A n z done xs off -> H. unfold copyA. pose proof (zlen_nonneg done). pose proof (zlen_nonneg xs). rewrite pad_zlen by lia.
  destruct (Z.leb_spec 0 (zlen done)); [|lia]. destruct (Z.leb_spec (zlen done) (Z.of_nat n)); [|lia]. cbn [andb].
  rewrite firstn_all2 by (unfold zlen in *; lia). now apply putA_pad.
Qed.
Lemma set_pad : forall {A} n (z : A) done x i, i = zlen done -> zlen done < Z.of_nat n -> set (pad n z done) i x = Ok (pad n z (done ++ [x])).
Proof.
  intros A n z done x i -> H. pose proof (zlen_nonneg done). rewrite set_in_range by (rewrite pad_zlen; lia). f_equal.
  unfold pad, zlen in *. rewrite Nat2Z.id, app_length. cbn [length]. replace (n - length done)%nat with (S (n - (length done + 1))) by lia.
  cbn [repeat]. rewrite upd_app_length, <- app_assoc. reflexivity.
Qed.
Lemma get_app1 : forall {A} (a b : list A) i, i < zlen a -> get (a ++ b) i = get a i.
Proof. intros A a b i H. unfold get. destruct (Z.ltb_spec i 0); [reflexivity|]. rewrite nth_error_app1 by (unfold zlen in H; lia). reflexivity. Qed.
Lemma get_pad_next : forall {A} n (z : A) done i, i = zlen done -> zlen done < Z.of_nat n -> get (pad n z done) i = Ok z.
Proof.
  intros A n z done i -> H. apply get_ok. split; [apply zlen_nonneg|]. unfold pad, zlen in *. rewrite Nat2Z.id, nth_error_app2, Nat.sub_diag by lia.
  replace (n - length done)%nat with (S (n - length done - 1)) by lia. reflexivity.
Qed.
Lemma six_pad : forall l, six l = pad 6 0 l.
Proof. reflexivity. Qed.

Lemma foldM_zseq : forall {S} (f : S -> Z -> res S) (Inv : nat -> S -> Prop) n s0, Inv 0%nat s0 ->
  (forall k s, (k < n)%nat -> Inv k s -> exists s', f s (Z.of_nat k) = Ok s' /\ Inv (1 + k)%nat s') ->
  exists s, foldM f (zseq n) s0 = Ok s /\ Inv n s.
Proof.
  intros S f Inv n s0 H0 Hs. assert (K : forall k, (k <= n)%nat -> exists s, foldM f (zseq k) s0 = Ok s /\ Inv k s).
  { induction k as [|k IH]; intros Hk; [exists s0; split; [reflexivity|exact H0]|].
    destruct (IH ltac:(lia)) as (s & E & I). destruct (Hs k s ltac:(lia) I) as (s' & E' & I'). exists s'. split; [|exact I'].
    rewrite zseq_S, foldM_app, E. cbn [bind foldM]. rewrite E'. reflexivity. }
  apply K. lia.
Qed.
(** Same, for a state given by a function. *)
Lemma foldM_fun : forall {S} (f : S -> Z -> res S) (g : nat -> S) n, 
  (forall k, (k < n)%nat -> f (g k) (Z.of_nat k) = Ok (g (1 + k)%nat)) -> foldM f (zseq n) (g 0%nat) = Ok (g n).
Proof.
  intros S f g n H. destruct (foldM_zseq f (fun k s => s = g k) n (g 0%nat) eq_refl) as (s & E & ->); [|exact E].
  intros k s Hk ->. exists (g (1 + k)%nat). split; [now apply H|reflexivity].
Qed.

(** ** Reading *)
Lemma get_elt : forall l i, 0 <= i < zlen l -> get l i = Ok (elt l i).
Proof. intros l i H. apply get_ok. split; [lia|]. unfold elt. apply nth_error_nth'. unfold zlen in H. lia. Qed.
Lemma elt_in : forall l i, 0 <= i < zlen l -> In (elt l i) l.
Proof. intros l i H. unfold elt. apply nth_In. unfold zlen in H. lia. Qed.
Lemma elt_Forall : forall (P : Z -> Prop) l i, Forall P l -> 0 <= i < zlen l -> P (elt l i).
Proof. intros P l i F H. rewrite Forall_forall in F. apply F. now apply elt_in. Qed.
Lemma slice_part : forall {A} (l : list A) a b, 0 <= a <= b -> b <= zlen l -> slice l a b = Ok (part l a (b - a)).
Proof.
  intros A l a b H1 H2. unfold slice. destruct (Z.leb_spec 0 a); [|lia]. destruct (Z.leb_spec a b); [|lia]. destruct (Z.leb_spec b (zlen l)); [|lia]. reflexivity.
Qed.
Lemma part_zlen : forall {A} (l : list A) a n, 0 <= a -> 0 <= n -> a + n <= zlen l -> zlen (part l a n) = n.
Proof. intros A l a n H1 H2 H3. unfold part, zlen in *. rewrite firstn_length, skipn_length. lia. Qed.
Lemma part_zlen_le : forall {A} (l : list A) a n, 0 <= n -> zlen (part l a n) <= n.
Proof. intros A l a n H. unfold part, zlen. rewrite firstn_length. lia. Qed.
Lemma from_ok : forall {A} (l : list A) a, 0 <= a <= zlen l -> from l a = Ok (skipn (Z.to_nat a) l).
Proof.
  intros A l a H. unfold from. rewrite slice_part by lia. f_equal. unfold part. apply firstn_all2. rewrite skipn_length. unfold zlen in *. lia.
Qed.
Lemma zlen_skipn : forall {A} (l : list A) a, 0 <= a <= zlen l -> zlen (skipn (Z.to_nat a) l) = zlen l - a.
Proof. intros A l a H. unfold zlen in *. rewrite skipn_length. lia. Qed.
Lemma nth_firstn_z : forall (l : list Z) n k, (k < n)%nat -> nth k (firstn n l) 0 = nth k l 0.
Proof. induction l as [|x l IH]; intros [|n] [|k] H; cbn; try reflexivity; try lia. apply IH. lia. Qed.
Lemma nth_skipn_z : forall (l : list Z) a i, nth i (skipn a l) 0 = nth (a + i) l 0.
Proof.
  intros l a. revert l. induction a as [|a IH]; intros l i; [reflexivity|]. destruct l as [|x l]; cbn [skipn Nat.add nth]; [now destruct i|]. apply IH.
Qed.
Lemma elt_skipn : forall l a i, 0 <= a -> 0 <= i -> elt (skipn (Z.to_nat a) l) i = elt l (a + i).
Proof. intros l a i Ha Hi. unfold elt. rewrite nth_skipn_z. f_equal. lia. Qed.
Lemma get_skipn : forall l a i, 0 <= a -> 0 <= i -> a + i < zlen l -> get (skipn (Z.to_nat a) l) i = Ok (elt l (a + i)).
Proof. intros l a i Ha Hi H. rewrite get_elt by (rewrite zlen_skipn; lia). now rewrite elt_skipn. Qed.
Lemma skipn_nth : forall (l : list Z) a, (a < length l)%nat -> skipn a l = nth a l 0 :: skipn (S a) l.
Proof. induction l as [|x l IH]; intros [|a] H; cbn [length] in H; try lia; [reflexivity|]. cbn [skipn nth]. apply IH. lia. Qed.
Lemma part_cons : forall (l : list Z) a n, 0 <= a < zlen l -> 0 <= n -> part l a (1 + n) = elt l a :: part l (a + 1) n.
Proof.
  intros l a n Ha Hn. unfold part, elt, zlen in *. rewrite (skipn_nth l (Z.to_nat a)) by lia.
  replace (Z.to_nat (1 + n)) with (S (Z.to_nat n)) by lia. cbn [firstn]. f_equal. f_equal. f_equal. lia.
Qed.
Lemma part_0 : forall {A} (l : list A) a, part l a 0 = [].
Proof. reflexivity. Qed.
Lemma part_skipn : forall {A} (l : list A) a b n, 0 <= a -> 0 <= b -> part (skipn (Z.to_nat a) l) b n = part l (a + b) n.
Proof. intros A l a b n Ha Hb. unfold part. rewrite skipn_skipn. f_equal. f_equal. lia. Qed.
Lemma Forall_part : forall {A} (P : A -> Prop) l a n, Forall P l -> Forall P (part l a n).
Proof.
  intros A P l a n H. unfold part. apply Forall_forall. intros x Hx. rewrite Forall_forall in H. apply H.
  rewrite <- (firstn_skipn (Z.to_nat a) l). apply in_or_app. right. rewrite <- (firstn_skipn (Z.to_nat n) (skipn (Z.to_nat a) l)). apply in_or_app. now left.
Qed.
Lemma get_zseq : forall n i, 0 <= i < Z.of_nat n -> get (zseq n) i = Ok i.
Proof.
  intros n i H. apply get_ok. split; [lia|]. unfold zseq. rewrite nth_error_map. rewrite (nth_error_nth' (seq 0 n) 0%nat) by (rewrite seq_length; lia).
  cbn [option_map]. rewrite seq_nth by lia. f_equal. lia.
Qed.
Lemma upto_zlen : forall n, 0 <= n -> zlen (upto n) = n.
Proof. intros n H. unfold upto, zlen. rewrite zseq_length. lia. Qed.
Lemma upto_nat : forall k, upto (Z.of_nat k) = zseq k.
Proof. intros k. unfold upto. now rewrite Nat2Z.id. Qed.
Lemma in_upto : forall n i, 0 <= n -> In i (upto n) <-> 0 <= i < n.
Proof. intros n i H. unfold upto. rewrite in_zseq. lia. Qed.

(** ** Edge codes *)
Lemma land_high : forall e, is_u16 e -> (Z.land e 32768 =? 0) = (e <? 32768).
Proof.
  intros e H. unfold is_u16 in H. change 32768 with (2 ^ 15) at 1. rewrite Z.land_comm.
  assert (E : Z.land (2 ^ 15) e = if Z.testbit e 15 then 2 ^ 15 else 0).
  { apply Z.bits_inj'. intros i Hi. rewrite Z.land_spec, Z.pow2_bits_eqb by lia. destruct (Z.eqb_spec 15 i) as [<-|N].
    - destruct (Z.testbit e 15); [now rewrite Z.pow2_bits_true by lia|now rewrite Z.bits_0].
    - destruct (Z.testbit e 15); [rewrite Z.pow2_bits_eqb by lia; destruct (Z.eqb_spec 15 i); [lia|reflexivity]|now rewrite Z.bits_0]. }
  rewrite E, Z.testbit_eqb by lia. change (2 ^ 15) with 32768. destruct (Z.ltb_spec e 32768) as [L|L].
  - rewrite Z.div_small by lia. reflexivity.
  - replace (e / 32768) with 1; [reflexivity|]. apply Z.div_unique with (e - 32768); lia.
Qed.
Lemma land_low : forall e, Z.land e 15 = e mod 16.
Proof. intros e. exact (land_mask e 4 ltac:(lia)). Qed.
Lemma portal_eq : forall e, is_u16 e -> negb (Z.land e 32768 =? 0) && negb (Z.land e 15 =? 15) = is_portal e.
Proof. intros e H. rewrite land_high, land_low by assumption. unfold is_portal. f_equal. destruct (Z.ltb_spec e 32768), (Z.leb_spec 32768 e); reflexivity || lia. Qed.
Lemma nei_eq : forall e, is_u16 e -> neiCode e 0 = nei_of e.
Proof.
  intros e H. unfold neiCode, nei_of. rewrite land_high, land_low by assumption. destruct (Z.ltb_spec e 32768) as [L|L]; cbn [negb].
  - apply u16_id. unfold is_u16 in *. lia.
  - pose proof (Z.mod_pos_bound e 16 ltac:(lia)) as B. set (d := e mod 16) in *. clearbody d.
    assert (K : d = 0 \/ d = 1 \/ d = 2 \/ d = 3 \/ 4 <= d) by lia. destruct K as [-> | [-> | [-> | [-> | K]]]]; try reflexivity.
    destruct (Z.eqb_spec d 15) as [->|]; [reflexivity|]. destruct (Z.eqb_spec d 0); [lia|]. destruct (Z.eqb_spec d 1); [lia|]. destruct (Z.eqb_spec d 2); [lia|]. destruct (Z.eqb_spec d 3); [lia|].
    destruct d as [|p|p]; [lia| |lia]. do 4 (destruct p as [p|p|]; try reflexivity; try lia).
Qed.
Lemma nei_u16 : forall e, is_u16 e -> is_u16 (nei_of e).
Proof.
  intros e H. unfold nei_of, is_u16 in *. destruct (Z.ltb_spec e 32768); [lia|]. set (d := e mod 16). clearbody d.
  destruct d as [|p|p]; try lia. do 3 (destruct p as [p|p|]; try lia).
Qed.

(** ** Rows *)
Lemma before_null_le : forall l, zlen (before_null l) <= zlen l.
Proof. induction l as [|v l IH]; cbn [before_null]; [lia|]. destruct (v =? 65535); rewrite ?zlen_cons; [pose proof (zlen_nonneg l); change (zlen (@nil Z)) with 0; lia|lia]. Qed.
Lemma before_null_Forall : forall (P : Z -> Prop) l, Forall P l -> Forall P (before_null l).
Proof. intros P l H. induction H as [|v l Hv Hl IH]; cbn [before_null]; [constructor|]. destruct (v =? 65535); constructor; assumption. Qed.

Section Row.
Variables (q : list Z) (nvp : Z).
Hypothesis Hn : 0 <= nvp.
Hypothesis Hq : 2 * nvp <= zlen q.
Hypothesis Hu : forall k, 0 <= k < 2 * nvp -> is_u16 (elt q k).

Lemma row_step : forall n j, 0 <= j -> j + Z.of_nat (S n) = nvp ->
  part q j (Z.of_nat (S n)) = elt q j :: part q (j + 1) (Z.of_nat n).
Proof using Hq Hn. intros n j Hj E. rewrite Nat2Z.inj_succ. replace (Z.succ (Z.of_nat n)) with (1 + Z.of_nat n) by lia. apply part_cons; lia. Qed.
Definition row (j : Z) (n : nat) : list Z := before_null (part q j (Z.of_nat n)).
Lemma row_len : forall j n, zlen (row j n) <= Z.of_nat n.
Proof. intros. unfold row. etransitivity; [apply before_null_le|]. apply part_zlen_le. lia. Qed.

Lemma countVerts_eq : forall n j nv, 0 <= j -> j + Z.of_nat n = nvp -> countVerts n q j nv = Ok (nv + zlen (row j n)).
Proof using Hq Hn.
  induction n as [|n IH]; intros j nv Hj E; [cbn [countVerts]; unfold row; rewrite part_0; cbn [before_null]; f_equal; change (zlen (@nil Z)) with 0; lia|].
  cbn [countVerts]. rewrite get_elt by lia. cbn [bind]. unfold row. rewrite row_step by assumption. cbn [before_null]. unfold meshNullIdx.
  destruct (elt q j =? 65535); [change (zlen (@nil Z)) with 0; f_equal; lia|]. rewrite IH by lia. fold (row (j + 1) n). rewrite zlen_cons. f_equal. lia.
Qed.
Lemma countEdges_eq : forall n j ec pc, 0 <= j -> j + Z.of_nat n = nvp -> 0 <= ec -> 0 <= pc -> ec + Z.of_nat n < 2147483648 -> pc + Z.of_nat n < 2147483648 ->
  countEdges n q nvp j ec pc = Ok (ec + zlen (row j n), pc + zlen (filter is_portal (part q (nvp + j) (zlen (row j n))))).
Proof using Hq Hn Hu.
  induction n as [|n IH]; intros j ec pc Hj E H1 H2 H3 H4.
  - cbn [countEdges]. unfold row. rewrite part_0. cbn [before_null]. change (zlen (@nil Z)) with 0. rewrite part_0. cbn [filter]. change (zlen (@nil Z)) with 0. f_equal. f_equal; lia.
  - cbn [countEdges]. rewrite get_elt by lia. cbn [bind]. unfold row. rewrite row_step by assumption. cbn [before_null]. unfold meshNullIdx.
    destruct (elt q j =? 65535).
    { change (zlen (@nil Z)) with 0. rewrite part_0. cbn [filter]. change (zlen (@nil Z)) with 0. f_equal. f_equal; lia. }
    rewrite get_elt by lia. cbn [bind]. pose proof (Hu (nvp + j) ltac:(lia)) as U. rewrite portal_eq by assumption.
    rewrite (i32_id (ec + 1)), (i32_id (pc + 1)) by (unfold is_i32; lia). pose proof (row_len (j + 1) n) as RL.
    fold (row (j + 1) n). rewrite zlen_cons. rewrite (part_cons q (nvp + j) (zlen (row (j + 1) n))) by (pose proof (zlen_nonneg (row (j + 1) n)); lia).
    cbn [filter]. rewrite IH; try lia; [|destruct (is_portal _); lia|destruct (is_portal _); lia].
    replace (nvp + (j + 1)) with (nvp + j + 1) by lia. f_equal. f_equal; [lia|]. destruct (is_portal _); rewrite ?zlen_cons; lia.
Qed.
Lemma fillEdges_eq : forall n j fl vs ns flags at_, 0 <= j -> j + Z.of_nat n = nvp -> nvp <= 6 -> zlen vs = j -> zlen ns = j ->
  fillEdges n q nvp j (mkPoly fl (six vs) (six ns) flags j at_) =
    Ok (mkPoly fl (six (vs ++ row j n)) (six (ns ++ map nei_of (part q (nvp + j) (zlen (row j n))))) flags (j + zlen (row j n)) at_).
Proof using Hq Hn Hu.
  induction n as [|n IH]; intros j fl vs ns flags at_ Hj E H6 Lv Ln.
  - cbn [fillEdges]. unfold row. rewrite part_0. cbn [before_null]. change (zlen (@nil Z)) with 0. rewrite part_0. cbn [map]. rewrite !app_nil_r, Z.add_0_r. reflexivity.
  - cbn [fillEdges]. rewrite get_elt by lia. cbn [bind]. unfold row. rewrite row_step by assumption. cbn [before_null]. unfold meshNullIdx.
    destruct (elt q j =? 65535).
    { change (zlen (@nil Z)) with 0. rewrite part_0. cbn [map]. rewrite !app_nil_r, Z.add_0_r. reflexivity. }
    cbn [pVerts pNeis pFirstLink pFlags pVertCount pAreaAndType]. rewrite (six_pad vs), (six_pad ns).
    rewrite set_pad by (unfold zlen in *; lia). cbn [bind]. rewrite get_elt by lia. cbn [bind].
    rewrite get_pad_next by (unfold zlen in *; lia). cbn [bind]. rewrite set_pad by (unfold zlen in *; lia). cbn [bind].
    pose proof (Hu (nvp + j) ltac:(lia)) as U. rewrite nei_eq by assumption. rewrite u8_id by (unfold is_u8; lia).
    rewrite <- !six_pad. rewrite IH; try lia; [|rewrite zlen_snoc; lia|rewrite zlen_snoc; lia]. pose proof (row_len (j + 1) n) as RL.
    fold (row (j + 1) n). rewrite zlen_cons. rewrite (part_cons q (nvp + j) (zlen (row (j + 1) n))) by (pose proof (zlen_nonneg (row (j + 1) n)); lia).
    cbn [map]. rewrite <- !app_assoc. cbn [app]. replace (nvp + (j + 1)) with (nvp + j + 1) by lia. f_equal. f_equal. lia.
Qed.
End Row.
