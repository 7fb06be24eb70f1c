From Coq Require Import ZArith List Bool Lia.
From Verif.Base Require Import Res GoNum Bits Grid.
From Verif.Model Require Import ContourGeom Triangulate.
From Verif.Spec Require Import AreaSpec.
Import ListNotations.
Open Scope Z_scope.

(** * Areas *)
Lemma chain_cons2 : forall p q l, chain (p :: q :: l) = cross p q + chain (q :: l).
Proof. reflexivity. Qed.
Lemma chain_snoc : forall l y x d, chain ((y :: l) ++ [x]) = chain (y :: l) + cross (last (y :: l) d) x.
Proof.
  induction l as [|z l IH]; intros y x d.
  - cbn. lia.
  - change ((y :: z :: l) ++ [x]) with (y :: z :: (l ++ [x])). rewrite !chain_cons2.
    change (z :: l ++ [x]) with ((z :: l) ++ [x]). rewrite (IH z x d).
    change (last (y :: z :: l) d) with (last (z :: l) d). lia.
Qed.
Lemma last_irrel : forall {A} (l : list A) y d e, last (y :: l) d = last (y :: l) e.
Proof. induction l as [|z l IH]; intros y d e; [reflexivity|]. cbn [last] in *. apply (IH z). Qed.
Lemma area_cons : forall x l, area (x :: l) = chain (x :: l) + cross (last (x :: l) x) x.
Proof. reflexivity. Qed.
Lemma area_rot1 : forall x l, area (l ++ [x]) = area (x :: l).
Proof.
  intros x [|y l]; [reflexivity|].
  change ((y :: l) ++ [x]) with (y :: (l ++ [x])). rewrite !area_cons.
  change (y :: l ++ [x]) with ((y :: l) ++ [x]). rewrite last_last, (chain_snoc l y x x), chain_cons2.
  change (last (x :: y :: l) x) with (last (y :: l) x). lia.
Qed.
Lemma area_rot : forall u v, area (v ++ u) = area (u ++ v).
Proof.
  induction u as [|x u IH]; intros v; [now rewrite app_nil_r|].
  change ((x :: u) ++ v) with (x :: (u ++ v)). rewrite <- area_rot1.
  rewrite <- app_assoc, <- IH, <- app_assoc. reflexivity.
Qed.

Lemma area_tri : forall a b c, area [a; b; c] = cross a b + cross b c + cross c a.
Proof. intros. cbn. lia. Qed.
Lemma cross_anti : forall p q, cross p q = - cross q p.
Proof. intros. unfold cross. lia. Qed.
Lemma area_cut : forall l t l', cut l t l' -> area l = tri_area t + area l'.
Proof.
  intros l t l' (u & b & v & a & c & m & -> & -> & E & ->). unfold tri_area.
  rewrite <- (area_rot u (b :: v)), <- (area_rot u v). cbn [app]. rewrite E, area_tri.
  rewrite !area_cons, chain_cons2.
  change (b :: c :: m ++ [a]) with ((b :: c :: m) ++ [a]). change (c :: m ++ [a]) with ((c :: m) ++ [a]).
  rewrite !last_last. rewrite (cross_anti c a). lia.
Qed.
Lemma area_cuts : forall l ts l', cuts l ts l' -> area l = sum (map tri_area ts) + area l'.
Proof.
  induction 1 as [l|l t l1 ts l2 Hc Hs IH]; [cbn; lia|].
  rewrite (area_cut _ _ _ Hc), IH. cbn [map sum fold_right]. unfold sum. lia.
Qed.
Lemma sum_app : forall a b, sum (a ++ b) = sum a + sum b.
Proof. induction a as [|x a IH]; intros b; [reflexivity|]. cbn [app sum fold_right] in *. unfold sum in *. rewrite IH. lia. Qed.
Lemma area_triangulation : forall l ts, triangulation l ts -> area l = sum (map tri_area ts).
Proof.
  intros l ts (ts' & a & b & c & -> & H). rewrite (area_cuts _ _ _ H), map_app, sum_app. cbn [map sum fold_right]. unfold tri_area. lia.
Qed.

(** Cutting commutes with renaming. *)
Definition map3 {A B} (f : A -> B) (t : A * A * A) : B * B * B := let '(a, b, c) := t in (f a, f b, f c).
Lemma cut_map : forall {A B} (f : A -> B) l t l', cut l t l' -> cut (map f l) (map3 f t) (map f l').
Proof.
  intros A B f l t l' (u & b & v & a & c & m & -> & -> & E & ->).
  exists (map f u), (f b), (map f v), (f a), (f c), (map f m). rewrite !map_app. cbn [map].
  split; [reflexivity|]. split; [reflexivity|]. split; [|reflexivity].
  rewrite <- map_app, E. cbn [map]. now rewrite map_app.
Qed.
Lemma cuts_map : forall {A B} (f : A -> B) l ts l', cuts l ts l' -> cuts (map f l) (map (map3 f) ts) (map f l').
Proof. induction 1; [constructor|]. econstructor; [eapply cut_map|]; eassumption. Qed.
Lemma triangulation_map : forall {A B} (f : A -> B) l ts, triangulation l ts -> triangulation (map f l) (map (map3 f) ts).
Proof.
  intros A B f l ts (ts' & a & b & c & -> & H). exists (map (map3 f) ts'), (f a), (f b), (f c).
  rewrite map_app. split; [reflexivity|]. apply (cuts_map f) in H. exact H.
Qed.
Lemma cuts_snoc : forall {A} (l : list A) ts l1 t l2, cuts l ts l1 -> cut l1 t l2 -> cuts l (ts ++ [t]) l2.
Proof. induction 1; intros Hc; cbn [app]; econstructor; eauto. constructor. Qed.
Lemma cut_length : forall {A} (l : list A) t l', cut l t l' -> length l = S (length l').
Proof. intros A l t l' (u & b & v & a & c & m & -> & -> & E & ->). rewrite !app_length. cbn. lia. Qed.
Lemma cuts_length : forall {A} (l : list A) ts l', cuts l ts l' -> (length l = length ts + length l')%nat.
Proof. induction 1 as [|l t l1 ts l2 H]; [reflexivity|]. apply cut_length in H. cbn [length]. lia. Qed.
Lemma cut_incl : forall {A} (l : list A) a b c l', cut l (a, b, c) l' -> In a l /\ In b l /\ In c l /\ incl l' l.
Proof.
  intros A l a b c l' (u & b' & v & a' & c' & m & -> & -> & E & F). inversion F; subst a' b' c'.
  assert (forall x, In x (v ++ u) -> In x (u ++ b :: v)) as G.
  { intros x. rewrite !in_app_iff. cbn. tauto. }
  split; [apply G; rewrite E; right; apply in_or_app; right; left; reflexivity|].
  split; [apply in_or_app; right; left; reflexivity|].
  split; [apply G; rewrite E; now left|].
  intros x. rewrite !in_app_iff. cbn. tauto.
Qed.
Lemma cuts_incl : forall {A} (l : list A) ts l', cuts l ts l' ->
  incl l' l /\ forall a b c, In (a, b, c) ts -> In a l /\ In b l /\ In c l.
Proof.
  induction 1 as [l|l [[x y] z] l1 ts l2 H Hs [I1 I2]].
  - split; [apply incl_refl|]. intros a b c [].
  - apply cut_incl in H. destruct H as (Hx & Hy & Hz & Hi). split; [eauto using incl_tran|].
    intros a b c [E|E]; [inversion E; subst; auto|]. destruct (I2 a b c E) as (P & Q & R). auto.
Qed.

(** * The model *)
Definition okIdx (verts : list Z) (k : Z) : Prop := 0 <= k /\ k * 4 + 2 < zlen verts.
(** [indices] holds the polygon [L], up to flags. *)
Definition holds (indices L : list Z) : Prop :=
  (length L <= length indices)%nat /\ map masked (firstn (length L) indices) = L.

Lemma masked_flag : forall x, masked (Z.lor x idxFlag) = masked x.
Proof. intros. unfold masked. rewrite Z.land_lor_distr_l. change (Z.land idxFlag idxMask) with 0. apply Z.lor_0_r. Qed.
Lemma masked_masked : forall x, masked (Z.land x idxMask) = masked x.
Proof. intros. unfold masked. now rewrite <- Z.land_assoc, Z.land_diag. Qed.
Lemma masked_id : forall k, 0 <= k < 268435456 -> masked k = k.
Proof.
  intros k H. unfold masked, idxMask. change 268435455 with (2 ^ 28 - 1). rewrite land_mask by lia.
  apply Z.mod_small. exact H.
Qed.

Lemma nth_error_firstn_lt : forall {A} n (l : list A) i, (i < n)%nat -> nth_error (firstn n l) i = nth_error l i.
Proof.
  induction n as [|n IH]; intros l i H; [lia|]. destruct l as [|x l]; [now destruct i|].
  destruct i; [reflexivity|]. cbn. apply IH. lia.
Qed.
Lemma holds_get : forall indices L i, holds indices L -> 0 <= i < zlen L ->
  exists x, get indices i = Ok x /\ get L i = Ok (masked x).
Proof.
  intros indices L i [Hl Hm] Hi. destruct (get_in_range indices i) as [x Hx]; [unfold zlen in *; lia|].
  exists x. split; [exact Hx|]. apply get_ok in Hx. destruct Hx as [H0 Hx]. apply get_ok. split; [exact H0|].
  rewrite <- Hm at 1. rewrite nth_error_map. unfold zlen in Hi.
  rewrite nth_error_firstn_lt by lia. now rewrite Hx.
Qed.

Lemma next_range : forall i n, 0 < n -> 0 <= i < n -> 0 <= next i n < n.
Proof. intros. unfold next. destruct (Z.ltb_spec (i + 1) n); lia. Qed.
Lemma prev_range : forall i n, 0 < n -> 0 <= i < n -> 0 <= prev i n < n.
Proof. intros. unfold prev. rewrite Z.geb_leb. destruct (Z.leb_spec 0 (i - 1)); lia. Qed.

Section Ok.
  Variables (verts indices L : list Z) (n : Z).
  Hypothesis Hh : holds indices L.
  Hypothesis Hv : Forall (okIdx verts) L.
  Hypothesis Hn : n = zlen L.
  Hypothesis Hpos : 0 < n.

  Lemma pt_ok : forall i, 0 <= i < n -> exists p, ptAt verts indices i = Ok p.
  Proof.
    intros i Hi. destruct (holds_get indices L i Hh) as (x & Hx & HL); [lia|].
    unfold ptAt. rewrite Hx. cbn [bind]. unfold vertAt.
    apply get_ok in HL. destruct HL as [_ HL]. apply nth_error_In in HL.
    rewrite Forall_forall in Hv. destruct (Hv _ HL) as [K0 K1].
    destruct (get_in_range verts (masked x * 4)) as [a Ea]; [lia|].
    destruct (get_in_range verts (masked x * 4 + 2)) as [b Eb]; [lia|].
    rewrite Ea. cbn [bind]. rewrite Eb. cbn [bind]. eauto.
  Qed.
  Ltac pts := repeat match goal with
    | |- context [ptAt verts indices ?i] =>
        let p := fresh "p" in let E := fresh "E" in
        destruct (pt_ok i) as [p E]; [auto using next_range, prev_range|rewrite E; cbn [bind]; clear E]
    end.
  Lemma inCone5_ok : forall i j, 0 <= i < n -> 0 <= j < n -> exists b, inCone5 i j n verts indices = Ok b.
  Proof. intros i j Hi Hj. unfold inCone5. pts. eauto. Qed.
  Lemma inConeLoose_ok : forall i j, 0 <= i < n -> 0 <= j < n -> exists b, inConeLoose i j n verts indices = Ok b.
  Proof. intros i j Hi Hj. unfold inConeLoose. pts. eauto. Qed.
  Lemma anyCross_ok : forall hit d0 d1 i j ks, (forall k, In k ks -> 0 <= k < n) ->
    exists b, anyCross hit d0 d1 i j n verts indices ks = Ok b.
  Proof.
    induction ks as [|k ks IH]; intros Hk; cbn [anyCross]; [eauto|].
    assert (0 <= k < n) as K by (apply Hk; now left).
    assert (exists b, crossesEdge hit d0 d1 i j n verts indices k = Ok b) as [b Eb].
    { unfold crossesEdge. destruct (_ || _ || _ || _); [eauto|]. pts. destruct (_ || _ || _ || _); eauto. }
    rewrite Eb. cbn [bind]. destruct b; [eauto|]. apply IH. intros; apply Hk; now right.
  Qed.
  Lemma diagonalie_ok : forall hit i j, 0 <= i < n -> 0 <= j < n -> exists b, diagonalie_ hit i j n verts indices = Ok b.
  Proof.
    intros hit i j Hi Hj. unfold diagonalie_. pts.
    destruct (anyCross_ok hit p p0 i j (zseq (Z.to_nat n))) as [b Eb].
    { intros k Hk. apply in_zseq in Hk. lia. }
    rewrite Eb. cbn [bind]. eauto.
  Qed.
  Lemma diagonal_ok : forall i j, 0 <= i < n -> 0 <= j < n -> exists b, diagonal i j n verts indices = Ok b.
  Proof.
    intros i j Hi Hj. unfold diagonal. destruct (inCone5_ok i j Hi Hj) as [c Ec]. rewrite Ec. cbn [bind].
    destruct c; [apply diagonalie_ok; assumption|eauto].
  Qed.
  Lemma diagonalLoose_ok : forall i j, 0 <= i < n -> 0 <= j < n -> exists b, diagonalLoose i j n verts indices = Ok b.
  Proof.
    intros i j Hi Hj. unfold diagonalLoose. destruct (inConeLoose_ok i j Hi Hj) as [c Ec]. rewrite Ec. cbn [bind].
    destruct c; [apply diagonalie_ok; assumption|eauto].
  Qed.
  Lemma better_range : forall best l i, -1 <= snd best < n -> 0 <= i < n -> -1 <= snd (better best l i) < n.
  Proof. intros best l i Hb Hi. unfold better. destruct (_ || _); cbn [snd]; lia. Qed.
  Lemma shortestEar_ok : exists best, shortestEar n verts indices = Ok best /\ -1 <= snd best < n.
  Proof.
    unfold shortestEar. apply foldM_inv with (I := fun _ best => -1 <= snd best < n); [cbn; lia|].
    intros pre i post best E Hb. assert (0 <= i < n) as Hi.
    { assert (In i (zseq (Z.to_nat n))) as G by (rewrite E; apply in_or_app; right; now left). apply in_zseq in G. lia. }
    destruct (holds_get indices L (next i n) Hh) as (x & Hx & _); [rewrite <- Hn; auto using next_range|].
    cbv zeta. rewrite Hx. cbn [bind]. destruct (_ =? 0); [eauto|]. pts. eauto using better_range.
  Qed.
  Lemma shortestLoose_ok : exists best, shortestLoose n verts indices = Ok best /\ -1 <= snd best < n.
  Proof.
    unfold shortestLoose. apply foldM_inv with (I := fun _ best => -1 <= snd best < n); [cbn; lia|].
    intros pre i post best E Hb. assert (0 <= i < n) as Hi.
    { assert (In i (zseq (Z.to_nat n))) as G by (rewrite E; apply in_or_app; right; now left). apply in_zseq in G. lia. }
    cbv zeta. destruct (diagonalLoose_ok i (next (next i n) n)) as [d Ed]; auto using next_range.
    rewrite Ed. cbn [bind]. destruct d; cbn [negb]; [|eauto]. pts. eauto using better_range.
  Qed.

  Lemma holds_upd : forall i x y, 0 <= i < n -> get indices i = Ok x -> masked y = masked x -> holds (upd indices (Z.to_nat i) y) L.
  Proof.
    intros i x y Hi Hx Hy. destruct Hh as [Hl Hm]. split; [now rewrite upd_length|].
    rewrite firstn_upd by (unfold zlen in Hn; lia). rewrite <- Hm at 2.
    apply get_ok in Hx. destruct Hx as [_ Hx].
    assert (nth_error (firstn (length L) indices) (Z.to_nat i) = Some x) as Hf
      by (rewrite nth_error_firstn_lt; [exact Hx|unfold zlen in Hn; lia]).
    revert Hf Hy. generalize (firstn (length L) indices) (Z.to_nat i). clear.
    induction l as [|z l IH]; intros k Hf Hy; [now destruct k|].
    destruct k; cbn in *; [inversion Hf; congruence|]. now rewrite IH.
  Qed.
  Lemma setFlag_ok : forall i, 0 <= i < n -> exists indices', setFlag indices i = Ok indices' /\ holds indices' L.
  Proof.
    intros i Hi. destruct (holds_get indices L i Hh) as (x & Hx & _); [lia|]. unfold setFlag. rewrite Hx. cbn [bind].
    rewrite set_in_range by (destruct Hh; unfold zlen in *; lia).
    eexists. split; [reflexivity|]. apply (holds_upd i x); auto using masked_flag.
  Qed.
  Lemma clearFlag_ok : forall i, 0 <= i < n -> exists indices', clearFlag indices i = Ok indices' /\ holds indices' L.
  Proof.
    intros i Hi. destruct (holds_get indices L i Hh) as (x & Hx & _); [lia|]. unfold clearFlag. rewrite Hx. cbn [bind].
    rewrite set_in_range by (destruct Hh; unfold zlen in *; lia).
    eexists. split; [reflexivity|]. apply (holds_upd i x); auto using masked_masked.
  Qed.
End Ok.

Lemma flagEars_ok : forall verts indices L n, holds indices L -> Forall (okIdx verts) L -> n = zlen L -> 0 < n ->
  exists indices', flagEars n verts indices = Ok indices' /\ holds indices' L.
Proof.
  intros verts indices L n Hh Hv Hn Hpos. unfold flagEars.
  apply foldM_inv with (I := fun _ ind => holds ind L); [assumption|].
  intros pre i post ind E Hi. assert (0 <= i < n) as Hr.
  { assert (In i (zseq (Z.to_nat n))) as G by (rewrite E; apply in_or_app; right; now left). apply in_zseq in G. lia. }
  cbv zeta. destruct (diagonal_ok verts ind L n Hi Hv Hn Hpos i (next (next i n) n)) as [d Ed]; auto using next_range.
  rewrite Ed. cbn [bind]. destruct d; [|eauto]. apply (setFlag_ok ind L n Hi Hn). auto using next_range.
Qed.

Lemma list_eq_nth : forall {A} (a b : list A), (forall k, nth_error a k = nth_error b k) -> a = b.
Proof.
  induction a as [|x a IH]; intros [|y b] H; auto.
  - specialize (H 0%nat). discriminate.
  - specialize (H 0%nat). discriminate.
  - f_equal; [specialize (H 0%nat); cbn in H; congruence|]. apply IH. intros k. apply (H (S k)).
Qed.
Lemma dropIndex_ok : forall indices i1 n, 0 <= i1 <= n -> n < zlen indices ->
  exists ind, dropIndex indices i1 n = Ok ind /\ length ind = length indices /\
    forall k, (k < Z.to_nat n)%nat -> nth_error ind k = nth_error indices (if (k <? Z.to_nat i1)%nat then k else S k).
Proof.
  intros indices i1 n Hi Hn. unfold dropIndex.
  destruct (foldM_inv (fun indices k => let* x := get indices (k + 1) in set indices k x)
    (fun pre s => length s = length indices /\ forall k, nth_error s k =
       nth_error indices (if (k <? Z.to_nat i1)%nat then k else if (k <? Z.to_nat i1 + length pre)%nat then S k else k))
    (map (fun j => i1 + j) (zseq (Z.to_nat (n - i1)))) indices) as (s & Es & Hl & Hs).
  - split; [reflexivity|]. intros k. cbn [length]. rewrite Nat.add_0_r. destruct (k <? Z.to_nat i1)%nat; reflexivity.
  - intros pre k post s E [Hl Hs].
    assert (k = i1 + zlen pre /\ k < n) as [Hk Hkn].
    { apply (f_equal (map (fun x => x - i1))) in E. rewrite map_map, map_app in E. cbn [map] in E.
      rewrite (map_ext _ (fun x => x)), map_id in E by (intros; lia). apply zseq_split in E.
      destruct E as [E E2]. rewrite map_length in E2. unfold zlen in *. rewrite map_length in E. lia. }
    assert (exists x, nth_error indices (S (Z.to_nat k)) = Some x) as [x Hx].
    { apply nth_error_in_range. unfold zlen in *. lia. }
    assert (get s (k + 1) = Ok x) as G.
    { apply get_ok. split; [unfold zlen in *; lia|]. rewrite Hs. unfold zlen in *.
      destruct (Nat.ltb_spec (Z.to_nat (k + 1)) (Z.to_nat i1)); [lia|].
      destruct (Nat.ltb_spec (Z.to_nat (k + 1)) (Z.to_nat i1 + length pre)); [lia|].
      replace (Z.to_nat (k + 1)) with (S (Z.to_nat k)) by lia. exact Hx. }
    rewrite G. cbn [bind]. rewrite set_in_range by (unfold zlen in *; lia).
    eexists. split; [reflexivity|]. split; [now rewrite upd_length|]. intros j.
    rewrite app_length. cbn [length]. unfold zlen in *.
    destruct (Nat.eq_dec j (Z.to_nat k)) as [->|N].
    + rewrite nth_error_upd_eq by (rewrite Hl; lia).
      destruct (Nat.ltb_spec (Z.to_nat k) (Z.to_nat i1)); [lia|].
      destruct (Nat.ltb_spec (Z.to_nat k) (Z.to_nat i1 + (length pre + 1))); [|lia]. congruence.
    + rewrite nth_error_upd_neq by lia. rewrite Hs. f_equal.
      destruct (Nat.ltb_spec j (Z.to_nat i1)); [reflexivity|].
      destruct (Nat.ltb_spec j (Z.to_nat i1 + length pre)); destruct (Nat.ltb_spec j (Z.to_nat i1 + (length pre + 1))); lia.
  - exists s. split; [exact Es|]. split; [exact Hl|]. intros k Hk. rewrite Hs. f_equal.
    rewrite map_length, zseq_length. destruct (Nat.ltb_spec k (Z.to_nat i1)); [reflexivity|].
    destruct (Nat.ltb_spec k (Z.to_nat i1 + Z.to_nat (n - i1))); lia.
Qed.

Lemma nth_error_skipn' : forall {A} n (l : list A) i, nth_error (skipn n l) i = nth_error l (n + i).
Proof. induction n as [|n IH]; intros [|x l] i; try reflexivity; [now destruct i|]. apply IH. Qed.
Lemma ends : forall {A} (l : list A), (2 <= length l)%nat -> exists c m a, l = c :: m ++ [a].
Proof.
  intros A [|c l] H; [cbn in H; lia|]. cbn in H. destruct (@exists_last A l) as (m & a & E); [destruct l; cbn in *; [lia|discriminate]|].
  exists c, m, a. now rewrite E.
Qed.
Lemma cut_at : forall {A} (L : list A) i a b c, 3 <= zlen L -> 0 <= i < zlen L ->
  get L i = Ok a -> get L (next i (zlen L)) = Ok b -> get L (next (next i (zlen L)) (zlen L)) = Ok c ->
  let i1 := Z.to_nat (next i (zlen L)) in
  cut L (a, b, c) (firstn i1 L ++ skipn (S i1) L).
Proof.
  intros A L i a b c Hn Hi Ha Hb Hc i1. set (n := zlen L) in *.
  pose proof (next_range i n) as R1. pose proof (next_range (next i n) n) as R2.
  apply get_ok in Ha, Hb, Hc. destruct Ha as [_ Ha], Hb as [_ Hb], Hc as [_ Hc].
  assert (length L = Z.to_nat n) as Ln by (unfold n, zlen; lia).
  assert (i1 < length L)%nat as I1 by (unfold i1; lia).
  destruct (ends (skipn (S i1) L ++ firstn i1 L)) as (c' & m & a' & E).
  { rewrite app_length, skipn_length, firstn_length. lia. }
  exists (firstn i1 L), b, (skipn (S i1) L), a', c', m. split.
  { rewrite <- (firstn_skipn i1 L) at 1. f_equal. fold i1 in Hb. revert Hb. generalize i1. generalize L. clear. intros L i1. revert L.
    induction i1 as [|k IH]; intros [|x L] H; cbn in *; try discriminate; [congruence|]. apply IH in H. rewrite H. reflexivity. }
  split; [reflexivity|]. split; [exact E|].
  assert (nth_error (c' :: m ++ [a']) 0 = Some c') as E0 by reflexivity.
  assert (nth_error (c' :: m ++ [a']) (length L - 2) = Some a') as E1.
  { pose proof (f_equal (@length A) E) as F. rewrite app_length, skipn_length, firstn_length in F. cbn [length] in F.
    rewrite app_length in F. cbn [length] in F. replace (length L - 2)%nat with (S (length m)) by lia.
    cbn [nth_error]. rewrite nth_error_app2 by lia. now rewrite Nat.sub_diag. }
  rewrite <- E in E0, E1.
  unfold next in i1, Hc.
  destruct (Z.ltb_spec (i + 1) n) as [C|C].
  - destruct (Z.ltb_spec (i + 1 + 1) n) as [D|D].
    + rewrite nth_error_app1 in E0 by (rewrite skipn_length; lia).
      rewrite nth_error_app2 in E1 by (rewrite skipn_length; lia).
      rewrite skipn_length, nth_error_firstn_lt in E1 by lia. rewrite nth_error_skipn' in E0.
      replace (S i1 + 0)%nat with (Z.to_nat (i + 1 + 1)) in E0 by lia.
      replace (length L - 2 - (length L - S i1))%nat with (Z.to_nat i) in E1 by lia. congruence.
    + rewrite skipn_all2 in E0, E1 by lia. cbn [app] in E0, E1.
      rewrite nth_error_firstn_lt in E0, E1 by lia.
      replace (length L - 2)%nat with (Z.to_nat i) in E1 by lia.
      change (Z.to_nat 0) with 0%nat in Hc. congruence.
  - destruct (Z.ltb_spec (0 + 1) n) as [D|D]; [|lia].
    rewrite nth_error_app1 in E0 by (rewrite skipn_length; lia).
    rewrite nth_error_app1 in E1 by (rewrite skipn_length; lia).
    rewrite nth_error_skipn' in E0, E1.
    replace (S i1 + 0)%nat with (Z.to_nat (0 + 1)) in E0 by lia.
    replace (S i1 + (length L - 2))%nat with (Z.to_nat i) in E1 by lia. congruence.
Qed.

Lemma clipEar_ok : forall cap verts indices L n out,
  holds indices L -> Forall (okIdx verts) L -> n = zlen L -> 3 < n -> 3 * zlen out + 3 <= cap ->
  exists r, clipEar cap n verts indices out = Ok r /\
    match r with
    | inl out' => out' = out
    | inr (indices', out') => exists t L', out' = out ++ [t] /\ cut L t L' /\ holds indices' L'
    end.
Proof.
  intros cap verts indices L n out Hh Hv Hn Hpos Hcap. unfold clipEar.
  assert (0 < n) as Hp by lia.
  destruct (shortestEar_ok verts indices L n Hh Hv Hn Hp) as (b1 & E1 & R1). rewrite E1. cbn [bind].
  destruct (shortestLoose_ok verts indices L n Hh Hv Hn Hp) as (b2 & E2 & R2).
  assert (exists b, (if snd b1 =? -1 then shortestLoose n verts indices else Ok b1) = Ok b /\ -1 <= snd b < n) as (b & Eb & Rb).
  { destruct (snd b1 =? -1); eauto. }
  rewrite Eb. cbn [bind]. cbv zeta. clear E1 E2 Eb b1 b2 R1 R2.
  destruct (Z.eqb_spec (snd b) (-1)) as [E|E]; [eexists; split; reflexivity|].
  set (i := snd b) in *. assert (0 <= i < n) as Hi by lia.
  assert (0 <= next i n < n) as Hi1 by auto using next_range.
  assert (0 <= next (next i n) n < n) as Hi2 by auto using next_range.
  destruct (holds_get indices L i Hh) as (x & Ex & Ax); [lia|].
  destruct (holds_get indices L (next i n) Hh) as (y & Ey & Ay); [lia|].
  destruct (holds_get indices L (next (next i n) n) Hh) as (z & Ez & Az); [lia|].
  rewrite Ex. cbn [bind]. rewrite Ey. cbn [bind]. rewrite Ez. cbn [bind].
  unfold emit. destruct (Z.leb_spec (3 * zlen out + 3) cap); [|lia]. cbn [bind].
  pose proof Hh as [Hl Hm].
  destruct (dropIndex_ok indices (next i n) (n - 1)) as (ind & Ei & Li & Hd); [lia|unfold zlen in *; lia|].
  rewrite Ei. cbn [bind].
  set (L' := firstn (Z.to_nat (next i n)) L ++ skipn (S (Z.to_nat (next i n))) L).
  assert (cut L (masked x, masked y, masked z) L') as HC.
  { rewrite Hn in Ay, Az. unfold L'. rewrite Hn. apply cut_at; auto; lia. }
  assert (length L = S (length L')) as HLL by (eapply cut_length; exact HC).
  assert (holds ind L') as Hh'.
  { unfold zlen in *. split; [lia|]. apply list_eq_nth. intros k. rewrite nth_error_map.
    destruct (Nat.lt_ge_cases k (length L')) as [K|K].
    - rewrite nth_error_firstn_lt by lia. rewrite Hd by lia. unfold L'.
      rewrite <- Hm at 2. rewrite <- Hm at 1. 
      destruct (Nat.ltb_spec k (Z.to_nat (next i n))).
      + rewrite nth_error_app1 by (rewrite firstn_length, map_length, firstn_length; lia).
        rewrite nth_error_firstn_lt by lia. rewrite nth_error_map, nth_error_firstn_lt by lia. reflexivity.
      + rewrite nth_error_app2 by (rewrite firstn_length, map_length, firstn_length; lia).
        rewrite firstn_length, map_length, firstn_length, nth_error_skipn', nth_error_map, nth_error_firstn_lt by lia.
        do 2 f_equal. lia.
    - assert (nth_error (firstn (length L') ind) k = None) as -> by (apply nth_error_None; rewrite firstn_length; lia).
      symmetry. apply nth_error_None. exact K. }
  assert (Forall (okIdx verts) L') as Hv'.
  { apply cut_incl in HC. destruct HC as (_ & _ & _ & HC). rewrite Forall_forall in *. auto. }
  assert (n - 1 = zlen L') as Hn' by (unfold zlen in *; lia).
  assert (0 < n - 1) as Hp' by lia.
  set (i1 := if next i n >=? n - 1 then 0 else next i n).
  assert (0 <= i1 < n - 1) as Hj1.
  { unfold i1. rewrite Z.geb_leb. destruct (Z.leb_spec (n - 1) (next i n)); lia. }
  assert (0 <= prev i1 (n - 1) < n - 1) as Hj by (apply prev_range; lia).
  destruct (diagonal_ok verts ind L' (n - 1) Hh' Hv' Hn' Hp' (prev (prev i1 (n - 1)) (n - 1)) i1) as [d Ed]; [apply prev_range; lia|lia|].
  rewrite Ed. cbn [bind].
  assert (exists ind2, (if d then setFlag ind (prev i1 (n - 1)) else clearFlag ind (prev i1 (n - 1))) = Ok ind2 /\ holds ind2 L') as (ind2 & E2 & Hh2).
  { destruct d; [eapply setFlag_ok|eapply clearFlag_ok]; eauto. }
  rewrite E2. cbn [bind].
  destruct (diagonal_ok verts ind2 L' (n - 1) Hh2 Hv' Hn' Hp' (prev i1 (n - 1)) (next i1 (n - 1))) as [d2 Ed2]; [lia|apply next_range; lia|].
  rewrite Ed2. cbn [bind].
  assert (exists ind3, (if d2 then setFlag ind2 i1 else clearFlag ind2 i1) = Ok ind3 /\ holds ind3 L') as (ind3 & E3 & Hh3).
  { destruct d2; [eapply setFlag_ok|eapply clearFlag_ok]; eauto. }
  rewrite E3. cbn [bind]. eexists. split; [reflexivity|]. exists (masked x, masked y, masked z), L'. auto.
Qed.

Lemma clipLoop_ok : forall k cap verts indices L0 L out,
  cuts L0 out L -> holds indices L -> Forall (okIdx verts) L -> zlen L = Z.of_nat k + 3 ->
  3 * (zlen out + Z.of_nat k + 1) <= cap ->
  exists r tris, clipLoop k cap verts indices out = Ok (r, tris) /\
    ((r = zlen tris /\ triangulation L0 tris) \/
     (r = - zlen tris /\ exists L', cuts L0 tris L' /\ 3 < zlen L')).
Proof.
  induction k as [|k IH]; intros cap verts indices L0 L out Hc Hh Hv Hn Hcap.
  - cbn [clipLoop].
    destruct (holds_get indices L 0 Hh) as (x & Ex & Ax); [lia|].
    destruct (holds_get indices L 1 Hh) as (y & Ey & Ay); [lia|].
    destruct (holds_get indices L 2 Hh) as (z & Ez & Az); [lia|].
    rewrite Ex. cbn [bind]. rewrite Ey. cbn [bind]. rewrite Ez. cbn [bind].
    unfold emit. destruct (Z.leb_spec (3 * zlen out + 3) cap); [|lia]. cbn [bind].
    eexists _, _. split; [reflexivity|]. left. split; [reflexivity|].
    exists out, (masked x), (masked y), (masked z). split; [reflexivity|].
    destruct L as [|a [|b [|c [|e L]]]]; try (unfold zlen in Hn; cbn in Hn; lia).
    cbn in Ax, Ay, Az. apply Ok_inj in Ax, Ay, Az. now subst.
  - cbn [clipLoop].
    destruct (clipEar_ok cap verts indices L (Z.of_nat (S k) + 3) out Hh Hv) as (r & Er & Hr); [lia|lia|lia|].
    rewrite Er. cbn [bind]. destruct r as [out'|[ind' out']].
    + subst out'. eexists _, _. split; [reflexivity|]. right. split; [reflexivity|]. exists L. split; [exact Hc|lia].
    + destruct Hr as (t & L' & -> & Hcut & Hh'). pose proof (cut_length _ _ _ Hcut) as HL.
      apply (IH cap verts ind' L0 L').
      * eapply cuts_snoc; eassumption.
      * exact Hh'.
      * destruct t as [[ta tb] tc]. apply cut_incl in Hcut. destruct Hcut as (_ & _ & _ & HC). rewrite Forall_forall in *. auto.
      * unfold zlen in *. lia.
      * rewrite zlen_snoc. lia.
Qed.

Lemma triangulate_ok : forall n verts indices cap,
  3 <= n <= zlen indices ->
  Forall (fun k => 0 <= k < 268435456 /\ k * 4 + 2 < zlen verts) (firstn (Z.to_nat n) indices) ->
  3 * (n - 2) <= cap ->
  exists r tris, triangulate n verts indices cap = Ok (r, tris) /\
    ((r = zlen tris /\ triangulation (firstn (Z.to_nat n) indices) tris) \/
     (r = - zlen tris /\ exists L', cuts (firstn (Z.to_nat n) indices) tris L' /\ 3 < zlen L')).
Proof.
  intros n verts indices cap Hn Hv Hcap. set (L := firstn (Z.to_nat n) indices) in *.
  assert (length L = Z.to_nat n) as Ll by (unfold L; rewrite firstn_length; unfold zlen in *; lia).
  assert (n = zlen L) as HnL by (unfold zlen; lia).
  assert (holds indices L) as Hh.
  { split; [unfold zlen in *; lia|]. rewrite Ll. fold L. rewrite <- (map_id L) at 2. apply map_ext_in.
    intros k Hk. rewrite Forall_forall in Hv. apply masked_id. apply Hv. exact Hk. }
  assert (Forall (okIdx verts) L) as Hv'.
  { eapply Forall_impl; [|exact Hv]. intros k [H1 H2]. split; lia. }
  unfold triangulate. destruct (flagEars_ok verts indices L n Hh Hv' HnL) as (ind & Ei & Hi); [lia|].
  rewrite Ei. cbn [bind]. apply (clipLoop_ok _ cap verts ind L L []); auto; [constructor|lia|].
  unfold zlen at 1; cbn [length]. lia.
Qed.
