(** Proofs about dividePoly (C47). *)
From Coq Require Import ZArith List Bool Lia.
From Verif.Base Require Import Res GoNum F32 Num Grid.
From Verif.Model Require Import Raster.
From Verif.Spec Require Import DivideSpec.
Import ListNotations.
Open Scope Z_scope.

(** ** From the array to lists *)
Section Lists.
Context {T : Type} (N : Num T).
Variable (axis : Z) (x : T).
Hypothesis Hax : 0 <= axis <= 2.

Definition dd (p : T * T * T) : T := nsub N x (coord axis p).
Definition lerp (s : T) (p q : T * T * T) : T * T * T :=
  let f := fun k => nadd N (coord k p) (nmul N (nsub N (coord k q) (coord k p)) s) in (f 0, f 1, f 2).
(** What the step from [p] to [q] adds to the two polygons. *)
Definition emit (p q : T * T * T) : list (T * T * T) * list (T * T * T) :=
  let zero := nZ N 0 in
  let dj := dd p in
  let di := dd q in
  if negb (Bool.eqb (nle N zero dj) (nle N zero di)) then
    let X := lerp (ndiv N dj (nsub N dj di)) p q in
    if nlt N zero di then ([X; q], [X]) else if nlt N di zero then ([X], [X; q]) else ([X], [X])
  else if nle N zero di then
    if negb (nle N di zero) then ([q], []) else ([q], [q])
  else ([], [q]).
Fixpoint split (p : T * T * T) (l : list (T * T * T)) : list (T * T * T) * list (T * T * T) :=
  match l with
  | [] => ([], [])
  | q :: l => (fst (emit p q) ++ fst (split q l), snd (emit p q) ++ snd (split q l))
  end.

(** [mem'] is [mem] with the vertex [v] written at [dst]. *)
Definition wrote (mem mem' : list T) (dst : Z) (v : T * T * T) : Prop :=
  zlen mem' = zlen mem /\ (forall k, 0 <= k <= 2 -> get mem' (dst + k) = Ok (coord k v)) /\
  (forall k, k < dst \/ dst + 2 < k -> get mem' k = get mem k).

Lemma coord_eta : forall v : T * T * T, v = (coord 0 v, coord 1 v, coord 2 v).
Proof. intros [[a b] c]. reflexivity. Qed.

Lemma three_sets : forall (mem : list T) dst a b c, 0 <= dst -> dst + 2 < zlen mem ->
  exists m1 m2 m3, set mem dst a = Ok m1 /\ set m1 (dst + 1) b = Ok m2 /\ set m2 (dst + 2) c = Ok m3 /\
    wrote mem m3 dst (a, b, c) /\ zlen m1 = zlen mem /\ zlen m2 = zlen mem /\
    (forall k, k < dst \/ dst + 2 < k -> get m1 k = get mem k /\ get m2 k = get mem k).
Proof.
  intros mem dst a b c H0 H1.
  exists (upd mem (Z.to_nat dst) a), (upd (upd mem (Z.to_nat dst) a) (Z.to_nat (dst + 1)) b),
    (upd (upd (upd mem (Z.to_nat dst) a) (Z.to_nat (dst + 1)) b) (Z.to_nat (dst + 2)) c).
  rewrite !set_in_range by (rewrite ?zlen_upd; lia). split; [reflexivity|]. split; [reflexivity|]. split; [reflexivity|].
  assert (forall k, get mem k <> Panic -> 0 <= k) as Neg by (intros k E; destruct (Z.le_gt_cases 0 k); [assumption|]; rewrite get_panic in E by lia; congruence).
  assert (forall (l : list T) j v k, 0 <= j -> k <> j -> get (upd l (Z.to_nat j) v) k = get l k) as O.
  { intros l j v k Hj Hk. destruct (Z.le_gt_cases 0 k); [|rewrite !get_panic by lia; reflexivity].
    rewrite get_upd by lia. destruct (Z.eqb_spec k j); [lia|reflexivity]. }
  split; [|split; [now rewrite zlen_upd|split; [now rewrite !zlen_upd|]]].
  - split; [now rewrite !zlen_upd|]. split.
    + intros k Hk. assert (k = 0 \/ k = 1 \/ k = 2) as [-> | [-> | ->]] by lia.
      * rewrite Z.add_0_r. rewrite O, O by lia. rewrite get_upd by lia. rewrite Z.eqb_refl, (proj2 (Z.ltb_lt _ _)) by lia. reflexivity.
      * rewrite O by lia. rewrite get_upd by lia. rewrite Z.eqb_refl, zlen_upd, (proj2 (Z.ltb_lt _ _)) by lia. reflexivity.
      * rewrite get_upd by lia. rewrite Z.eqb_refl, !zlen_upd, (proj2 (Z.ltb_lt _ _)) by lia. reflexivity.
    + intros k Hk. rewrite !O by lia. reflexivity.
  - intros k Hk. rewrite !O by lia. auto.
Qed.

Lemma copy3_ok : forall (mem : list T) dst src v, 0 <= dst -> dst + 2 < zlen mem -> (forall k, 0 <= k <= 2 -> get mem (src + k) = Ok (coord k v)) ->
  exists mem', copy3 mem dst src = Ok mem' /\ wrote mem mem' dst v.
Proof.
  intros mem dst src v H0 H1 Hv. unfold copy3. rewrite (proj2 (Z.ltb_ge _ _)) by lia.
  pose proof (Hv 0 ltac:(lia)) as V0. rewrite Z.add_0_r in V0. rewrite V0, (Hv 1), (Hv 2) by lia. cbn [bind].
  rewrite !(proj2 (Z.ltb_lt _ _)) by lia.
  destruct (three_sets mem dst (coord 0 v) (coord 1 v) (coord 2 v) H0 H1) as (m1 & m2 & m3 & E1 & E2 & E3 & W & _).
  exists m3. rewrite E1. cbn [bind]. rewrite E2. cbn [bind]. rewrite E3. split; [reflexivity|]. rewrite (coord_eta v). exact W.
Qed.

Lemma holds_frame : forall mem mem' dst v o P, wrote mem mem' dst v -> apart o (3 * zlen P) dst 3 -> holds mem o P -> holds mem' o P.
Proof.
  intros mem mem' dst v o P (_ & _ & W) A H i p E k Hk. assert (Z.of_nat i < zlen P) by (unfold zlen; apply Nat2Z.inj_lt, nth_error_Some; congruence).
  rewrite W by (unfold apart in A; lia). apply (H i p E k Hk).
Qed.
Lemma holds_snoc : forall mem mem' o P v, wrote mem mem' (o + 3 * zlen P) v -> holds mem o P -> holds mem' o (P ++ [v]).
Proof.
  intros mem mem' o P v W H i p E k Hk. destruct (Nat.lt_ge_cases i (length P)) as [L|L].
  - rewrite nth_error_app1 in E by assumption. destruct W as (_ & _ & W). unfold zlen in W. rewrite W by lia. apply (H i p E k Hk).
  - rewrite nth_error_app2 in E by assumption. destruct (i - length P)%nat as [|j] eqn:Ej; [|destruct j; discriminate].
    inversion E; subst p. destruct W as (_ & W & _). rewrite <- (W k Hk). f_equal. unfold zlen. lia.
Qed.

Lemma foldM_eq : forall mem o (P : list (T * T * T)), holds mem o P -> zlen P <= 12 ->
  foldM (fun d i => if 12 <=? i then Panic else let* v := get mem (o + i * 3 + axis) in Ok (d ++ [nsub N x v])) (zseq (length P)) [] = Ok (map dd P).
Proof.
  intros mem o P HP H12.
  assert (forall k, (k <= length P)%nat ->
    foldM (fun d i => if 12 <=? i then Panic else let* v := get mem (o + i * 3 + axis) in Ok (d ++ [nsub N x v])) (zseq k) [] = Ok (map dd (firstn k P))) as G.
  { induction k as [|k IH]; intros Hk; [reflexivity|]. rewrite zseq_S, foldM_app, IH by lia. cbn [bind foldM].
    rewrite (proj2 (Z.leb_gt _ _)) by (unfold zlen in H12; lia).
    destruct (nth_error_in_range P k) as (p & Ep); [lia|]. rewrite (HP k p Ep axis Hax). cbn [bind].
    rewrite (firstn_snoc P k p Ep), map_app. reflexivity. }
  rewrite G by lia. now rewrite firstn_all.
Qed.

Section Step.
Variables (o o1 o2 room : Z) (P : list (T * T * T)) (d : list T).
Hypothesis Ho : 0 <= o. Hypothesis Ho1 : 0 <= o1. Hypothesis Ho2 : 0 <= o2.
Hypothesis HA : apart o (3 * zlen P) o1 (3 * room).
Hypothesis HB : apart o (3 * zlen P) o2 (3 * room).
Hypothesis HC : apart o1 (3 * room) o2 (3 * room).
Hypothesis Hd : d = map dd P.

Lemma get_d : forall i p, nth_error P i = Some p -> get d (Z.of_nat i) = Ok (dd p).
Proof. intros i p E. apply get_ok. split; [lia|]. rewrite Hd, Nat2Z.id. now rewrite nth_error_map, E. Qed.

Definition state_ok (L : Z) (mem : list T) (A B : list (T * T * T)) : Prop :=
  zlen mem = L /\ o1 + 3 * room <= L /\ o2 + 3 * room <= L /\ holds mem o P /\ holds mem o1 A /\ holds mem o2 B.

Lemma to_A : forall L mem mem' A B v, state_ok L mem A B -> zlen A < room -> zlen B <= room ->
  wrote mem mem' (o1 + zlen A * 3) v -> state_ok L mem' (A ++ [v]) B.
Proof.
  intros L mem mem' A B v (E & L1 & L2 & H0 & H1 & H2) Ra Rb W. pose proof (zlen_nonneg A). pose proof (zlen_nonneg B).
  split; [destruct W; congruence|]. split; [lia|]. split; [lia|]. split; [|split].
  - eapply holds_frame; [exact W| |exact H0]. unfold apart in *. lia.
  - apply holds_snoc with mem; [|exact H1]. replace (o1 + 3 * zlen A) with (o1 + zlen A * 3) by lia. exact W.
  - eapply holds_frame; [exact W| |exact H2]. unfold apart in *. lia.
Qed.
Lemma to_B : forall L mem mem' A B v, state_ok L mem A B -> zlen A <= room -> zlen B < room ->
  wrote mem mem' (o2 + zlen B * 3) v -> state_ok L mem' A (B ++ [v]).
Proof.
  intros L mem mem' A B v (E & L1 & L2 & H0 & H1 & H2) Ra Rb W. pose proof (zlen_nonneg A). pose proof (zlen_nonneg B).
  split; [destruct W; congruence|]. split; [lia|]. split; [lia|]. split; [|split].
  - eapply holds_frame; [exact W| |exact H0]. unfold apart in *. lia.
  - eapply holds_frame; [exact W| |exact H1]. unfold apart in *. lia.
  - apply holds_snoc with mem; [|exact H2]. replace (o2 + 3 * zlen B) with (o2 + zlen B * 3) by lia. exact W.
Qed.
Lemma copy_A : forall L mem A B i q, state_ok L mem A B -> zlen A < room -> zlen B <= room -> nth_error P i = Some q ->
  exists mem', copy3 mem (o1 + zlen A * 3) (o + Z.of_nat i * 3) = Ok mem' /\ state_ok L mem' (A ++ [q]) B.
Proof.
  intros L mem A B i q HS Ra Rb E. pose proof HS as (EL & L1 & L2 & H0 & _). pose proof (zlen_nonneg A).
  destruct (copy3_ok mem (o1 + zlen A * 3) (o + Z.of_nat i * 3) q) as (m' & E' & W); [lia|lia|intros k Hk; apply (H0 i q E k Hk)|].
  exists m'. split; [exact E'|]. eapply to_A; eassumption.
Qed.
Lemma copy_B : forall L mem A B i q, state_ok L mem A B -> zlen A <= room -> zlen B < room -> nth_error P i = Some q ->
  exists mem', copy3 mem (o2 + zlen B * 3) (o + Z.of_nat i * 3) = Ok mem' /\ state_ok L mem' A (B ++ [q]).
Proof.
  intros L mem A B i q HS Ra Rb E. pose proof HS as (EL & L1 & L2 & H0 & _). pose proof (zlen_nonneg B).
  destruct (copy3_ok mem (o2 + zlen B * 3) (o + Z.of_nat i * 3) q) as (m' & E' & W); [lia|lia|intros k Hk; apply (H0 i q E k Hk)|].
  exists m'. split; [exact E'|]. eapply to_B; eassumption.
Qed.

Lemma step_ok : forall L mem A B i j q p, state_ok L mem A B -> nth_error P i = Some q -> nth_error P j = Some p ->
  zlen A + zlen (fst (emit p q)) <= room -> zlen B + zlen (snd (emit p q)) <= room ->
  exists mem', divStep N o o1 o2 d (mem, zlen A, zlen B) (Z.of_nat i) (Z.of_nat j) =
    Ok (mem', zlen (A ++ fst (emit p q)), zlen (B ++ snd (emit p q))) /\ state_ok L mem' (A ++ fst (emit p q)) (B ++ snd (emit p q)).
Proof.
  intros L mem A B i j q p HS Ei Ej Ra Rb. unfold divStep. rewrite (get_d j p Ej), (get_d i q Ei). cbn [bind].
  pose proof (zlen_nonneg A) as PA. pose proof (zlen_nonneg B) as PB.
  unfold emit in *. cbv zeta in *.
  destruct (negb (Bool.eqb (nle N (nZ N 0) (dd p)) (nle N (nZ N 0) (dd q)))) eqn:Cr.
  - set (s := ndiv N (dd p) (nsub N (dd p) (dd q))) in *. set (X := lerp s p q) in *.
    assert (1 <= zlen (fst (if nlt N (nZ N 0) (dd q) then ([X; q], [X]) else if nlt N (dd q) (nZ N 0) then ([X], [X; q]) else ([X], [X])))) as G1
      by (destruct (nlt N (nZ N 0) (dd q)); [|destruct (nlt N (dd q) (nZ N 0))]; cbn [fst]; unfold zlen; cbn [length]; lia).
    assert (1 <= zlen (snd (if nlt N (nZ N 0) (dd q) then ([X; q], [X]) else if nlt N (dd q) (nZ N 0) then ([X], [X; q]) else ([X], [X])))) as G2
      by (destruct (nlt N (nZ N 0) (dd q)); [|destruct (nlt N (dd q) (nZ N 0))]; cbn [snd]; unfold zlen; cbn [length]; lia).
    pose proof HS as (EL & L1 & L2 & H0 & _).
    assert (forall m k, (forall z, z < o1 + zlen A * 3 \/ o1 + zlen A * 3 + 2 < z -> get m z = get mem z) -> 0 <= k <= 2 ->
      lerp1 N m o (Z.of_nat j) (Z.of_nat i) s k = Ok (coord k X)) as LP.
    { intros m k Hm Hk. unfold lerp1.
      assert (Z.of_nat i < zlen P) by (unfold zlen; apply Nat2Z.inj_lt, nth_error_Some; congruence).
      assert (Z.of_nat j < zlen P) by (unfold zlen; apply Nat2Z.inj_lt, nth_error_Some; congruence).
      rewrite !Hm by (unfold apart in *; lia). rewrite (H0 j p Ej k Hk), (H0 i q Ei k Hk). cbn [bind].
      f_equal. assert (k = 0 \/ k = 1 \/ k = 2) as [-> | [-> | ->]] by lia; reflexivity. }
    destruct (three_sets mem (o1 + zlen A * 3) (coord 0 X) (coord 1 X) (coord 2 X)) as (m1 & m2 & m3 & E1 & E2 & E3 & W & Z1 & Z2 & Fr); [lia|lia|].
    rewrite (LP mem 0) by (auto || lia). cbn [bind]. rewrite E1. cbn [bind].
    rewrite (LP m1 1) by (try lia; intros z Hz; apply Fr; exact Hz). cbn [bind]. rewrite E2. cbn [bind].
    rewrite (LP m2 2) by (try lia; intros z Hz; apply Fr; exact Hz). cbn [bind]. rewrite E3. cbn [bind].
    rewrite <- coord_eta in W. assert (state_ok L m3 (A ++ [X]) B) as S1 by (apply to_A with mem; (assumption || lia)).
    assert (exists m4, copy3 m3 (o2 + zlen B * 3) (o1 + zlen A * 3) = Ok m4 /\ state_ok L m4 (A ++ [X]) (B ++ [X])) as (m4 & E4 & S4).
    { pose proof S1 as (EL' & _). destruct (copy3_ok m3 (o2 + zlen B * 3) (o1 + zlen A * 3) X) as (m4 & E4 & W4); [lia|lia|apply W|].
      exists m4. split; [exact E4|]. apply to_B with m3; try assumption; rewrite ?zlen_snoc; lia. }
    rewrite E4. cbn [bind]. clear E1 E2 E3 E4 LP Fr W S1. clearbody X. rewrite <- (zlen_snoc A X), <- (zlen_snoc B X).
    destruct (nlt N (nZ N 0) (dd q)); [|destruct (nlt N (dd q) (nZ N 0))]; cbn [fst snd] in *; unfold zlen in Ra, Rb; cbn [length] in Ra, Rb; fold (zlen A) in Ra; fold (zlen B) in Rb.
    + destruct (copy_A L m4 (A ++ [X]) (B ++ [X]) i q S4) as (m5 & E5 & S5); try assumption; rewrite ?zlen_snoc; try lia.
      rewrite zlen_snoc in E5. rewrite E5. cbn [bind]. rewrite <- app_assoc in S5. cbn [app] in S5. exists m5. split; [|exact S5].
      rewrite zlen_app. change (zlen [X; q]) with 2. f_equal. match goal with |- (?a, ?b, ?c) = (?a, ?b', ?c') => replace b' with b by lia; replace c' with c by lia; reflexivity end.
    + destruct (copy_B L m4 (A ++ [X]) (B ++ [X]) i q S4) as (m5 & E5 & S5); try assumption; rewrite ?zlen_snoc; try lia.
      rewrite zlen_snoc in E5. rewrite E5. cbn [bind]. rewrite <- app_assoc in S5. cbn [app] in S5. exists m5. split; [|exact S5].
      rewrite !zlen_app. change (zlen [X; q]) with 2. change (zlen [X]) with 1. f_equal. match goal with |- (?a, ?b, ?c) = (?a, ?b', ?c') => replace b' with b by lia; replace c' with c by lia; reflexivity end.
    + exists m4. split; [reflexivity|exact S4].
  - destruct (nle N (nZ N 0) (dd q)) eqn:In.
    + assert (zlen A + 1 <= room) as Ra' by (destruct (negb (nle N (dd q) (nZ N 0))); exact Ra).
      destruct (copy_A L mem A B i q HS) as (m5 & E5 & S5); [lia|destruct (negb (nle N (dd q) (nZ N 0))); cbn [snd] in Rb; change (zlen (@nil (T*T*T))) with 0 in *; try lia; change (zlen [q]) with 1 in *; lia|assumption|].
      rewrite E5. cbn [bind]. destruct (negb (nle N (dd q) (nZ N 0))); cbn [fst snd] in *.
      * exists m5. rewrite app_nil_r. rewrite zlen_snoc. split; [reflexivity|exact S5].
      * change (zlen [q]) with 1 in *. destruct (copy_B L m5 (A ++ [q]) B i q S5) as (m6 & E6 & S6); [rewrite zlen_snoc; lia|lia|assumption|].
        rewrite E6. cbn [bind]. exists m6. rewrite !zlen_snoc. split; [reflexivity|exact S6].
    + cbn [fst snd] in *. change (zlen [q]) with 1 in *. change (zlen (@nil (T*T*T))) with 0 in *.
      destruct (copy_B L mem A B i q HS) as (m5 & E5 & S5); [lia|lia|assumption|]. rewrite E5. cbn [bind].
      exists m5. rewrite app_nil_r, zlen_snoc. split; [reflexivity|exact S5].
Qed.

Lemma loop_ok : forall L n l k mem A B p, P = firstn k P ++ l -> length (firstn k P) = k -> n = length l ->
  state_ok L mem A B -> nth_error P (Z.to_nat (if Nat.eqb k 0 then zlen P - 1 else Z.of_nat k - 1)) = Some p ->
  zlen A + zlen (fst (split p l)) <= room -> zlen B + zlen (snd (split p l)) <= room ->
  exists mem', divLoop N o o1 o2 d (mem, zlen A, zlen B) (map (fun i => Z.of_nat k + i) (zseq n)) (if Nat.eqb k 0 then zlen P - 1 else Z.of_nat k - 1) =
    Ok (mem', zlen (A ++ fst (split p l)), zlen (B ++ snd (split p l))) /\ state_ok L mem' (A ++ fst (split p l)) (B ++ snd (split p l)).
Proof.
  intros L n. induction n as [|n IH]; intros l k mem A B p EP Lk En HS Ep Ra Rb.
  - destruct l; [|discriminate]. cbn [zseq split fst snd] in *. rewrite !app_nil_r. exists mem. auto.
  - destruct l as [|q l]; [discriminate|]. cbn [split fst snd] in *. rewrite !zlen_app in Ra, Rb.
    pose proof (zlen_nonneg (fst (split q l))). pose proof (zlen_nonneg (snd (split q l))).
    assert (nth_error P k = Some q) as Eq by (rewrite EP, nth_error_app2, Lk, Nat.sub_diag by lia; reflexivity).
    assert (zseq (S n) = 0 :: map (fun i => 1 + i) (zseq n)) as -> by (change (S n) with (1 + n)%nat; rewrite zseq_app; reflexivity).
    cbn [map divLoop]. rewrite Z.add_0_r.
    set (j := if Nat.eqb k 0 then zlen P - 1 else Z.of_nat k - 1) in *.
    assert (0 <= j) as Hj by (unfold j; destruct (Nat.eqb_spec k 0); [|lia]; unfold zlen; rewrite EP, app_length; cbn [length]; lia).
    destruct (step_ok L mem A B k (Z.to_nat j) q p HS Eq Ep) as (mem' & E & HS'); [lia|lia|]. rewrite Z2Nat.id in E by exact Hj. rewrite E. cbn [bind].
    assert (k < length P)%nat as Hk by (apply nth_error_Some; congruence).
    destruct (IH l (S k) mem' (A ++ fst (emit p q)) (B ++ snd (emit p q)) q) as (mem2 & E2 & HS2); rewrite ?zlen_app; try assumption; try lia.
    + rewrite (firstn_snoc P k q Eq), <- app_assoc. exact EP.
    + rewrite firstn_length. lia.
    + inversion En. reflexivity.
    + cbn [Nat.eqb]. replace (Z.to_nat (Z.of_nat (S k) - 1)) with k by lia. exact Eq.
    + exists mem2. rewrite !app_assoc. split; [|exact HS2]. rewrite !zlen_app in E2. rewrite !Z.add_assoc. rewrite <- E2. cbn [Nat.eqb]. replace (Z.of_nat (S k) - 1) with (Z.of_nat k) by lia.
      f_equal. rewrite map_map. apply map_ext. intros i. lia.
Qed.
End Step.

Theorem dividePoly_ok : forall mem o o1 o2 room P p0,
  0 <= o -> 0 <= o1 -> 0 <= o2 -> o1 + 3 * room <= zlen mem -> o2 + 3 * room <= zlen mem ->
  apart o (3 * zlen P) o1 (3 * room) -> apart o (3 * zlen P) o2 (3 * room) -> apart o1 (3 * room) o2 (3 * room) ->
  holds mem o P -> zlen P <= 12 -> 0 <= room ->
  zlen (fst (split (last P p0) P)) <= room -> zlen (snd (split (last P p0) P)) <= room ->
  exists mem', dividePoly N mem o (zlen P) o1 o2 x axis = Ok (mem', zlen (fst (split (last P p0) P)), zlen (snd (split (last P p0) P))) /\
    holds mem' o1 (fst (split (last P p0) P)) /\ holds mem' o2 (snd (split (last P p0) P)).
Proof.
  intros mem o o1 o2 room P p0 H0 H1 H2 L1 L2 A1 A2 A3 HP H12 Hroom Ra Rb. unfold dividePoly.
  assert (Z.to_nat (zlen P) = length P) as -> by (unfold zlen; lia).
  assert (foldM (fun d i => if 12 <=? i then Panic else let* v := get mem (o + i * 3 + axis) in Ok (d ++ [nsub N x v])) (zseq (length P)) [] = Ok (map dd P)) as ->.
  { apply foldM_eq; assumption. }
  cbn [bind]. destruct P as [|a P'] eqn:EP.
  { cbn. exists mem. split; [reflexivity|]. split; intros i p E; destruct i; discriminate. }
  rewrite <- EP in *.
  destruct (loop_ok o o1 o2 room P (map dd P) H1 H2 A1 A2 A3 eq_refl (zlen mem) (length P) P 0 mem [] [] (last P p0)) as (mem' & E & HS); try assumption; try reflexivity.
  - split; [reflexivity|]. split; [lia|]. split; [lia|]. split; [exact HP|]. split; intros i p E; destruct i; discriminate.
  - cbn [Nat.eqb]. unfold zlen. rewrite EP. replace (Z.to_nat (Z.of_nat (length (a :: P')) - 1)) with (length P') by (cbn [length]; lia).
    clear. revert a. induction P' as [|b P' IH]; intros a; [reflexivity|]. cbn [length nth_error]. apply (IH b).
  - exists mem'. cbn [app Nat.eqb] in *. replace (zseq (length P)) with (map (fun i => Z.of_nat 0 + i) (zseq (length P))) by (rewrite <- map_id; apply map_ext; reflexivity).
    split; [exact E|]. destruct HS as (_ & _ & _ & _ & HA & HB). auto.
Qed.
End Lists.
