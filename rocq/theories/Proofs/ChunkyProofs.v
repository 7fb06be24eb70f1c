From Coq Require Import ZArith List Bool Lia Permutation.
From Verif.Base Require Import Res GoNum F32 Num Grid Bytes.
From Verif.Model Require Import ChunkyMesh.
From Verif.Spec Require Import ChunkySpec.
From Verif.Proofs Require Import BasicsProofs.
From Verif.Proofs Require BvProofs.
Import ListNotations.
Open Scope Z_scope.

(** * The order of the numbers *)
Record ordered {T} (N : Num T) (good : T -> Prop) : Prop := {
  or_irr : forall a, nlt N a a = false;
  or_tr : forall a b c, nlt N a b = true -> nlt N b c = true -> nlt N a c = true;
  or_le_lt : forall a b c, good a -> good b -> nlt N b a = false -> nlt N b c = true -> nlt N a c = true;
  or_lt_le : forall a b c, good b -> good c -> nlt N a b = true -> nlt N c b = false -> nlt N a c = true
}.
Arguments or_irr {T N good}. Arguments or_tr {T N good}. Arguments or_le_lt {T N good}. Arguments or_lt_le {T N good}.

Section Chunky.
Context {T : Type} (N : Num T) (good : T -> Prop).
Hypothesis O : ordered N good.
Notation le := (nle' N).
Notation item := (BItem (T := T)).
Notation node := (CNode (T := T)).

Lemma le_refl : forall a, le a a.
Proof. exact (or_irr O). Qed.
Lemma lt_le : forall a b, nlt N a b = true -> le a b.
Proof.
  intros a b H. unfold nle'. destruct (nlt N b a) eqn:E; [|reflexivity].
  pose proof (or_tr O a b a H E) as X. now rewrite (or_irr O) in X.
Qed.
Lemma le_trans : forall a b c, good a -> good b -> le a b -> le b c -> le a c.
Proof.
  intros a b c Ga Gb H1 H2. unfold nle' in *. destruct (nlt N c a) eqn:E; [|reflexivity].
  now rewrite (or_lt_le O c a b Ga Gb E H1) in H2.
Qed.
Lemma nmin2_le : forall a b, le (nmin2 N a b) a /\ le (nmin2 N a b) b /\ (nmin2 N a b = a \/ nmin2 N a b = b).
Proof.
  intros a b. unfold nmin2. destruct (nlt N a b) eqn:E.
  - split; [apply le_refl|]. split; [now apply lt_le|now left].
  - split; [exact E|]. split; [apply le_refl|now right].
Qed.
Lemma nmax2_le : forall a b, le a (nmax2 N a b) /\ le b (nmax2 N a b) /\ (nmax2 N a b = a \/ nmax2 N a b = b).
Proof.
  intros a b. unfold nmax2. destruct (nlt N b a) eqn:E.
  - split; [apply le_refl|]. split; [now apply lt_le|now left].
  - split; [exact E|]. split; [apply le_refl|now right].
Qed.

Definition gpts (pts : list (T * T)) : Prop := forall p, In p pts -> good (fst p) /\ good (snd p).
Lemma gpts_app : forall a b, gpts a -> gpts b -> gpts (a ++ b).
Proof. intros a b Ha Hb p I. apply in_app_or in I as [I|I]; auto. Qed.
Lemma bbox_good : forall mn mx pts, gpts pts -> bbox N mn mx pts -> good (fst mn) /\ good (snd mn) /\ good (fst mx) /\ good (snd mx).
Proof.
  intros mn mx pts G (_ & (p1 & I1 & E1) & (p2 & I2 & E2) & (p3 & I3 & E3) & (p4 & I4 & E4)).
  rewrite <- E1, <- E2, <- E3, <- E4. repeat split; now apply G.
Qed.

Lemma bbox_join : forall mn mx mn' mx' a b, gpts a -> gpts b -> bbox N mn mx a -> bbox N mn' mx' b ->
  bbox N (nmin2 N (fst mn') (fst mn), nmin2 N (snd mn') (snd mn)) (nmax2 N (fst mx') (fst mx), nmax2 N (snd mx') (snd mx)) (a ++ b).
Proof.
  intros mn mx mn' mx' a b Ga Gb Ba Bb.
  destruct (bbox_good _ _ _ Ga Ba) as (g1 & g2 & g3 & g4). destruct (bbox_good _ _ _ Gb Bb) as (g5 & g6 & g7 & g8).
  destruct Ba as (Ia & (p1 & J1 & E1) & (p2 & J2 & E2) & (p3 & J3 & E3) & (p4 & J4 & E4)).
  destruct Bb as (Ib & (q1 & K1 & F1) & (q2 & K2 & F2) & (q3 & K3 & F3) & (q4 & K4 & F4)).
  destruct (nmin2_le (fst mn') (fst mn)) as (A1 & A2 & A3). destruct (nmin2_le (snd mn') (snd mn)) as (B1 & B2 & B3).
  destruct (nmax2_le (fst mx') (fst mx)) as (C1 & C2 & C3). destruct (nmax2_le (snd mx') (snd mx)) as (D1 & D2 & D3).
  unfold bbox. cbn [fst snd].
  set (u := nmin2 N (fst mn') (fst mn)) in *. set (v := nmin2 N (snd mn') (snd mn)) in *.
  set (w := nmax2 N (fst mx') (fst mx)) in *. set (x := nmax2 N (snd mx') (snd mx)) in *.
  assert (Gu : good u) by (destruct A3 as [->| ->]; assumption). assert (Gv : good v) by (destruct B3 as [->| ->]; assumption).
  clearbody u v w x.
  split; [|split; [|split; [|split]]].
  - intros p I. apply in_app_or in I as [I|I].
    + destruct (Ia p I) as (X1 & X2 & X3 & X4). destruct (Ga p I).
      split; [eapply (le_trans u); [exact Gu|exact g1|exact A2|exact X1]|].
      split; [eapply le_trans; [| |exact X2|exact C2]; assumption|].
      split; [eapply (le_trans v); [exact Gv|exact g2|exact B2|exact X3]|].
      eapply le_trans; [| |exact X4|exact D2]; assumption.
    + destruct (Ib p I) as (X1 & X2 & X3 & X4). destruct (Gb p I).
      split; [eapply (le_trans u); [exact Gu|exact g5|exact A1|exact X1]|].
      split; [eapply le_trans; [| |exact X2|exact C1]; assumption|].
      split; [eapply (le_trans v); [exact Gv|exact g6|exact B1|exact X3]|].
      eapply le_trans; [| |exact X4|exact D1]; assumption.
  - destruct A3 as [->| ->]; [exists q1|exists p1]; (split; [apply in_or_app; auto|assumption]).
  - destruct C3 as [->| ->]; [exists q2|exists p2]; (split; [apply in_or_app; auto|assumption]).
  - destruct B3 as [->| ->]; [exists q3|exists p3]; (split; [apply in_or_app; auto|assumption]).
  - destruct D3 as [->| ->]; [exists q4|exists p4]; (split; [apply in_or_app; auto|assumption]).
Qed.
Lemma bbox_one : forall p, bbox N p p [p].
Proof.
  intros p. split; [|repeat split; exists p; (split; [now left|reflexivity])].
  intros q [<-|[]]. repeat split; apply le_refl.
Qed.
Lemma bbox_perm : forall mn mx a b, Permutation a b -> bbox N mn mx a -> bbox N mn mx b.
Proof.
  intros mn mx a b P (I & (p1 & J1 & E1) & (p2 & J2 & E2) & (p3 & J3 & E3) & (p4 & J4 & E4)).
  split; [intros p H; apply I; eapply Permutation_in; [apply Permutation_sym; exact P|exact H]|].
  repeat split; [exists p1|exists p2|exists p3|exists p4]; (split; [eapply Permutation_in; [exact P|assumption]|assumption]).
Qed.

(** * calcExtends *)
(** The corners of the triangle that an item stands for. *)
Variable P : Z -> list (T * T).
Definition fit (it : item) : Prop := gpts (P (bi it)) /\ bbox N (bmin it) (bmax it) (P (bi it)).
Definition pts (l : list item) : list (T * T) := concat (map (fun it => P (bi it)) l).

Lemma ext_fold : forall tl mn mx done, gpts done -> bbox N mn mx done -> (forall it, In it tl -> fit it) ->
  let '(mn', mx') := fold_left (ext_step N) tl (mn, mx) in bbox N mn' mx' (done ++ pts tl).
Proof.
  induction tl as [|x tl IH]; intros mn mx done G B F.
  - cbn. now rewrite app_nil_r.
  - cbn [fold_left]. unfold ext_step at 2. unfold pts. cbn [map concat]. rewrite app_assoc.
    destruct (F x (or_introl eq_refl)) as [Gx Bx].
    apply (IH _ _ (done ++ P (bi x))); [now apply gpts_app|now apply bbox_join|].
    intros it I. apply F. now right.
Qed.
Lemma calcExtends_spec : forall pre mid post, mid <> [] -> (forall it, In it mid -> fit it) -> exists mn mx,
  calcExtends N (pre ++ mid ++ post) (zlen pre) (zlen pre + zlen mid) = Ok (mn, mx) /\ bbox N mn mx (pts mid).
Proof.
  intros pre [|it tl] post H F; [congruence|].
  unfold calcExtends. cbn [app]. rewrite get_app_here. cbn [bind].
  replace (Z.to_nat (zlen pre + zlen (it :: tl) - zlen pre - 1)) with (length tl) by (rewrite zlen_cons; unfold zlen; lia).
  change (pre ++ it :: tl ++ post) with (pre ++ [it] ++ tl ++ post). rewrite app_assoc.
  replace (zlen pre + 1) with (zlen (pre ++ [it])) by apply zlen_snoc.
  rewrite BvProofs.foldM_get.
  destruct (F it (or_introl eq_refl)) as [Gi Bi].
  pose proof (ext_fold tl _ _ _ Gi Bi (fun x I => F x (or_intror I))) as S.
  destruct (fold_left (ext_step N) tl (bmin it, bmax it)) as [mn mx].
  exists mn, mx. split; [reflexivity|exact S].
Qed.

(** * Copying triangles *)
Variable inT : list Z.
Definition tri (i : Z) : list Z := firstn 3 (skipn (Z.to_nat (3 * i)) inT).

Lemma three : forall {A} (l : list A) k, 0 <= k -> k + 3 <= zlen l -> exists a b c,
  get l k = Ok a /\ get l (k + 1) = Ok b /\ get l (k + 2) = Ok c /\ firstn 3 (skipn (Z.to_nat k) l) = [a; b; c].
Proof.
  intros A l k Hk Hl.
  assert (E : l = firstn (Z.to_nat k) l ++ skipn (Z.to_nat k) l) by (symmetry; apply firstn_skipn).
  assert (L : length (firstn (Z.to_nat k) l) = Z.to_nat k) by (apply firstn_length_le; unfold zlen in Hl; lia).
  assert (L' : length (skipn (Z.to_nat k) l) = (length l - Z.to_nat k)%nat) by apply skipn_length.
  destruct (skipn (Z.to_nat k) l) as [|a [|b [|c r]]]; cbn [length] in L'; try (unfold zlen in Hl; exfalso; lia).
  exists a, b, c. set (p := firstn (Z.to_nat k) l) in *.
  assert (Zk : k = zlen p) by (unfold zlen; lia). rewrite E. clear E L'.
  split; [rewrite Zk; apply get_app_here|].
  split; [change (p ++ a :: b :: c :: r) with (p ++ [a] ++ b :: c :: r); rewrite app_assoc; replace (k + 1) with (zlen (p ++ [a])) by (rewrite zlen_snoc; lia); apply get_app_here|].
  split; [|reflexivity].
  change (p ++ a :: b :: c :: r) with (p ++ [a; b] ++ c :: r). rewrite app_assoc.
  replace (k + 2) with (zlen (p ++ [a; b])) by (rewrite zlen_app; change (zlen [a; b]) with 2; lia). apply get_app_here.
Qed.

Lemma set_here : forall {A} (p : list A) x r v, set (p ++ x :: r) (zlen p) v = Ok (p ++ v :: r).
Proof.
  intros. rewrite set_in_range by (rewrite zlen_app, zlen_cons; pose proof (zlen_nonneg p); pose proof (zlen_nonneg r); lia).
  f_equal. replace (Z.to_nat (zlen p)) with (length p) by (unfold zlen; lia). apply upd_app_length.
Qed.

Lemma copyTri_spec : forall a b c i, 0 <= i -> 3 * i + 3 <= zlen inT -> zlen b = 3 ->
  copyTri (a ++ b ++ c) inT (3 * i) (zlen a) = Ok (a ++ tri i ++ c).
Proof.
  intros a b c i Hi Hl Hb. unfold copyTri, tri.
  destruct (three inT (3 * i)) as (x & y & z & E1 & E2 & E3 & E4); [lia|lia|]. rewrite E1, E2, E3, E4.
  pose proof (zlen_nonneg a) as A0. pose proof (zlen_nonneg c) as C0.
  assert (L : zlen (a ++ b ++ c) = zlen a + 3 + zlen c) by (rewrite !zlen_app; lia).
  rewrite (proj2 (Z.ltb_ge (zlen inT) (3 * i))), (proj2 (Z.ltb_ge (3 * i) 0)), (proj2 (Z.ltb_ge (zlen a) 0)) by lia.
  rewrite (proj2 (Z.ltb_ge (zlen (a ++ b ++ c)) (zlen a))) by lia. cbn [orb].
  destruct b as [|b1 [|b2 [|b3 [|b4 b]]]]; rewrite ?zlen_cons, ?zlen_nil in Hb; try (exfalso; lia); [|exfalso; pose proof (zlen_nonneg b); lia].
  rewrite L. rewrite !(proj2 (Z.ltb_lt _ _)) by lia. cbn [app bind].
  rewrite set_here. cbn [bind].
  change (a ++ x :: b2 :: b3 :: c) with (a ++ [x] ++ b2 :: b3 :: c). rewrite app_assoc.
  replace (zlen a + 1) with (zlen (a ++ [x])) by apply zlen_snoc. rewrite set_here. cbn [bind].
  change ((a ++ [x]) ++ y :: b3 :: c) with ((a ++ [x]) ++ [y] ++ b3 :: c). rewrite app_assoc.
  replace (zlen a + 2) with (zlen ((a ++ [x]) ++ [y])) by (rewrite !zlen_snoc; lia). rewrite set_here.
  now rewrite <- !app_assoc.
Qed.
Lemma tri_len : forall i, 0 <= i -> 3 * i + 3 <= zlen inT -> zlen (tri i) = 3.
Proof. intros i H1 H2. unfold tri. destruct (three inT (3 * i)) as (x & y & z & _ & _ & _ & ->); [lia|lia|reflexivity]. Qed.

Definition tl (l : list item) : list Z := concat (map (fun it => tri (bi it)) l).
Definition inr (it : item) : Prop := 0 <= bi it /\ 3 * bi it + 3 <= zlen inT.
Hypothesis inT_small : zlen inT < 2 ^ 31.

Lemma tl_len : forall l, (forall it, In it l -> inr it) -> zlen (tl l) = 3 * zlen l.
Proof.
  induction l as [|x l IH]; intros H; [reflexivity|]. unfold tl in *. cbn [map concat]. rewrite zlen_app, zlen_cons.
  rewrite IH by (intros; apply H; now right). destruct (H x (or_introl eq_refl)). rewrite tri_len by lia. lia.
Qed.

Lemma copyTris_spec : forall pre mid post ct a b c,
  (forall it, In it mid -> inr it) -> 0 <= ct -> zlen a = 3 * ct -> zlen b = 3 * zlen mid -> zlen (a ++ b ++ c) < 2 ^ 31 ->
  copyTris (pre ++ mid ++ post) (zlen pre) (zlen pre + zlen mid) inT ct (a ++ b ++ c) = Ok (ct + zlen mid, a ++ tl mid ++ c).
Proof.
  intros pre mid post ct a b c F Hct Ha Hb HL. unfold copyTris.
  replace (Z.to_nat (zlen pre + zlen mid - zlen pre)) with (length mid) by (unfold zlen; lia).
  revert post ct a b c F Hct Ha Hb HL.
  induction mid as [|x mid IH] using rev_ind; intros post ct a b c F Hct Ha Hb HL.
  - change (zlen b = 3 * 0) in Hb. destruct b as [|z b]; [|rewrite zlen_cons in Hb; pose proof (zlen_nonneg b); lia].
    change (zlen (@nil item)) with 0. cbn. now rewrite Z.add_0_r.
  - rewrite app_length, Nat.add_1_r, zseq_S, foldM_app, <- app_assoc.
    assert (Hb' : zlen b = 3 * zlen mid + 3) by (rewrite Hb, zlen_snoc; lia).
    set (b1 := firstn (3 * length mid) b). set (b2 := skipn (3 * length mid) b).
    assert (Eb : b = b1 ++ b2) by (symmetry; apply firstn_skipn).
    assert (L1 : zlen b1 = 3 * zlen mid) by (unfold b1, zlen in *; rewrite firstn_length; lia).
    assert (L2 : zlen b2 = 3) by (unfold b2, zlen in *; rewrite skipn_length; lia).
    clearbody b1 b2. subst b.
    replace (a ++ (b1 ++ b2) ++ c) with (a ++ b1 ++ (b2 ++ c)) in * by now rewrite <- !app_assoc.
    rewrite (IH ([x] ++ post) ct a b1 (b2 ++ c)); [|intros; apply F; apply in_or_app; now left|exact Hct|exact Ha|exact L1|exact HL].
    cbn [bind foldM]. rewrite app_assoc.
    replace (zlen pre + Z.of_nat (length mid)) with (zlen (pre ++ mid)) by (rewrite zlen_app; reflexivity).
    cbn [app]. rewrite get_app_here. cbn [bind].
    destruct (F x) as [X1 X2]; [apply in_or_app; right; now left|].
    pose proof (zlen_nonneg c) as C0. pose proof (zlen_nonneg mid) as M0. rewrite !zlen_app in HL.
    assert (TL : zlen (tl mid) = 3 * zlen mid) by (apply tl_len; intros; apply F; apply in_or_app; now left).
    rewrite (i32_id (bi x * 3)) by (unfold is_i32; lia). rewrite (i32_id ((ct + zlen mid) * 3)) by (unfold is_i32; lia).
    rewrite app_assoc. replace (bi x * 3) with (3 * bi x) by lia.
    replace ((ct + zlen mid) * 3) with (zlen (a ++ tl mid)) by (rewrite zlen_app; lia).
    rewrite copyTri_spec by (try exact L2; lia). cbn [bind].
    rewrite (i32_id (ct + zlen mid + 1)) by (unfold is_i32; lia). rewrite zlen_snoc. rewrite Z.add_assoc.
    do 2 f_equal. unfold tl. rewrite map_app, concat_app. cbn [map concat]. now rewrite app_nil_r, <- !app_assoc.
Qed.

(** * Trees *)
Notation ChAt := (ChAt N).
Lemma ChAt_lt : forall t nodes k s l e, ChAt t nodes k s l e -> k < e.
Proof. induction 1; lia. Qed.
Lemma ChAt_frame : forall t nodes nodes' k s l e, ChAt t nodes k s l e ->
  (forall j, k <= j < e -> get nodes' j = get nodes j) -> ChAt t nodes' k s l e.
Proof.
  induction 1 as [k s tl mn mx G S0 Z1 B|k s m e l r mn mx G A IA B IB Bx]; intros F.
  - eapply ChLeaf; [rewrite F by lia; exact G|exact S0|exact Z1|exact B].
  - pose proof (ChAt_lt _ _ _ _ _ _ A). pose proof (ChAt_lt _ _ _ _ _ _ B).
    eapply ChInner; [rewrite F by lia; exact G|apply IA; intros; apply F; lia|apply IB; intros; apply F; lia|exact Bx].
Qed.

Variable sort : (item -> item -> bool) -> list item -> list item.
Hypothesis sort_perm : forall less l, Permutation (sort less l) l.

Lemma sort_range_mid : forall less pre mid post,
  sort_range sort less (pre ++ mid ++ post) (zlen pre) (zlen pre + zlen mid) = Ok (pre ++ sort less mid ++ post).
Proof.
  intros. unfold sort_range, slice.
  assert ((0 <=? zlen pre) && (zlen pre <=? zlen pre + zlen mid) && (zlen pre + zlen mid <=? zlen (pre ++ mid ++ post)) = true) as ->.
  { rewrite !zlen_app. pose proof (zlen_nonneg pre). pose proof (zlen_nonneg mid). pose proof (zlen_nonneg post).
    rewrite !andb_true_iff, !Z.leb_le. lia. }
  cbn [bind]. do 2 f_equal.
  - replace (Z.to_nat (zlen pre)) with (length pre) by (unfold zlen; lia).
    rewrite firstn_app, Nat.sub_diag, firstn_all. apply app_nil_r.
  - f_equal.
    + f_equal. replace (Z.to_nat (zlen pre)) with (length pre) by (unfold zlen; lia).
      rewrite skipn_app, Nat.sub_diag, skipn_all. cbn [app skipn].
      replace (Z.to_nat (zlen pre + zlen mid - zlen pre)) with (length mid) by (unfold zlen; lia).
      rewrite firstn_app, Nat.sub_diag, firstn_all. apply app_nil_r.
    + rewrite app_assoc. replace (Z.to_nat (zlen pre + zlen mid)) with (length (pre ++ mid)) by (rewrite app_length; unfold zlen; lia).
      rewrite skipn_app, Nat.sub_diag, skipn_all. reflexivity.
Qed.

Lemma pts_perm : forall a b, Permutation a b -> Permutation (pts a) (pts b).
Proof.
  intros a b H. unfold pts. rewrite <- !flat_map_concat_map.
  induction H; cbn [flat_map]; auto.
  - now apply Permutation_app_head.
  - rewrite !app_assoc. apply Permutation_app_tail, Permutation_app_comm.
  - etransitivity; eassumption.
Qed.

Definition tris_of (l : list item) : list (list (T * T)) := map (fun it => P (bi it)) l.

Section Sub.
Variables (t maxN : Z).
Hypothesis t1 : 1 <= t < 2 ^ 31.
(** Leaves below the root have at least half of [t] triangles. *)
Definition half : Z := (t + 1) / 2.
Lemma half_spec : 1 <= half <= t /\ t <= 2 * half <= t + 1.
Proof. unfold half. pose proof (Z.div_mod (t + 1) 2 ltac:(lia)). pose proof (Z.mod_pos_bound (t + 1) 2 ltac:(lia)). lia. Qed.

Lemma subdivide_spec : forall f pre mid post cur nodes ct a b c,
  mid <> [] -> (length mid <= f)%nat -> zlen (pre ++ mid ++ post) < 2 ^ 31 ->
  (forall it, In it mid -> fit it /\ inr it) ->
  0 <= cur < zlen nodes -> zlen nodes = maxN -> maxN < 2 ^ 31 ->
  (forall j, cur <= j < zlen nodes -> exists nd, get nodes j = Ok nd /\ nN nd = 0) ->
  (half <= zlen mid -> 2 * zlen mid <= (zlen nodes - cur + 1) * half) ->
  0 <= ct -> zlen a = 3 * ct -> zlen b = 3 * zlen mid -> zlen (a ++ b ++ c) < 2 ^ 31 ->
  exists mid' cur' nodes',
    subdivide N sort f inT t maxN (zlen pre) (zlen pre + zlen mid) (pre ++ mid ++ post, cur, nodes, ct, a ++ b ++ c)
      = Ok (pre ++ mid' ++ post, cur', nodes', ct + zlen mid, a ++ tl mid' ++ c) /\
    Permutation mid' mid /\ ChAt t nodes' cur ct (tris_of mid') cur' /\
    zlen nodes' = zlen nodes /\ cur' <= zlen nodes /\ (half <= zlen mid -> (cur' - cur + 1) * half <= 2 * zlen mid) /\
    (forall j, j < cur \/ cur' <= j -> get nodes' j = get nodes j).
Proof.
  pose proof half_spec as HH.
  induction f as [|f IH]; intros pre mid post cur nodes ct a b c NE Hf Hi Hfit Hc HmN Hb Hz Hroom Hct Ha Hb3 Hout.
  { destruct mid; [congruence|cbn in Hf; lia]. }
  assert (L1 : 1 <= zlen mid) by (destruct mid; [congruence|rewrite zlen_cons; pose proof (zlen_nonneg mid); lia]).
  assert (Lz : zlen pre + zlen mid + zlen post < 2 ^ 31) by (rewrite !zlen_app in Hi; lia).
  pose proof (zlen_nonneg pre) as P0. pose proof (zlen_nonneg post) as P1.
  cbn [subdivide].
  replace (i32 (zlen pre + zlen mid - zlen pre)) with (zlen mid) by (rewrite i32_id; unfold is_i32; lia).
  rewrite (i32_id (cur + 1)) by (unfold is_i32; lia).
  replace (cur >? maxN) with false by (symmetry; rewrite Z.gtb_ltb; apply Z.ltb_ge; lia).
  destruct (Hz cur) as (nd & Gn & Nn); [lia|]. rewrite Gn. cbn [bind].
  destruct (calcExtends_spec pre mid post NE (fun it I => proj1 (Hfit it I))) as (mn & mx & Ec & Bx).
  rewrite Ec. cbn [bind].
  destruct (Z.leb_spec (zlen mid) t) as [Lt|Gt].
  - destruct (set nodes cur (mkCN mn mx ct (zlen mid))) as [nodes'| | |] eqn:Es;
      try (rewrite set_in_range in Es by lia; discriminate).
    cbn [bind]. rewrite copyTris_spec by (try assumption; intros it I; apply (Hfit it I)). cbn [bind].
    exists mid, (cur + 1), nodes'. split; [reflexivity|]. split; [apply Permutation_refl|].
    assert (Zt : zlen (tris_of mid) = zlen mid) by (unfold tris_of, zlen; now rewrite map_length).
    split; [eapply ChLeaf; [rewrite Zt; exact (BvProofs.get_set_same _ _ _ _ Es)|exact Hct|lia|exact Bx]|].
    split; [exact (BvProofs.set_zlen _ _ _ _ Es)|]. split; [lia|].
    split; [intros ?; replace (cur + 1 - cur + 1) with 2 by lia; lia|].
    intros j Hj. apply (BvProofs.get_set_other _ _ _ _ _ Es). lia.
  - rewrite Nn.
    destruct (set nodes cur (mkCN mn mx (nI nd) 0)) as [nodes0| | |] eqn:Es0;
      try (rewrite set_in_range in Es0 by lia; discriminate).
    cbn [bind]. rewrite (i32_id (zlen pre + zlen mid)) by (unfold is_i32; lia).
    rewrite sort_range_mid. cbn [bind].
    set (sm := sort _ mid).
    assert (Ps : Permutation sm mid) by apply sort_perm.
    assert (Ls : zlen sm = zlen mid) by (unfold zlen; now rewrite (Permutation_length Ps)).
    rewrite Z.quot_div_nonneg by lia.
    set (h := zlen mid / 2).
    assert (Hh : half <= h /\ 2 * h <= zlen mid <= 2 * h + 1).
    { unfold h. pose proof (Z.div_mod (zlen mid) 2 ltac:(lia)). pose proof (Z.mod_pos_bound (zlen mid) 2 ltac:(lia)).
      split; [|lia]. unfold half. apply Z.div_le_mono; lia. }
    clearbody h.
    rewrite (i32_id (zlen pre + h)) by (unfold is_i32; lia).
    set (l := firstn (Z.to_nat h) sm). set (r := skipn (Z.to_nat h) sm).
    assert (El : zlen l = h) by (unfold l, zlen in *; rewrite firstn_length; lia).
    assert (Er : zlen r = zlen mid - h) by (unfold r, zlen in *; rewrite skipn_length; lia).
    assert (Esm : sm = l ++ r) by (symmetry; apply firstn_skipn).
    assert (Hfl : forall it, In it (l ++ r) -> fit it /\ inr it).
    { intros it I. apply Hfit. eapply Permutation_in; [exact Ps|]. now rewrite Esm. }
    set (b1 := firstn (Z.to_nat (3 * h)) b). set (b2 := skipn (Z.to_nat (3 * h)) b).
    assert (Eb : b = b1 ++ b2) by (symmetry; apply firstn_skipn).
    assert (Lb1 : zlen b1 = 3 * h) by (unfold b1, zlen in *; rewrite firstn_length; lia).
    assert (Lb2 : zlen b2 = 3 * (zlen mid - h)) by (unfold b2, zlen in *; rewrite skipn_length; lia).
    clearbody l r b1 b2. rewrite Esm. rewrite <- app_assoc. subst b.
    replace (a ++ (b1 ++ b2) ++ c) with (a ++ b1 ++ (b2 ++ c)) in * by now rewrite <- !app_assoc.
    pose proof (BvProofs.set_zlen _ _ _ _ Es0) as Zn0.
    specialize (Hroom ltac:(lia)).
    assert (R1 : 2 * h <= (zlen nodes - (cur + 1) + 1) * half) by nia.
    assert (R0 : cur + 1 < zlen nodes) by nia.
    destruct (IH pre l (r ++ post) (cur + 1) nodes0 ct a b1 (b2 ++ c)) as (l' & c1 & n1 & S1 & Pl & B1 & Z1 & C1 & M1 & F1).
    { destruct l; [rewrite zlen_nil in El; lia|discriminate]. }
    { unfold zlen in *. lia. }
    { rewrite !zlen_app. lia. }
    { intros it I. apply Hfl. apply in_or_app. now left. }
    { lia. } { lia. } { lia. }
    { intros j Hj. rewrite (BvProofs.get_set_other _ _ _ _ _ Es0) by lia. apply Hz. lia. }
    { rewrite El, Zn0. intros _. exact R1. }
    { exact Hct. } { exact Ha. } { lia. } { exact Hout. }
    rewrite El in S1. rewrite S1. cbn [bind].
    pose proof (ChAt_lt _ _ _ _ _ _ B1) as Lc1. rewrite El in M1. specialize (M1 ltac:(lia)).
    assert (Ll' : zlen l' = h) by (unfold zlen in *; rewrite (Permutation_length Pl); lia).
    assert (Tl' : zlen (tl l') = 3 * h).
    { rewrite <- Ll'. apply tl_len. intros it I. apply Hfl. apply in_or_app. left. eapply Permutation_in; eassumption. }
    replace (a ++ tl l' ++ b2 ++ c) with ((a ++ tl l') ++ b2 ++ c) by now rewrite <- !app_assoc.
    replace (pre ++ l' ++ r ++ post) with ((pre ++ l') ++ r ++ post) by now rewrite <- !app_assoc.
    destruct (IH (pre ++ l') r post c1 n1 (ct + h) (a ++ tl l') b2 c) as (r' & c2 & n2 & S2 & Pr & B2 & Z2 & C2 & M2 & F2).
    { destruct r; [rewrite zlen_nil in Er; lia|discriminate]. }
    { unfold zlen in *. lia. }
    { rewrite !zlen_app. lia. }
    { intros it I. apply Hfl. apply in_or_app. now right. }
    { nia. } { lia. } { lia. }
    { intros j Hj. rewrite F1 by lia. rewrite (BvProofs.get_set_other _ _ _ _ _ Es0) by lia. apply Hz. lia. }
    { intros _. rewrite Er, Z1, Zn0. nia. }
    { lia. } { rewrite zlen_app. lia. } { lia. }
    { rewrite !zlen_app in *. lia. }
    rewrite zlen_app, Ll', Er in S2.
    replace (zlen pre + h + (zlen mid - h)) with (zlen pre + zlen mid) in S2 by lia.
    rewrite S2. cbn [bind].
    pose proof (ChAt_lt _ _ _ _ _ _ B2) as Lc2. rewrite Er in M2. specialize (M2 ltac:(lia)).
    assert (Gc : get n2 cur = Ok (mkCN mn mx (nI nd) 0)).
    { rewrite F2, F1 by lia. exact (BvProofs.get_set_same _ _ _ _ Es0). }
    rewrite Gc. cbn [bind nMin nMax nN].
    assert (Ei : i32 (- i32 (c2 - cur)) = - (c2 - cur)).
    { rewrite (i32_id (c2 - cur)) by (unfold is_i32; lia). apply i32_id. unfold is_i32. lia. }
    rewrite Ei.
    assert (Zn : zlen n2 = zlen nodes) by lia.
    destruct (set n2 cur (mkCN mn mx (- (c2 - cur)) 0)) as [n3| | |] eqn:Es3;
      try (rewrite set_in_range in Es3 by lia; discriminate).
    cbn [bind]. exists (l' ++ r'), c2, n3.
    assert (Pm : Permutation (l' ++ r') mid) by (rewrite <- Ps, Esm; apply Permutation_app; assumption).
    split; [|split; [exact Pm|split; [|split; [|split; [|split]]]]].
    + replace (ct + h + (zlen mid - h)) with (ct + zlen mid) by lia.
      unfold tl. rewrite map_app, concat_app. now rewrite <- !app_assoc.
    + unfold tris_of. rewrite map_app. apply ChInner with c1 mn mx.
      * exact (BvProofs.get_set_same _ _ _ _ Es3).
      * apply ChAt_frame with n1; [exact B1|].
        intros j Hj. rewrite (BvProofs.get_set_other _ _ _ _ _ Es3) by lia. apply F2. lia.
      * replace (zlen (map (fun it => P (bi it)) l')) with h by (unfold zlen in *; rewrite map_length; lia).
        apply ChAt_frame with n2; [exact B2|].
        intros j Hj. apply (BvProofs.get_set_other _ _ _ _ _ Es3). lia.
      * rewrite <- map_app. eapply bbox_perm; [|exact Bx]. apply pts_perm. now apply Permutation_sym.
    + rewrite (BvProofs.set_zlen _ _ _ _ Es3). exact Zn.
    + lia.
    + nia.
    + intros j Hj. rewrite (BvProofs.get_set_other _ _ _ _ _ Es3) by lia.
      rewrite F2 by lia. rewrite F1 by lia. apply (BvProofs.get_set_other _ _ _ _ _ Es0). lia.
Qed.
End Sub.
End Chunky.
