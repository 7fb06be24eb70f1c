From Coq Require Import ZArith List Bool Lia Permutation.
From Verif.Base Require Import Res GoNum F32 Num Grid Bytes.
From Verif.Model Require Import ChunkyMesh.
From Verif.Spec Require Import ChunkySpec.
From Verif.Proofs Require Import BasicsProofs ChunkyProofs.
From Verif.Proofs Require BvProofs.
Import ListNotations.
Open Scope Z_scope.

Lemma triples_tri : forall n inT, (3 * n <= length inT)%nat -> triples n inT = map (tri inT) (zseq n).
Proof.
  induction n as [|n IH]; intros inT H; [reflexivity|].
  cbn [triples]. replace (S n) with (1 + n)%nat by lia. rewrite zseq_app, map_app, map_map. cbn [zseq seq map app]. f_equal.
  rewrite IH by (rewrite skipn_length; lia). unfold zseq. rewrite !map_map. apply map_ext_in. intros i Hi.
  unfold tri. rewrite <- (firstn_skipn 3 inT) at 2.
  assert (L : length (firstn 3 inT) = 3%nat) by (apply firstn_length_le; lia).
  rewrite skipn_app, L. rewrite (skipn_all2 (firstn 3 inT)) by lia. cbn [app]. f_equal. f_equal. lia.
Qed.

Section Chunky.
Context {T : Type} (N : Num T) (good : T -> Prop).
Hypothesis O : ordered N good.
Notation item := (BItem (T := T)).
Notation node := (CNode (T := T)).
Variables (verts : list T) (tris : list Z) (n t : Z).
Hypothesis n1 : 1 <= n.
Hypothesis t1 : 1 <= t.
Hypothesis nt : n + t < 2 ^ 31.
Hypothesis nt4 : 4 * ((n + t - 1) / t) < 2 ^ 31.
Hypothesis trisL : 3 * n <= zlen tris < 2 ^ 31.
Hypothesis vertsL : zlen verts < 2 ^ 31.
Hypothesis vertsG : forall x, In x verts -> good x.
Hypothesis idx : forall v, In v (firstn (Z.to_nat (3 * n)) tris) -> 0 <= v /\ 3 * v + 2 < zlen verts.
Let d : T := nZ N 0.
Let P (i : Z) := corners verts d (tri tris i).

Lemma nth_get : forall k, 0 <= k < zlen verts -> get verts k = Ok (nth (Z.to_nat k) verts d) /\ good (nth (Z.to_nat k) verts d).
Proof.
  intros k Hk. split.
  - unfold get. rewrite (proj2 (Z.ltb_ge k 0)) by lia.
    rewrite (nth_error_nth' verts d) by (unfold zlen in Hk; lia). reflexivity.
  - apply vertsG. apply nth_In. unfold zlen in Hk. lia.
Qed.

Lemma tri_idx : forall i, 0 <= i < n -> exists a b c, tri tris i = [a; b; c] /\
  slice tris (3 * i) (3 * i + 3) = Ok [a; b; c] /\
  forall v, In v [a; b; c] -> 0 <= v /\ 3 * v + 2 < zlen verts.
Proof.
  intros i Hi. destruct (three tris (3 * i)) as (a & b & c & _ & _ & _ & E); [lia|lia|]. exists a, b, c.
  split; [exact E|]. split.
  - unfold slice. rewrite (proj2 (Z.leb_le 0 (3 * i))), (proj2 (Z.leb_le (3 * i) (3 * i + 3))), (proj2 (Z.leb_le (3 * i + 3) (zlen tris))) by lia.
    cbn [andb]. replace (3 * i + 3 - 3 * i) with 3 by lia. change (Z.to_nat 3) with 3%nat. now rewrite E.
  - intros v Hv. apply idx. rewrite <- E in Hv. clear E.
    assert (Q : firstn (Z.to_nat (3 * n)) tris = firstn (Z.to_nat (3 * i)) tris ++ firstn 3 (skipn (Z.to_nat (3 * i)) tris) ++ firstn (Z.to_nat (3 * n) - Z.to_nat (3 * i) - 3) (skipn 3 (skipn (Z.to_nat (3 * i)) tris))).
    { rewrite <- (firstn_skipn (Z.to_nat (3 * i)) tris) at 1. rewrite firstn_app.
      rewrite firstn_length_le by (unfold zlen in *; lia). rewrite firstn_firstn. rewrite Nat.min_r by lia. f_equal.
      rewrite <- (firstn_skipn 3 (skipn (Z.to_nat (3 * i)) tris)) at 1. rewrite firstn_app.
      assert (L : length (firstn 3 (skipn (Z.to_nat (3 * i)) tris)) = 3%nat) by (apply firstn_length_le; rewrite skipn_length; unfold zlen in *; lia).
      rewrite L. rewrite firstn_all2 by (rewrite L; lia). reflexivity. }
    rewrite Q. apply in_or_app. right. apply in_or_app. now left.
Qed.

Lemma vert_xz_ok : forall v, 0 <= v -> 3 * v + 2 < zlen verts ->
  vert_xz verts v = Ok (nth (Z.to_nat (3 * v)) verts d, nth (Z.to_nat (3 * v + 2)) verts d).
Proof.
  intros v H1 H2. unfold vert_xz.
  rewrite (i32_id (v * 3)) by (unfold is_i32; lia). rewrite (i32_id (3 + v * 3)) by (unfold is_i32; lia).
  destruct (three verts (3 * v)) as (a & b & c & Ea & _ & Ec & E); [lia|lia|].
  unfold slice. rewrite (proj2 (Z.leb_le 0 (v * 3))), (proj2 (Z.leb_le (v * 3) (3 + v * 3))), (proj2 (Z.leb_le (3 + v * 3) (zlen verts))) by lia.
  cbn [andb bind]. replace (3 + v * 3 - v * 3) with 3 by lia. change (Z.to_nat 3) with 3%nat.
  replace (v * 3) with (3 * v) by lia. rewrite E. cbn [bind get of_option nth_error Z.ltb Z.to_nat Z.compare Pos.to_nat Pos.iter_op Nat.add].
  destruct (nth_get (3 * v)) as [X _]; [lia|]. destruct (nth_get (3 * v + 2)) as [Y _]; [lia|].
  rewrite Ea in X. rewrite Ec in Y. apply Ok_inj in X. apply Ok_inj in Y. subst. reflexivity.
Qed.

Lemma tri_item_spec : forall i, 0 <= i < n -> exists it, tri_item N verts tris i = Ok it /\ bi it = i /\ fit N good P it.
Proof.
  intros i Hi. destruct (tri_idx i Hi) as (a & b & c & Et & Es & V). unfold tri_item.
  rewrite (i32_id (i * 3)) by (unfold is_i32; lia). rewrite (i32_id (i * 3 + 3)) by (unfold is_i32; lia).
  replace (i * 3) with (3 * i) by lia. rewrite Es. cbn [bind].
  destruct (V a) as [A1 A2]; [now left|]. destruct (V b) as [B1 B2]; [right; now left|]. destruct (V c) as [C1 C2]; [right; right; now left|].
  change (get [a; b; c] 0) with (Ok a). cbn [bind].
  rewrite (i32_id (a * 3)) by (unfold is_i32; lia). rewrite !(i32_id (a * 3 + _)) by (unfold is_i32; lia).
  replace (a * 3 + 0) with (3 * a) by lia. replace (a * 3 + 2) with (3 * a + 2) by lia.
  destruct (nth_get (3 * a)) as [E1 G1]; [lia|]. destruct (nth_get (3 * a + 2)) as [E2 G2]; [lia|]. rewrite E1, E2.
  destruct (nth_get (3 * b)) as [_ G3]; [lia|]. destruct (nth_get (3 * b + 2)) as [_ G4]; [lia|].
  destruct (nth_get (3 * c)) as [_ G5]; [lia|]. destruct (nth_get (3 * c + 2)) as [_ G6]; [lia|].
  cbn [bind]. change (zseq 2) with [0; 1]. cbn [foldM].
  change (get [a; b; c] (0 + 1)) with (Ok b). cbn [bind].
  rewrite (vert_xz_ok b) by lia. cbn [bind]. change (get [a; b; c] (1 + 1)) with (Ok c). cbn [bind]. rewrite (vert_xz_ok c) by lia. cbn [bind].
  eexists. split; [reflexivity|]. split; [reflexivity|]. unfold fit. cbn [bi bmin bmax]. unfold P, corners. rewrite Et. cbn [map].
  set (pa := (nth (Z.to_nat (3 * a)) verts d, nth (Z.to_nat (3 * a + 2)) verts d)) in *.
  set (pb := (nth (Z.to_nat (3 * b)) verts d, nth (Z.to_nat (3 * b + 2)) verts d)) in *.
  set (pc := (nth (Z.to_nat (3 * c)) verts d, nth (Z.to_nat (3 * c + 2)) verts d)) in *.
  assert (Ga : gpts good [pa]) by (intros p [<-|[]]; split; assumption).
  assert (Gb : gpts good [pb]) by (intros p [<-|[]]; split; assumption).
  assert (Gc : gpts good [pc]) by (intros p [<-|[]]; split; assumption).
  split; [intros p [<-|[<-|[<-|[]]]]; split; assumption|].
  change [pa; pb; pc] with (([pa] ++ [pb]) ++ [pc]).
  apply (bbox_join N good O) with (a := [pa] ++ [pb]) (b := [pc]); [now apply gpts_app|exact Gc| |apply (bbox_one N good O)].
  apply (bbox_join N good O) with (a := [pa]) (b := [pb]); [exact Ga|exact Gb|apply (bbox_one N good O)|apply (bbox_one N good O)].
Qed.

Lemma items_spec : forall k, (k <= Z.to_nat n)%nat -> exists items,
  foldM (fun acc i => let* it := tri_item N verts tris i in Ok (acc ++ [it])) (zseq k) [] = Ok items /\
  map bi items = zseq k /\ forall it, In it items -> fit N good P it.
Proof.
  induction k as [|k IH]; intros Hk; [exists []; split; [reflexivity|]; split; [reflexivity|]; intros it []|].
  destruct IH as (items & E & M & F); [lia|]. rewrite zseq_S, foldM_app, E. cbn [bind foldM].
  destruct (tri_item_spec (Z.of_nat k)) as (it & Ei & Eb & Fi); [lia|]. rewrite Ei. cbn [bind]. exists (items ++ [it]).
  split; [reflexivity|]. split; [rewrite map_app, M; cbn; now rewrite Eb|].
  intros it' I. apply in_app_or in I as [I|[<-|[]]]; [exact (F it' I)|exact Fi].
Qed.

(** * Facts about trees *)
Notation ChAt := (ChAt N).
Definition leaf_of (nodes : list node) (j k : Z) : Prop :=
  exists nd, get nodes k = Ok nd /\ 0 <= nI nd /\ nI nd <= j < nI nd + nN nd.

Lemma ChAt_leaves : forall tpc nodes k s l e, ChAt tpc nodes k s l e -> forall j nd, k <= j < e -> get nodes j = Ok nd -> 0 <= nI nd ->
  s <= nI nd /\ nI nd + nN nd <= s + zlen l /\ 1 <= nN nd <= tpc.
Proof.
  induction 1 as [k s tl mn mx G S0 Z1 B|k s m e l r mn mx G A IA B IB Bx]; intros j nd Hj Gj L.
  - replace j with k in Gj by lia. rewrite G in Gj. apply Ok_inj in Gj. subst nd. cbn [nI nN]. lia.
  - pose proof (ChAt_lt _ _ _ _ _ _ _ A). pose proof (ChAt_lt _ _ _ _ _ _ _ B).
    pose proof (zlen_nonneg l). pose proof (zlen_nonneg r). rewrite zlen_app.
    destruct (Z.eq_dec j k) as [->|Nk].
    + rewrite G in Gj. apply Ok_inj in Gj. subst nd. cbn [nI] in L. lia.
    + destruct (Z.lt_ge_cases j m).
      * destruct (IA j nd) as (X & Y & Z); [lia|exact Gj|exact L|]. lia.
      * destruct (IB j nd) as (X & Y & Z); [lia|exact Gj|exact L|]. lia.
Qed.
Lemma ChAt_start : forall tpc nodes k s l e, ChAt tpc nodes k s l e -> 0 <= s.
Proof. induction 1; assumption. Qed.
Lemma ChAt_one : forall tpc nodes k s l e, ChAt tpc nodes k s l e -> forall j, s <= j < s + zlen l ->
  exists q, (k <= q < e /\ leaf_of nodes j q) /\ forall q', k <= q' < e -> leaf_of nodes j q' -> q' = q.
Proof.
  induction 1 as [k s tl mn mx G S0 Z1 B|k s m e l r mn mx G A IA B IB Bx]; intros j Hj.
  - exists k. split; [|lia]. split; [lia|]. eexists. split; [exact G|]. cbn [nI nN]. lia.
  - pose proof (ChAt_lt _ _ _ _ _ _ _ A) as L1. pose proof (ChAt_lt _ _ _ _ _ _ _ B) as L2. rewrite zlen_app in Hj.
    assert (NK : ~ leaf_of nodes j k).
    { intros (nd & Gk & X & _). rewrite G in Gk. apply Ok_inj in Gk. subst nd. cbn [nI] in X. lia. }
    destruct (Z.lt_ge_cases j (s + zlen l)) as [J|J].
    + destruct (IA j) as (q & (Q & L) & U); [lia|]. exists q. split; [split; [lia|exact L]|].
      intros q' Q' L'. destruct (Z.eq_dec q' k) as [->|]; [contradiction|].
      destruct (Z.lt_ge_cases q' m); [apply U; [lia|exact L']|].
      destruct L' as (nd & Gq & X & Y). destruct (ChAt_leaves _ _ _ _ _ _ B q' nd) as (W & _ & _); [lia|exact Gq|exact X|]. lia.
    + destruct (IB j) as (q & (Q & L) & U); [lia|]. exists q. split; [split; [lia|exact L]|].
      intros q' Q' L'. destruct (Z.eq_dec q' k) as [->|]; [contradiction|].
      destruct (Z.lt_ge_cases q' m); [|apply U; [lia|exact L']].
      destruct L' as (nd & Gq & X & Y). destruct (ChAt_leaves _ _ _ _ _ _ A q' nd) as (_ & W & _); [lia|exact Gq|exact X|]. lia.
Qed.
Lemma ChAt_get : forall tpc nodes k s l e, ChAt tpc nodes k s l e -> forall j, k <= j < e -> exists nd, get nodes j = Ok nd.
Proof.
  induction 1 as [k s tl mn mx G S0 Z1 B|k s m e l r mn mx G A IA B IB Bx]; intros j Hj.
  - replace j with k by lia. eauto.
  - pose proof (ChAt_lt _ _ _ _ _ _ _ A). pose proof (ChAt_lt _ _ _ _ _ _ _ B).
    destruct (Z.eq_dec j k) as [->|]; [eauto|]. destruct (Z.lt_ge_cases j m); [apply IA|apply IB]; lia.
Qed.
Lemma ChAt_has_leaf : forall tpc nodes k s l e, ChAt tpc nodes k s l e -> exists j nd, k <= j < e /\ get nodes j = Ok nd /\ 0 <= nI nd.
Proof.
  induction 1 as [k s tl mn mx G S0 Z1 B|k s m e l r mn mx G A (j & nd & J & Gj & L) B IB Bx].
  - exists k. eexists. split; [lia|]. split; [exact G|exact S0].
  - pose proof (ChAt_lt _ _ _ _ _ _ _ B). exists j, nd. split; [lia|]. split; assumption.
Qed.
Lemma ChAt_box : forall tpc nodes k s l e, ChAt tpc nodes k s l e -> forall j nd, k <= j < e -> get nodes j = Ok nd ->
  exists l', incl (concat l') (concat l) /\ bbox N (nMin nd) (nMax nd) (concat l').
Proof.
  induction 1 as [k s tl mn mx G S0 Z1 B|k s m e l r mn mx G A IA B IB Bx]; intros j nd Hj Gj.
  - replace j with k in Gj by lia. rewrite G in Gj. apply Ok_inj in Gj. subst nd. exists tl. split; [apply incl_refl|exact B].
  - destruct (Z.eq_dec j k) as [->|].
    + rewrite G in Gj. apply Ok_inj in Gj. subst nd. exists (l ++ r). split; [apply incl_refl|exact Bx].
    + rewrite concat_app. destruct (Z.lt_ge_cases j m).
      * destruct (IA j nd) as (l' & I & Q); [lia|exact Gj|]. exists l'. split; [|exact Q]. intros x X. apply in_or_app. left. now apply I.
      * destruct (IB j nd) as (l' & I & Q); [lia|exact Gj|]. exists l'. split; [|exact Q]. intros x X. apply in_or_app. right. now apply I.
Qed.

Lemma ChAt_corner : forall tpc nodes k0 s l e, ChAt tpc nodes k0 s l e -> forall k nd j c, k0 <= k < e -> get nodes k = Ok nd -> 0 <= nI nd ->
  nI nd <= j < nI nd + nN nd -> In c (nth (Z.to_nat (j - s)) l []) ->
  exists pts, bbox N (nMin nd) (nMax nd) pts /\ In c pts /\ incl pts (concat l).
Proof.
  induction 1 as [k0 s tl mn mx G0 S0 Z1 B|k0 s m e l r mn mx G0 A IA B IB Bx]; intros k nd j c Hk Gk L Hj Ic.
  - replace k with k0 in Gk by lia. rewrite G0 in Gk. apply Ok_inj in Gk. subst nd. cbn [nMin nMax nI nN] in *.
    exists (concat tl). split; [exact B|]. split; [|apply incl_refl].
    apply in_concat. exists (nth (Z.to_nat (j - s)) tl []). split; [apply nth_In; unfold zlen in Hj; lia|exact Ic].
  - pose proof (ChAt_lt _ _ _ _ _ _ _ A). pose proof (ChAt_lt _ _ _ _ _ _ _ B). rewrite concat_app.
    destruct (Z.eq_dec k k0) as [->|]; [rewrite G0 in Gk; apply Ok_inj in Gk; subst nd; cbn [nI] in L; lia|].
    destruct (Z.lt_ge_cases k m).
    + destruct (ChAt_leaves _ _ _ _ _ _ A k nd) as (X & Y & _); [lia|exact Gk|exact L|].
      rewrite app_nth1 in Ic by (unfold zlen in Y; lia).
      destruct (IA k nd j c) as (pts' & Q1 & Q2 & Q3); [lia|assumption|assumption|assumption|assumption|].
      exists pts'. split; [exact Q1|]. split; [exact Q2|]. intros x Hx. apply in_or_app. left. now apply Q3.
    + destruct (ChAt_leaves _ _ _ _ _ _ B k nd) as (X & Y & _); [lia|exact Gk|exact L|].
      rewrite app_nth2 in Ic by (unfold zlen in X; lia).
      replace (Z.to_nat (j - s) - length l)%nat with (Z.to_nat (j - (s + zlen l))) in Ic by (unfold zlen; lia).
      destruct (IB k nd j c) as (pts' & Q1 & Q2 & Q3); [lia|assumption|assumption|assumption|assumption|].
      exists pts'. split; [exact Q1|]. split; [exact Q2|]. intros x Hx. apply in_or_app. right. now apply Q3.
Qed.

Lemma max_tris_spec : forall (nodes : list node) nn, (forall j, 0 <= j < nn -> exists nd, get nodes j = Ok nd) ->
  (exists j nd, 0 <= j < nn /\ get nodes j = Ok nd /\ 0 <= nI nd /\ 0 < nN nd) ->
  exists m, max_tris nodes nn = Ok m /\ (forall j nd, 0 <= j < nn -> get nodes j = Ok nd -> 0 <= nI nd -> nN nd <= m) /\
  (exists j nd, 0 <= j < nn /\ get nodes j = Ok nd /\ 0 <= nI nd /\ nN nd = m).
Proof.
  intros nodes nn Hg Hex. unfold max_tris.
  assert (K : forall k, (k <= Z.to_nat nn)%nat -> exists m,
    foldM (fun m i => let* node := get nodes i in if 0 <=? nI node then if nN node >? m then Ok (nN node) else Ok m else Ok m) (zseq k) 0 = Ok m /\
    0 <= m /\ (forall j nd, 0 <= j < Z.of_nat k -> get nodes j = Ok nd -> 0 <= nI nd -> nN nd <= m) /\
    (m = 0 \/ exists j nd, 0 <= j < nn /\ get nodes j = Ok nd /\ 0 <= nI nd /\ nN nd = m)).
  { induction k as [|k IH]; intros Hk.
    - exists 0. split; [reflexivity|]. split; [lia|]. split; [intros; lia|now left].
    - destruct IH as (m & E & M0 & F & X); [lia|]. rewrite zseq_S, foldM_app, E. cbn [bind foldM].
      destruct (Hg (Z.of_nat k)) as [nd G]; [lia|]. rewrite G. cbn [bind].
      destruct (Z.leb_spec 0 (nI nd)) as [L|L]; [rewrite Z.gtb_ltb; destruct (Z.ltb_spec m (nN nd)) as [W|W]|].
      + cbn [bind]. exists (nN nd). split; [reflexivity|]. split; [lia|]. split.
        * intros j nd' Hj Gj Lj. destruct (Z.eq_dec j (Z.of_nat k)) as [->|]; [rewrite G in Gj; apply Ok_inj in Gj; subst; lia|].
          pose proof (F j nd' ltac:(lia) Gj Lj). lia.
        * right. exists (Z.of_nat k), nd. repeat split; try assumption; lia.
      + cbn [bind]. exists m. split; [reflexivity|]. split; [lia|]. split; [|exact X].
        intros j nd' Hj Gj Lj. destruct (Z.eq_dec j (Z.of_nat k)) as [->|]; [rewrite G in Gj; apply Ok_inj in Gj; subst; lia|]. apply (F j nd'); [lia|assumption|assumption].
      + cbn [bind]. exists m. split; [reflexivity|]. split; [lia|]. split; [|exact X].
        intros j nd' Hj Gj Lj. destruct (Z.eq_dec j (Z.of_nat k)) as [->|]; [rewrite G in Gj; apply Ok_inj in Gj; subst; lia|]. apply (F j nd'); [lia|assumption|assumption]. }
  destruct (K (Z.to_nat nn)) as (m & E & M0 & F & X); [lia|]. exists m. split; [exact E|].
  assert (F' : forall j nd, 0 <= j < nn -> get nodes j = Ok nd -> 0 <= nI nd -> nN nd <= m) by (intros; apply (F j); [lia|assumption|assumption]).
  split; [exact F'|]. destruct X as [->|X]; [|exact X].
  destruct Hex as (j & nd & J & G & L & Pz). pose proof (F' j nd J G L). lia.
Qed.

Variable sort : (item -> item -> bool) -> list item -> list item.
Hypothesis sort_perm : forall less l, Permutation (sort less l) l.

Theorem create_spec : exists cm, createChunkyTriMesh N sort verts tris n t = Ok (Some cm) /\
  cmNtris cm = n /\ zlen (cmTris cm) = 3 * n /\
  Permutation (triples (Z.to_nat n) (cmTris cm)) (triples (Z.to_nat n) tris) /\
  ChAt t (cmNodes cm) 0 0 (map (corners verts d) (triples (Z.to_nat n) (cmTris cm))) (cmNnodes cm) /\
  cmNnodes cm <= zlen (cmNodes cm) < 2 ^ 31 /\
  (forall j nd, 0 <= j < cmNnodes cm -> get (cmNodes cm) j = Ok nd -> 0 <= nI nd -> nN nd <= cmMaxTris cm) /\
  (exists j nd, 0 <= j < cmNnodes cm /\ get (cmNodes cm) j = Ok nd /\ 0 <= nI nd /\ nN nd = cmMaxTris cm).
Proof.
  unfold createChunkyTriMesh. rewrite (proj2 (Z.eqb_neq t 0)) by lia.
  rewrite (i32_id (n + t)) by (unfold is_i32; lia). rewrite (i32_id (n + t - 1)) by (unfold is_i32; lia).
  rewrite Z.quot_div_nonneg by lia.
  set (nc := (n + t - 1) / t) in *.
  assert (Hnc : n <= t * nc /\ 1 <= nc).
  { unfold nc. pose proof (Z.div_mod (n + t - 1) t ltac:(lia)). pose proof (Z.mod_pos_bound (n + t - 1) t ltac:(lia)).
    split; [lia|]. apply Z.div_le_lower_bound; lia. }
  clearbody nc. rewrite (i32_id nc) by (unfold is_i32; lia). rewrite (i32_id (nc * 4)) by (unfold is_i32; lia).
  rewrite (proj2 (Z.ltb_ge (nc * 4) 0)), (proj2 (Z.eqb_neq (nc * 4) 0)) by lia.
  rewrite (i32_id (n * 3)) by (unfold is_i32; lia).
  rewrite (proj2 (Z.ltb_ge (n * 3) 0)), (proj2 (Z.eqb_neq (n * 3) 0)), (proj2 (Z.ltb_ge n 0)) by lia.
  destruct (items_spec (Z.to_nat n)) as (items & E & M & F); [lia|]. rewrite E. cbn [bind].
  assert (Li : zlen items = n) by (unfold zlen; rewrite <- (map_length bi), M, zseq_length; lia).
  assert (NE : items <> []) by (destruct items; [discriminate Li || (rewrite zlen_nil in Li; lia)|discriminate]).
  set (nodes := repeat (zeroCN N) (Z.to_nat (nc * 4))).
  assert (Ln : zlen nodes = nc * 4) by (unfold nodes, zlen; rewrite repeat_length; lia).
  assert (Gn : forall j, 0 <= j < zlen nodes -> exists nd, get nodes j = Ok nd /\ nN nd = 0).
  { intros j Hj. destruct (get_in_range nodes j Hj) as [nd G]. exists nd. split; [exact G|].
    apply get_ok in G as [_ G]. apply nth_error_In in G. unfold nodes in G. apply repeat_spec in G. now subst nd. }
  set (out := repeat 0 (Z.to_nat (n * 3))).
  assert (Lo : zlen out = 3 * n) by (unfold out, zlen; rewrite repeat_length; lia).
  pose proof (half_spec t ltac:(lia)) as HH.
  destruct (subdivide_spec N good O P tris ltac:(lia) sort sort_perm t (nc * 4) ltac:(lia) (S (length items)) [] items [] 0 nodes 0 [] out [])
    as (mid' & cur & nodes' & Sd & Pm & Ch & Zn & Cn & _ & _).
  { exact NE. } { lia. } { cbn [app]. rewrite app_nil_r. lia. }
  { intros it I. split; [exact (F it I)|]. assert (Ib : In (bi it) (zseq (Z.to_nat n))) by (rewrite <- M; now apply in_map).
    apply in_zseq in Ib. unfold inr. lia. }
  { lia. } { exact Ln. } { lia. } { intros; apply Gn; lia. }
  { intros Hh. rewrite Ln, Li. nia. }
  { lia. } { reflexivity. } { lia. } { cbn [app]. rewrite app_nil_r. lia. }
  cbn [app] in Sd. rewrite !app_nil_r in Sd. change (zlen (@nil item)) with 0 in Sd. rewrite !Z.add_0_l, Li in Sd.
  fold out. rewrite Sd. cbn [bind]. clear Sd.
  destruct (max_tris_spec nodes' cur) as (m & Em & Fm & Xm).
  { intros j Hj. eapply ChAt_get; [exact Ch|lia]. }
  { destruct (ChAt_has_leaf _ _ _ _ _ _ Ch) as (j & nd & J & G & L). exists j, nd. split; [lia|]. split; [exact G|]. split; [exact L|].
    destruct (ChAt_leaves _ _ _ _ _ _ Ch j nd) as (_ & _ & X); [lia|exact G|exact L|]. lia. }
  rewrite Em. cbn [bind]. eexists. split; [reflexivity|]. cbn [cmNtris cmTris cmNodes cmNnodes cmMaxTris].
  assert (Inr : forall it, In it mid' -> inr tris it).
  { intros it I. apply (Permutation_in _ Pm) in I. assert (Ib : In (bi it) (zseq (Z.to_nat n))) by (rewrite <- M; now apply in_map).
    apply in_zseq in Ib. unfold inr. lia. }
  assert (Lm : zlen mid' = n) by (unfold zlen in *; rewrite (Permutation_length Pm); exact Li).
  assert (Lt : zlen (tl tris mid') = 3 * n) by (rewrite tl_len by exact Inr; lia).
  assert (Tr : triples (Z.to_nat n) (tl tris mid') = map (fun it => tri tris (bi it)) mid').
  { replace (Z.to_nat n) with (length mid') by (unfold zlen in Lm; lia). clear - Inr. unfold tl.
    induction mid' as [|x l IH]; [reflexivity|]. cbn [length triples map concat].
    pose proof (tri_len tris (bi x)) as TL. destruct (Inr x (or_introl eq_refl)) as [X1 X2]. specialize (TL X1 X2).
    destruct (tri tris (bi x)) as [|a [|b [|c [|e r]]]]; rewrite ?zlen_cons in TL; try (rewrite zlen_nil in TL; exfalso; lia);
      try (pose proof (zlen_nonneg r); exfalso; lia); try discriminate TL.
    cbn [app firstn skipn]. f_equal. apply IH. intros it I. apply Inr. now right. }
  split; [reflexivity|]. split; [exact Lt|]. split.
  - rewrite Tr. rewrite (triples_tri (Z.to_nat n) tris) by (unfold zlen in trisL; lia). rewrite <- M, map_map. now apply Permutation_map.
  - split; [rewrite Tr, map_map; exact Ch|]. split; [lia|]. split; [exact Fm|exact Xm].
Qed.
End Chunky.

(** * Queries *)
Section Walk.
Context {T : Type} (N : Num T) (good : T -> Prop).
Hypothesis O : ordered N good.
Notation node := (CNode (T := T)).
Notation ChAt := (ChAt N).
Variable o : T * T -> T * T -> bool.
(** A test that holds for a box holds for every larger one. *)
Definition grows : Prop := forall mn mx mn' mx',
  good (fst mn) -> good (snd mn) -> good (fst mx) -> good (snd mx) -> good (fst mn') -> good (snd mn') -> good (fst mx') -> good (snd mx') ->
  nle' N (fst mn) (fst mx) -> nle' N (snd mn) (snd mx) ->
  nle' N (fst mn') (fst mn) -> nle' N (snd mn') (snd mn) -> nle' N (fst mx) (fst mx') -> nle' N (snd mx) (snd mx') ->
  o mn mx = true -> o mn' mx' = true.
Hypothesis G : grows.
Let ov (nd : node) := o (nMin nd) (nMax nd).
(** Node j is a leaf that passes the test. *)
Definition hit (nodes : list node) (j : Z) : bool :=
  match get nodes j with Ok nd => (0 <=? nI nd) && ov nd | _ => false end.
Definition range (k e : Z) : list Z := map (fun i => k + i) (zseq (Z.to_nat (e - k))).
Lemma in_range : forall k e j, In j (range k e) <-> k <= j < e.
Proof.
  intros k e j. unfold range. rewrite in_map_iff. split.
  - intros (i & <- & I). apply in_zseq in I. lia.
  - intros H. exists (j - k). split; [lia|]. apply in_zseq. lia.
Qed.
Lemma range_split : forall k m e, k <= m <= e -> range k e = range k m ++ range m e.
Proof.
  intros k m e H. unfold range. replace (Z.to_nat (e - k)) with (Z.to_nat (m - k) + Z.to_nat (e - m))%nat by lia.
  rewrite zseq_app, map_app, map_map. f_equal. apply map_ext. intros i. lia.
Qed.
Lemma range_one : forall k, range k (k + 1) = [k].
Proof. intros k. unfold range. replace (k + 1 - k) with 1 by lia. change (zseq (Z.to_nat 1)) with [0]. cbn [map]. now rewrite Z.add_0_r. Qed.

Definition push (limit : Z) (st : Z * list Z) (j : Z) : res (Z * list Z) :=
  let '(n, ids) := st in if n <? limit then let* ids := set ids n j in Ok (n + 1, ids) else Ok (n, ids).

Lemma miss : forall t nodes k s l e, ChAt t nodes k s l e -> gpts good (concat l) -> forall mn mx, bbox N mn mx (concat l) -> o mn mx = false ->
  filter (hit nodes) (range k e) = [].
Proof.
  intros t nodes k s l e H Gp mn mx B Ho.
  assert (K : forall j, In j (range k e) -> hit nodes j = false).
  { intros j Hj. apply in_range in Hj. unfold hit. destruct (get nodes j) as [nd| | |] eqn:Gj; try reflexivity.
    destruct (ChAt_box N _ _ _ _ _ _ H j nd Hj Gj) as (l' & I & Bj).
    destruct (0 <=? nI nd); [|reflexivity]. cbn [andb]. unfold ov.
    destruct (o (nMin nd) (nMax nd)) eqn:Eo; [|reflexivity].
    assert (Gl : gpts good (concat l')) by (intros p Ip; apply Gp; now apply I).
    destruct (bbox_good N good mn mx _ Gp B) as (g1 & g2 & g3 & g4).
    destruct (bbox_good N good _ _ _ Gl Bj) as (h1 & h2 & h3 & h4).
    destruct B as [BI _]. destruct Bj as (CI & (p1 & P1 & E1) & (p2 & P2 & E2) & (p3 & P3 & E3) & (p4 & P4 & E4)).
    rewrite (G (nMin nd) (nMax nd) mn mx) in Ho; try assumption; try discriminate.
    - destruct (CI p2 P2) as (X & _). rewrite E2 in X. exact X.
    - destruct (CI p4 P4) as (_ & _ & X & _). rewrite E4 in X. exact X.
    - rewrite <- E1. apply (BI p1 (I _ P1)).
    - rewrite <- E3. apply (BI p3 (I _ P3)).
    - rewrite <- E2. apply (BI p2 (I _ P2)).
    - rewrite <- E4. apply (BI p4 (I _ P4)). }
  induction (range k e) as [|x r IH]; [reflexivity|]. cbn [filter]. rewrite (K x) by now left. apply IH. intros. apply K. now right.
Qed.

Lemma walk_tree : forall t nodes limit nn k s l e, ChAt t nodes k s l e -> gpts good (concat l) ->
  0 <= k -> e <= nn -> nn < 2 ^ 31 ->
  exists v, (Z.of_nat v <= e - k) /\ forall g n ids,
    walk ov limit nn nodes (v + g) k n ids =
    (let* (n, ids) := foldM (push limit) (filter (hit nodes) (range k e)) (n, ids) in walk ov limit nn nodes g e n ids).
Proof.
  intros t nodes limit nn. 
  induction 1 as [k s tl mn mx Gk S0 Z1 B|k s m e l r mn mx Gk A IA B IB Bx]; intros Gp K0 En Nb.
  - exists 1%nat. split; [lia|]. intros g n ids. cbn [Nat.add walk]. rewrite (proj2 (Z.ltb_lt k nn)) by lia.
    rewrite Gk. cbn [bind nI]. rewrite (proj2 (Z.leb_le 0 s)) by lia. rewrite orb_true_r. rewrite i32_id by (unfold is_i32; lia).
    rewrite range_one. cbn [filter]. unfold hit. rewrite Gk. cbn [nI]. rewrite (proj2 (Z.leb_le 0 s)) by lia. cbn [andb].
    destruct (ov {| nMin := mn; nMax := mx; nI := s; nN := zlen tl |}); [|reflexivity].
    cbn [foldM]. unfold push. destruct (n <? limit); [|reflexivity]. destruct (set ids n k); reflexivity.
  - pose proof (ChAt_lt N _ _ _ _ _ _ A) as L1. pose proof (ChAt_lt N _ _ _ _ _ _ B) as L2.
    rewrite concat_app in Gp.
    destruct (o mn mx) eqn:Eo.
    + destruct IA as (v1 & V1 & W1); [intros p I; apply Gp, in_or_app; now left|lia|lia|lia|].
      destruct IB as (v2 & V2 & W2); [intros p I; apply Gp, in_or_app; now right|lia|lia|lia|].
      exists (S (v1 + v2)). split; [lia|]. intros g n ids. cbn [Nat.add walk]. rewrite (proj2 (Z.ltb_lt k nn)) by lia.
      rewrite Gk. cbn [bind nI]. rewrite (proj2 (Z.leb_gt 0 (- (e - k)))) by lia. cbn [andb bind].
      change (ov {| nMin := mn; nMax := mx; nI := - (e - k); nN := 0 |}) with (o mn mx). rewrite Eo. cbn [orb]. rewrite i32_id by (unfold is_i32; lia).
      rewrite <- Nat.add_assoc, W1.
      rewrite (range_split k (k + 1) e) by lia. rewrite range_one, (range_split (k + 1) m e) by lia. rewrite !filter_app.
      assert (hit nodes k = false) as Hk by (unfold hit; rewrite Gk; cbn [nI]; rewrite (proj2 (Z.leb_gt 0 (- (e - k)))) by lia; reflexivity).
      cbn [filter]. rewrite Hk. cbn [app]. rewrite foldM_app.
      destruct (foldM (push limit) (filter (hit nodes) (range (k + 1) m)) (n, ids)) as [[n' ids']| | |]; cbn [bind]; try reflexivity.
      apply W2.
    + exists 1%nat. split; [lia|]. intros g n ids. cbn [Nat.add walk]. rewrite (proj2 (Z.ltb_lt k nn)) by lia.
      rewrite Gk. cbn [bind nI]. rewrite (proj2 (Z.leb_gt 0 (- (e - k)))) by lia. cbn [andb bind].
      change (ov {| nMin := mn; nMax := mx; nI := - (e - k); nN := 0 |}) with (o mn mx). rewrite Eo. cbn [orb].
      rewrite (i32_id (- - (e - k))) by (unfold is_i32; lia). replace (k + - - (e - k)) with e by lia. rewrite i32_id by (unfold is_i32; lia).
      rewrite (miss t nodes k s (l ++ r) e) with (mn := mn) (mx := mx); [reflexivity|eapply ChInner; eassumption|rewrite concat_app; exact Gp|exact Bx|exact Eo].
Qed.

Lemma push_all : forall limit L n ids, 0 <= n <= limit -> limit <= zlen ids ->
  foldM (push limit) L (n, ids) =
  Ok (n + zlen (firstn (Z.to_nat (limit - n)) L),
      firstn (Z.to_nat n) ids ++ firstn (Z.to_nat (limit - n)) L ++ skipn (Z.to_nat n + length (firstn (Z.to_nat (limit - n)) L)) ids).
Proof.
  intros limit. induction L as [|x L IH]; intros n ids Hn Hl.
  - rewrite firstn_nil. cbn [foldM length app]. rewrite Nat.add_0_r, firstn_skipn. rewrite zlen_nil, Z.add_0_r. reflexivity.
  - cbn [foldM push]. destruct (Z.ltb_spec n limit) as [H|H].
    + rewrite set_in_range by lia. cbn [bind]. rewrite IH by (rewrite ?zlen_upd; lia).
      replace (Z.to_nat (limit - n)) with (S (Z.to_nat (limit - (n + 1)))) by lia. cbn [firstn].
      set (L' := firstn (Z.to_nat (limit - (n + 1))) L). rewrite zlen_cons.
      replace (n + 1 + zlen L') with (n + (1 + zlen L')) by lia. do 2 f_equal.
      replace (Z.to_nat (n + 1)) with (S (Z.to_nat n)) by lia.
      assert (Hn' : (Z.to_nat n < length ids)%nat) by (unfold zlen in Hl; lia).
      rewrite (firstn_snoc _ (Z.to_nat n) x) by (apply nth_error_upd_eq; exact Hn').
      rewrite firstn_upd_ge by lia. rewrite <- app_assoc. cbn [app length]. do 3 f_equal.
      replace (S (Z.to_nat n) + length L')%nat with (Z.to_nat n + S (length L'))%nat by lia.
      generalize (length L') as q. intros q. clear - Hn'. revert Hn'. generalize (Z.to_nat n) as a. revert ids.
      induction ids as [|y ids IHi]; intros a Ha; [cbn in Ha; lia|]. destruct a as [|a]; cbn [Nat.add upd skipn].
      * reflexivity.
      * apply IHi. cbn in Ha. lia.
    + replace (limit - n) with 0 by lia. cbn [Z.to_nat firstn bind]. rewrite IH by lia.
      replace (limit - n) with 0 by lia. reflexivity.
Qed.

Theorem walk_spec : forall t nodes limit nn l ids, ChAt t nodes 0 0 l nn -> gpts good (concat l) -> nn <= zlen nodes < 2 ^ 31 ->
  0 <= limit <= zlen ids ->
  let L := firstn (Z.to_nat limit) (filter (hit nodes) (zseq (Z.to_nat nn))) in
  walk ov limit nn nodes (S (length nodes)) 0 0 ids = Ok (zlen L, L ++ skipn (length L) ids).
Proof.
  intros t nodes limit nn l ids H Gp Nn Hl. cbv zeta.
  destruct (walk_tree t nodes limit nn 0 0 l nn H Gp) as (v & Hv & W); [lia|lia|lia|].
  replace (S (length nodes)) with (v + S (length nodes - v))%nat by (unfold zlen in Nn; lia). rewrite W.
  replace (range 0 nn) with (zseq (Z.to_nat nn)) by (unfold range; rewrite Z.sub_0_r; symmetry; apply map_id).
  rewrite push_all by lia. cbn [bind walk]. rewrite (proj2 (Z.ltb_ge nn nn)) by lia. rewrite Z.sub_0_r. reflexivity.
Qed.
End Walk.
