From Coq Require Import ZArith List Bool Lia.
From Verif.Base Require Import Res GoNum Bits Grid Bytes.
From Verif.Model Require Import PolyMeshOps.
From Verif.Spec Require Import AreaSpec MeshOpsSpec.
From Verif.Proofs Require Import TriangulateProofs.
Import ListNotations.
Open Scope Z_scope.

(** * Cyclic indices *)
Lemma cyc_add : forall l i k, l <> [] -> cyc l (i + k * zlen l) = cyc l i.
Proof.
  intros l i k H. unfold cyc. fold (zlen l). rewrite Z_mod_plus_full. reflexivity.
Qed.
Lemma cyc_mod : forall l i, cyc l (i mod zlen l) = cyc l i.
Proof. intros. unfold cyc. fold (zlen l). rewrite Zmod_mod. reflexivity. Qed.
Lemma cyc_small : forall l i, 0 <= i < zlen l -> cyc l i = nth (Z.to_nat i) l 0.
Proof. intros. unfold cyc. fold (zlen l). now rewrite Z.mod_small. Qed.
Lemma cyc_get : forall l p i, 0 < zlen l -> get (l ++ p) (i mod zlen l) = Ok (cyc l i).
Proof.
  intros l p i H. pose proof (Z.mod_pos_bound i (zlen l) H) as M. apply get_ok. split; [lia|].
  unfold zlen in *. rewrite nth_error_app1 by lia. unfold cyc. apply nth_error_nth'. lia.
Qed.
Lemma cyc_in : forall l i, 0 < zlen l -> In (cyc l i) l.
Proof.
  intros l i H. pose proof (Z.mod_pos_bound i (zlen l) H) as M. unfold cyc. fold (zlen l). apply nth_In. unfold zlen in *. lia.
Qed.
Lemma in_cyc : forall l x, In x l -> exists i, 0 <= i < zlen l /\ cyc l i = x.
Proof.
  intros l x H. apply (In_nth _ _ 0) in H. destruct H as (n & Hn & E). exists (Z.of_nat n).
  split; [unfold zlen; lia|]. rewrite cyc_small by (unfold zlen; lia). now rewrite Nat2Z.id.
Qed.
Lemma nth_error_zseq : forall n k, (k < n)%nat -> nth_error (zseq n) k = Some (Z.of_nat k).
Proof.
  intros n k H. unfold zseq. rewrite nth_error_map, (nth_error_nth' _ 0%nat) by (now rewrite seq_length).
  now rewrite seq_nth.
Qed.
Lemma rot_cyc : forall l e, 0 < zlen l -> exists u v, l = u ++ v /\ map (fun i => cyc l (e + i)) (zseq (length l)) = v ++ u.
Proof.
  intros l e H. set (k := Z.to_nat (e mod zlen l)). pose proof (Z.mod_pos_bound e (zlen l) H) as M.
  assert (k < length l)%nat as K by (unfold k, zlen in *; lia).
  exists (firstn k l), (skipn k l). split; [symmetry; apply firstn_skipn|].
  apply list_eq_nth. intros i. rewrite nth_error_map.
  destruct (Nat.lt_ge_cases i (length l)) as [I|I].
  - rewrite nth_error_zseq by assumption. cbn [option_map].
    rewrite <- (cyc_mod l (e + Z.of_nat i)). rewrite <- Zplus_mod_idemp_l. replace (e mod zlen l) with (Z.of_nat k) by (unfold k; lia).
    destruct (Nat.lt_ge_cases i (length l - k)) as [J|J].
    + rewrite nth_error_app1 by (rewrite skipn_length; lia). rewrite nth_error_skipn'.
      rewrite Z.mod_small by (unfold zlen; lia). rewrite cyc_small by (unfold zlen; lia).
      replace (Z.to_nat (Z.of_nat k + Z.of_nat i)) with (k + i)%nat by lia. symmetry. apply nth_error_nth'. lia.
    + rewrite nth_error_app2 by (rewrite skipn_length; lia). rewrite skipn_length, nth_error_firstn_lt by lia.
      replace (Z.of_nat k + Z.of_nat i) with ((Z.of_nat k + Z.of_nat i - zlen l) + 1 * zlen l) by lia.
      rewrite Z_mod_plus_full, Z.mod_small by (unfold zlen; lia). rewrite cyc_small by (unfold zlen; lia).
      replace (Z.to_nat (Z.of_nat k + Z.of_nat i - zlen l)) with (i - (length l - k))%nat by (unfold zlen; lia).
      symmetry. apply nth_error_nth'. lia.
  - replace (nth_error (zseq (length l)) i) with (@None Z) by (symmetry; apply nth_error_None; rewrite zseq_length; lia).
    symmetry. apply nth_error_None. rewrite app_length, skipn_length, firstn_length. lia.
Qed.
Lemma area_cyc : forall (pos : Z -> Z * Z) l e, 0 < zlen l -> area (map pos (map (fun i => cyc l (e + i)) (zseq (length l)))) = area (map pos l).
Proof. intros pos l e H. destruct (rot_cyc l e H) as (u & v & E & R). rewrite R, E, !map_app. apply area_rot. Qed.

(** * Area of a merged polygon *)
Lemma chain_join : forall l p m, chain (l ++ p :: m) = chain (l ++ [p]) + chain (p :: m).
Proof.
  induction l as [|x l IH]; intros p m; [cbn [app]; change (chain [p]) with 0; lia|].
  destruct l as [|y l].
  - cbn [app]. rewrite !chain_cons2. change (chain [p]) with 0. lia.
  - specialize (IH p m). cbn [app] in *. rewrite !chain_cons2. lia.
Qed.
Lemma area_chain : forall x l, area (x :: l) = chain ((x :: l) ++ [x]).
Proof. intros. rewrite area_cons, (chain_snoc l x x x). reflexivity. Qed.
Lemma area_merge : forall x y P Q, area ((y :: P) ++ (x :: Q)) = area ((y :: P) ++ [x]) + area ((x :: Q) ++ [y]).
Proof.
  intros x y P Q. cbn [app]. rewrite !area_chain. cbn [app].
  rewrite <- !app_assoc. cbn [app].
  pose proof (chain_join (y :: P) x (Q ++ [y])) as J1. pose proof (chain_join (y :: P) x [y]) as J2.
  pose proof (chain_join (x :: Q) y [x]) as J3. cbn [app] in J1, J2, J3. rewrite J1, J2, J3, !chain_cons2.
  change (chain [y]) with 0. change (chain [x]) with 0. rewrite (cross_anti x y). lia.
Qed.

(** * The model *)
Lemma padded_get : forall nvp l p i, padded nvp l p -> 0 <= i < nvp -> zlen l <= nvp ->
  get p i = Ok (if i <? zlen l then nth (Z.to_nat i) l 0 else 65535).
Proof.
  intros nvp l p i (Hl & Hn & ->) Hi Hz. apply get_ok. split; [lia|]. unfold zlen in *.
  destruct (Z.ltb_spec i (Z.of_nat (length l))).
  - rewrite nth_error_app1 by lia. apply nth_error_nth'. lia.
  - rewrite nth_error_app2 by lia. rewrite (nth_error_nth' _ 65535) by (rewrite repeat_length; lia). now rewrite nth_repeat.
Qed.
Lemma polyVerts_ok : forall nvp l p, 0 <= nvp -> padded nvp l p -> polyVerts p nvp = Ok (zlen l).
Proof.
  intros nvp l p H0 Hp. pose proof Hp as (Hl & Hn & _). unfold polyVerts.
  assert (forall k i, Z.of_nat k + i = nvp -> 0 <= i <= zlen l -> countPolyVerts p k i = Ok (zlen l)) as G.
  { induction k as [|k IH]; intros i E Hi; cbn [countPolyVerts].
    - f_equal. unfold zlen in *. lia.
    - rewrite (padded_get nvp l p i Hp) by (unfold zlen in *; lia). cbn [bind]. unfold meshNullIdx.
      destruct (Z.ltb_spec i (zlen l)) as [L|L].
      + destruct (Z.eqb_spec (nth (Z.to_nat i) l 0) 65535) as [E2|_].
        * exfalso. apply Hn. rewrite <- E2. apply nth_In. unfold zlen in *. lia.
        * apply IH; lia.
      + rewrite Z.eqb_refl. f_equal. lia. }
  apply G; unfold zlen in *; lia.
Qed.
Lemma skipn_cons' : forall {A} n (l : list A), (n < length l)%nat -> exists x, skipn n l = x :: skipn (S n) l.
Proof.
  induction n as [|n IH]; intros [|x l] H; cbn [length] in H; try lia; [exists x; reflexivity|].
  destruct (IH l) as [y E]; [lia|]. exists y. exact E.
Qed.
Lemma fill_ok : forall tmp k, (k <= length tmp)%nat ->
  foldM (fun tmp i => set tmp i 65535) (zseq k) tmp = Ok (repeat 65535 k ++ skipn k tmp).
Proof.
  intros tmp k. induction k as [|k IH]; intros H; [reflexivity|].
  rewrite zseq_S, foldM_app, IH by lia. cbn [bind foldM].
  destruct (skipn_cons' k tmp) as [x E]; [lia|]. rewrite E.
  rewrite set_in_range by (unfold zlen; rewrite app_length, repeat_length; cbn [length]; rewrite skipn_length; lia).
  cbn [bind]. f_equal. rewrite Nat2Z.id.
  replace (upd (repeat 65535 k ++ x :: skipn (S k) tmp) k 65535) with
    (upd (repeat 65535 k ++ x :: skipn (S k) tmp) (length (repeat 65535 k)) 65535) by now rewrite repeat_length.
  rewrite upd_app_length. replace (S k) with (k + 1)%nat at 2 by lia. rewrite repeat_app, <- app_assoc. reflexivity.
Qed.
Lemma addVerts_ok : forall l pad e tmp n k, 0 < zlen l -> (n + k <= length tmp)%nat ->
  addVerts (l ++ pad) e (zlen l) (Z.of_nat k) (tmp, Z.of_nat n) =
  Ok (firstn n tmp ++ map (fun i => cyc l (e + 1 + i)) (zseq k) ++ skipn (n + k) tmp, Z.of_nat (n + k)).
Proof.
  intros l pad e tmp n k Hl. unfold addVerts. rewrite Nat2Z.id. induction k as [|k IH]; intros H.
  - cbn [zseq seq map foldM app]. rewrite Nat.add_0_r, firstn_skipn. reflexivity.
  - rewrite zseq_S, foldM_app, IH by lia. cbn [bind foldM]. rewrite cyc_get by assumption. cbn [bind].
    destruct (skipn_cons' (n + k) tmp) as [x E]; [lia|]. rewrite E.
    rewrite app_assoc. set (A := firstn n tmp ++ map (fun i => cyc l (e + 1 + i)) (zseq k)).
    assert (length A = n + k)%nat as LA by (unfold A; rewrite app_length, firstn_length, map_length, zseq_length; lia).
    rewrite set_in_range by (unfold zlen; rewrite app_length, LA; cbn [length]; lia). cbn [bind].
    f_equal. f_equal; [|lia]. rewrite Nat2Z.id.
    pose proof (upd_app_length A (skipn (S (n + k)) tmp) (cyc l (e + 1 + Z.of_nat k)) x) as U. rewrite LA in U. rewrite U.
    unfold A. rewrite map_app, <- !app_assoc. cbn [map app]. replace (n + S k)%nat with (S (n + k)) by lia. reflexivity.
Qed.

Lemma merge_ok : forall pa pb la lb ea eb tmp nvp,
  padded nvp la pa -> padded nvp lb pb -> 2 <= zlen la -> 2 <= zlen lb -> zlen la + zlen lb - 2 <= nvp -> nvp <= zlen tmp ->
  exists pa' tmp' m, mergePolyVerts pa pb ea eb tmp nvp = Ok (pa', tmp') /\ padded nvp m pa' /\
    m = map (fun i => cyc la (ea + 1 + i)) (zseq (length la - 1)) ++ map (fun i => cyc lb (eb + 1 + i)) (zseq (length lb - 1)).
Proof.
  intros pa pb la lb ea eb tmp nvp Ha Hb La Lb Hf Ht. unfold mergePolyVerts.
  rewrite (polyVerts_ok nvp la pa) by (auto; lia). cbn [bind]. rewrite (polyVerts_ok nvp lb pb) by (auto; lia). cbn [bind].
  rewrite fill_ok by (unfold zlen in *; lia). cbn [bind].
  set (T := repeat 65535 (Z.to_nat nvp) ++ skipn (Z.to_nat nvp) tmp).
  assert (length T = length tmp) as LT by (unfold T; rewrite app_length, repeat_length, skipn_length; unfold zlen in *; lia).
  destruct Ha as (Hla & Hna & ->), Hb as (Hlb & Hnb & ->).
  replace (zlen la - 1) with (Z.of_nat (length la - 1)) by (unfold zlen in *; lia).
  change (T, 0) with (T, Z.of_nat 0). rewrite addVerts_ok by (unfold zlen in *; lia). cbn [bind firstn app Nat.add].
  replace (zlen lb - 1) with (Z.of_nat (length lb - 1)) by (unfold zlen in *; lia).
  rewrite addVerts_ok by (try rewrite app_length, map_length, zseq_length, skipn_length; unfold zlen in *; lia). cbn [bind].
  set (A := map (fun i => cyc la (ea + 1 + i)) (zseq (length la - 1))).
  set (B := map (fun i => cyc lb (eb + 1 + i)) (zseq (length lb - 1))).
  assert (length A = length la - 1)%nat as LA by (unfold A; now rewrite map_length, zseq_length).
  assert (length B = length lb - 1)%nat as LB by (unfold B; now rewrite map_length, zseq_length).
  cbn [fst]. rewrite firstn_app, (firstn_all2 A) by lia. rewrite LA, Nat.sub_diag. cbn [firstn]. rewrite app_nil_r.
  rewrite skipn_app, LA. rewrite (skipn_all2 A) by lia. cbn [app].
  replace (length la - 1 + (length lb - 1) - (length la - 1))%nat with (length lb - 1)%nat by lia.
  rewrite Bytes.skipn_skipn. unfold slice.
  assert (zlen (A ++ B ++ skipn (length lb - 1 + (length la - 1)) T) = zlen tmp) as LL.
  { unfold zlen. rewrite !app_length, skipn_length, LA, LB, LT. unfold zlen in *. lia. }
  rewrite LL. destruct (Z.leb_spec 0 0); [|lia]. destruct (Z.leb_spec 0 nvp); [|lia]. destruct (Z.leb_spec nvp (zlen tmp)); [|lia].
  cbn [andb bind]. eexists _, _, (A ++ B). split; [reflexivity|]. split; [|reflexivity].
  rewrite Z.sub_0_r. cbn [Z.to_nat skipn].
  assert (length (A ++ B) = length la - 1 + (length lb - 1))%nat as LAB by (rewrite app_length; lia).
  split; [unfold zlen in *; lia|]. split.
  - intros F. apply in_app_iff in F. destruct F as [F|F]; apply in_map_iff in F; destruct F as (i & F & _).
    + apply Hna. rewrite <- F. apply cyc_in. lia.
    + apply Hnb. rewrite <- F. apply cyc_in. lia.
  - rewrite app_assoc, firstn_app, firstn_all2 by (unfold zlen in *; lia). f_equal. rewrite LAB.
    unfold T. rewrite skipn_app, repeat_length.
    replace (length lb - 1 + (length la - 1) - Z.to_nat nvp)%nat with 0%nat by (unfold zlen in *; lia). cbn [skipn].
    replace (Z.to_nat nvp) with ((length lb - 1 + (length la - 1)) + (Z.to_nat nvp - (length la - 1 + (length lb - 1))))%nat at 2 by (unfold zlen in *; lia).
    rewrite repeat_app, skipn_app, repeat_length, skipn_all2 by (rewrite repeat_length; lia). rewrite Nat.sub_diag. cbn [skipn app].
    rewrite firstn_app, firstn_all2 by (rewrite repeat_length; lia). rewrite repeat_length, Nat.sub_diag. cbn [firstn]. now rewrite app_nil_r.
Qed.

Definition merged (la lb : list Z) (ea eb : Z) : list Z :=
  map (fun i => cyc la (ea + 1 + i)) (zseq (length la - 1)) ++ map (fun i => cyc lb (eb + 1 + i)) (zseq (length lb - 1)).
Definition opposite (la lb : list Z) (ea eb : Z) : Prop := cyc la ea = cyc lb (eb + 1) /\ cyc la (ea + 1) = cyc lb eb.

Section Merged.
  Variables (la lb : list Z) (ea eb : Z).
  Hypothesis La : 2 <= zlen la.
  Hypothesis Lb : 2 <= zlen lb.
  Hypothesis Hopp : opposite la lb ea eb.
  Let m := merged la lb ea eb.

  Lemma merged_length : zlen m = zlen la + zlen lb - 2.
  Proof. unfold m, merged, zlen in *. rewrite app_length, !map_length, !zseq_length. lia. Qed.

  Lemma zseq_cons : forall n, exists t, zseq (S n) = 0 :: t.
  Proof. intros. unfold zseq. cbn [seq map]. eauto. Qed.
  Lemma merged_area : forall pos : Z -> Z * Z, area (map pos m) = area (map pos la) + area (map pos lb).
  Proof.
    intros pos. rewrite <- (area_cyc pos la (ea + 1)), <- (area_cyc pos lb (eb + 1)) by lia.
    assert (zseq (length la) = zseq (length la - 1) ++ [Z.of_nat (length la - 1)]) as Ea by (rewrite <- zseq_S; f_equal; unfold zlen in *; lia).
    assert (zseq (length lb) = zseq (length lb - 1) ++ [Z.of_nat (length lb - 1)]) as Eb by (rewrite <- zseq_S; f_equal; unfold zlen in *; lia).
    rewrite Ea, Eb, !map_app. cbn [map]. unfold m, merged. rewrite map_app.
    replace (cyc la (ea + 1 + Z.of_nat (length la - 1))) with (cyc lb (eb + 1)).
    2:{ destruct Hopp as [<- _]. replace (ea + 1 + Z.of_nat (length la - 1)) with (ea + 1 * zlen la) by (unfold zlen in *; lia).
        symmetry. apply cyc_add. intros F. rewrite F in La. unfold zlen in La. cbn in La. lia. }
    replace (cyc lb (eb + 1 + Z.of_nat (length lb - 1))) with (cyc la (ea + 1)).
    2:{ destruct Hopp as [_ ->]. replace (eb + 1 + Z.of_nat (length lb - 1)) with (eb + 1 * zlen lb) by (unfold zlen in *; lia).
        symmetry. apply cyc_add. intros F. rewrite F in Lb. unfold zlen in Lb. cbn in Lb. lia. }
    destruct (zseq_cons (length la - 2)) as [ta Eta]. destruct (zseq_cons (length lb - 2)) as [tb Etb].
    replace (length la - 1)%nat with (S (length la - 2)) by (unfold zlen in *; lia).
    replace (length lb - 1)%nat with (S (length lb - 2)) by (unfold zlen in *; lia).
    rewrite Eta, Etb. cbn [map]. rewrite !Z.add_0_r. apply area_merge.
  Qed.

  Lemma merged_fst : forall i, 0 <= i <= zlen la - 1 -> cyc m i = cyc la (ea + 1 + i).
  Proof.
    intros i Hi. pose proof merged_length as Lm.
    destruct (Z.eq_dec i (zlen la - 1)) as [->|N].
    - replace (ea + 1 + (zlen la - 1)) with (ea + 1 * zlen la) by lia.
      rewrite cyc_add by (intros F; rewrite F in La; unfold zlen in La; cbn in La; lia).
      destruct Hopp as [-> _]. rewrite cyc_small by lia. unfold m, merged.
      rewrite app_nth2 by (rewrite map_length, zseq_length; unfold zlen; lia).
      rewrite map_length, zseq_length. replace (Z.to_nat (zlen la - 1) - (length la - 1))%nat with 0%nat by (unfold zlen; lia).
      destruct (zseq_cons (length lb - 2)) as [tb Etb].
      replace (length lb - 1)%nat with (S (length lb - 2)) by (unfold zlen in *; lia). rewrite Etb. cbn [map nth].
      now rewrite Z.add_0_r.
    - rewrite cyc_small by lia. unfold m, merged.
      rewrite app_nth1 by (rewrite map_length, zseq_length; unfold zlen in *; lia).
      apply nth_error_nth. rewrite nth_error_map, nth_error_zseq by (unfold zlen in *; lia). cbn [option_map]. do 2 f_equal. lia.
  Qed.
  Lemma merged_snd : forall i, zlen la - 1 <= i <= zlen la + zlen lb - 2 -> cyc m i = cyc lb (eb + 1 + (i - (zlen la - 1))).
  Proof.
    intros i Hi. pose proof merged_length as Lm.
    destruct (Z.eq_dec i (zlen la + zlen lb - 2)) as [->|N].
    - replace (eb + 1 + (zlen la + zlen lb - 2 - (zlen la - 1))) with (eb + 1 * zlen lb) by lia.
      rewrite cyc_add by (intros F; rewrite F in Lb; unfold zlen in Lb; cbn in Lb; lia).
      replace (zlen la + zlen lb - 2) with (0 + 1 * zlen m) by lia. rewrite cyc_add by (intros F; rewrite F in Lm; unfold zlen in *; cbn in Lm; lia).
      rewrite merged_fst by lia. rewrite Z.add_0_r. apply Hopp.
    - rewrite cyc_small by lia. unfold m, merged.
      rewrite app_nth2 by (rewrite map_length, zseq_length; unfold zlen in *; lia).
      rewrite map_length, zseq_length. apply nth_error_nth. rewrite nth_error_map, nth_error_zseq by (unfold zlen in *; lia).
      cbn [option_map]. do 2 f_equal. unfold zlen in *. lia.
  Qed.
  Lemma merged_incl : incl m (la ++ lb) /\ incl (la ++ lb) m.
  Proof.
    split; intros x Hx.
    - unfold m, merged in Hx. apply in_app_iff in Hx. apply in_app_iff.
      destruct Hx as [Hx|Hx]; apply in_map_iff in Hx; destruct Hx as (i & <- & _); [left|right]; apply cyc_in; lia.
    - pose proof merged_length as Lm. apply in_app_iff in Hx. destruct Hx as [Hx|Hx]; apply in_cyc in Hx; destruct Hx as (i & Hi & <-).
      + replace (cyc la i) with (cyc m ((i - ea - 1) mod zlen la)); [apply cyc_in; lia|].
        pose proof (Z.mod_pos_bound (i - ea - 1) (zlen la) ltac:(lia)). rewrite merged_fst by lia.
        rewrite <- cyc_mod, Z.add_mod_idemp_r by lia. rewrite cyc_mod. f_equal. lia.
      + replace (cyc lb i) with (cyc m ((i - eb - 1) mod zlen lb + (zlen la - 1))); [apply cyc_in; lia|].
        pose proof (Z.mod_pos_bound (i - eb - 1) (zlen lb) ltac:(lia)). rewrite merged_snd by lia.
        replace (eb + 1 + ((i - eb - 1) mod zlen lb + (zlen la - 1) - (zlen la - 1))) with (eb + 1 + (i - eb - 1) mod zlen lb) by lia.
        rewrite <- cyc_mod, Z.add_mod_idemp_r by lia. rewrite cyc_mod. f_equal. lia.
  Qed.
  Definition lefts (a b c : Z * Z) : Prop :=
    (fst b - fst a) * (snd c - snd a) - (fst c - fst a) * (snd b - snd a) < 0.
  Lemma merged_left : forall pos, 3 <= zlen la -> 3 <= zlen lb ->
    turns_left pos la -> turns_left pos lb ->
    lefts (pos (cyc la (ea - 1))) (pos (cyc la ea)) (pos (cyc lb (eb + 2))) ->
    lefts (pos (cyc lb (eb - 1))) (pos (cyc lb eb)) (pos (cyc la (ea + 2))) ->
    turns_left pos m.
  Proof.
    intros pos La3 Lb3 Ta Tb C1 C2 i0. pose proof merged_length as Lm. set (N := zlen m) in *.
    assert (forall k, cyc m (i0 + k) = cyc m (i0 mod N + k)) as R.
    { intros k. rewrite <- cyc_mod. fold N. rewrite <- Zplus_mod_idemp_l. unfold N. apply cyc_mod. }
    pose proof (Z.mod_pos_bound i0 N ltac:(lia)) as Hi. set (i := i0 mod N) in *.
    pose proof (R 0) as R0. rewrite !Z.add_0_r in R0. rewrite R0, (R 1), (R 2). clear R R0.
    assert (i + 2 <= zlen la - 1 \/ i = zlen la - 2 \/ zlen la - 1 <= i <= N - 2 \/ i = N - 1) as [C|[C|[C|C]]] by lia.
    - rewrite !merged_fst by lia. specialize (Ta (ea + 1 + i)). cbv zeta in *.
      replace (ea + 1 + (i + 1)) with (ea + 1 + i + 1) by lia. replace (ea + 1 + (i + 2)) with (ea + 1 + i + 2) by lia. exact Ta.
    - rewrite (merged_fst i), (merged_fst (i + 1)), (merged_snd (i + 2)) by lia. unfold lefts in C1. cbv zeta.
      replace (ea + 1 + i) with ((ea - 1) + 1 * zlen la) by lia. replace (ea + 1 + (i + 1)) with (ea + 1 * zlen la) by lia.
      rewrite !cyc_add by (intros F; rewrite F in La; unfold zlen in La; cbn in La; lia).
      replace (eb + 1 + (i + 2 - (zlen la - 1))) with (eb + 2) by lia. exact C1.
    - rewrite !merged_snd by lia. specialize (Tb (eb + 1 + (i - (zlen la - 1)))). cbv zeta in *.
      replace (eb + 1 + (i + 1 - (zlen la - 1))) with (eb + 1 + (i - (zlen la - 1)) + 1) by lia.
      replace (eb + 1 + (i + 2 - (zlen la - 1))) with (eb + 1 + (i - (zlen la - 1)) + 2) by lia. exact Tb.
    - rewrite (merged_snd i), (merged_snd (i + 1)) by lia. unfold lefts in C2. cbv zeta.
      replace (i + 2) with (1 + 1 * N) by lia. unfold N. rewrite (cyc_add m) by (intros F; fold N in Lm; unfold N in Lm; rewrite F in Lm; unfold zlen in *; cbn in Lm; lia).
      rewrite merged_fst by lia.
      replace (eb + 1 + (i - (zlen la - 1))) with ((eb - 1) + 1 * zlen lb) by lia. replace (eb + 1 + (i + 1 - (zlen la - 1))) with (eb + 1 * zlen lb) by lia.
      rewrite !(cyc_add lb) by (intros F; rewrite F in Lb; unfold zlen in Lb; cbn in Lb; lia).
      replace (ea + 1 + 1) with (ea + 2) by lia. exact C2.
  Qed.
End Merged.

(** * The merge value *)
Lemma sorted2_eq : forall a b c d, sorted2 a b = sorted2 c d -> (a = c /\ b = d) \/ (a = d /\ b = c).
Proof.
  intros a b c d. unfold sorted2. rewrite !Z.gtb_ltb. destruct (Z.ltb_spec b a), (Z.ltb_spec d c); intros E; inversion E; subst; auto; lia.
Qed.
Definition shared (la lb : list Z) (ea eb : Z) : Prop :=
  (cyc la ea = cyc lb eb /\ cyc la (ea + 1) = cyc lb (eb + 1)) \/ opposite la lb ea eb.
Lemma get_pad : forall l pad i, 0 <= i < zlen l -> get (l ++ pad) i = Ok (cyc l i).
Proof. intros l pad i H. rewrite <- (Z.mod_small i (zlen l)) at 1 by lia. apply cyc_get. lia. Qed.
Lemma matchEdge_ok : forall lb pad va js, 0 < zlen lb -> (forall j, In j js -> 0 <= j < zlen lb) ->
  exists r, matchEdge (lb ++ pad) (zlen lb) va js = Ok r /\
    match r with Some j => In j js /\ va = sorted2 (cyc lb j) (cyc lb (j + 1)) | None => True end.
Proof.
  intros lb pad va js Hl. induction js as [|j js IH]; intros H; cbn [matchEdge]; [exists None; auto|].
  rewrite get_pad by (apply H; now left). cbn [bind]. rewrite cyc_get by assumption. cbn [bind].
  set (s := sorted2 (cyc lb j) (cyc lb (j + 1))).
  destruct (Z.eqb_spec (fst va) (fst s)); cbn [andb]; [destruct (Z.eqb_spec (snd va) (snd s))|].
  - exists (Some j). split; [reflexivity|]. split; [now left|]. fold s. clearbody s. destruct va, s; cbn [fst snd] in *; congruence.
  - destruct IH as (r & E & G); [intros; apply H; now right|]. exists r. split; [exact E|]. destruct r; [|exact I]. destruct G. split; [now right|assumption].
  - destruct IH as (r & E & G); [intros; apply H; now right|]. exists r. split; [exact E|]. destruct r; [|exact I]. destruct G. split; [now right|assumption].
Qed.
Lemma commonEdge_ok : forall la lb pada padb, 0 < zlen la -> 0 < zlen lb ->
  exists ea eb, commonEdge (la ++ pada) (lb ++ padb) (zlen la) (zlen lb) = Ok (ea, eb) /\
    ((ea = -1 /\ eb = -1) \/ (0 <= ea < zlen la /\ 0 <= eb < zlen lb /\ shared la lb ea eb)).
Proof.
  intros la lb pada padb Hla Hlb. unfold commonEdge.
  destruct (foldM_inv (fun e i =>
    let* a0 := get (la ++ pada) i in
    let* a1 := get (la ++ pada) ((i + 1) mod zlen la) in
    let* m := matchEdge (lb ++ padb) (zlen lb) (sorted2 a0 a1) (zseq (Z.to_nat (zlen lb))) in
    match m with Some j => Ok (i, j) | None => Ok e end)
    (fun _ e => (fst e = -1 /\ snd e = -1) \/ (0 <= fst e < zlen la /\ 0 <= snd e < zlen lb /\ shared la lb (fst e) (snd e)))
    (zseq (Z.to_nat (zlen la))) (-1, -1)) as ([ea eb] & E & H).
  - left. auto.
  - intros pre i post e El He.
    assert (0 <= i < zlen la) as Hi.
    { assert (In i (zseq (Z.to_nat (zlen la)))) as G by (rewrite El; apply in_or_app; right; now left). apply in_zseq in G. lia. }
    rewrite get_pad by assumption. cbn [bind]. rewrite cyc_get by assumption. cbn [bind].
    destruct (matchEdge_ok lb padb (sorted2 (cyc la i) (cyc la (i + 1))) (zseq (Z.to_nat (zlen lb))) Hlb) as (r & Er & Hr).
    { intros j Hj. apply in_zseq in Hj. lia. }
    rewrite Er. cbn [bind]. destruct r as [j|]; [|eauto].
    eexists. split; [reflexivity|]. right. cbn [fst snd]. destruct Hr as [Hj Hs]. apply in_zseq in Hj.
    split; [assumption|]. split; [lia|]. apply sorted2_eq in Hs. unfold shared, opposite. tauto.
  - exists ea, eb. split; [exact E|]. exact H.
Qed.

Definition ok_vert (verts : list Z) (v : Z) : Prop := 0 <= v <= 21845 /\ v * 3 + 2 < zlen verts.
Lemma corner_ok : forall verts v, ok_vert verts v -> corner verts v = Ok (at_xz verts v).
Proof.
  intros verts v [H1 H2]. unfold corner. rewrite u16_id by (unfold is_u16; lia).
  assert (forall k, 0 <= k < zlen verts -> get verts k = Ok (nth (Z.to_nat k) verts 0)) as G.
  { intros k Hk. apply get_ok. split; [lia|]. apply nth_error_nth'. unfold zlen in Hk. lia. }
  rewrite !G by lia. reflexivity.
Qed.
Definition small_verts (verts : list Z) : Prop := Forall (fun x => 0 <= x <= 32767) verts.
Lemma small_at : forall verts v, small_verts verts -> 0 <= fst (at_xz verts v) <= 32767 /\ 0 <= snd (at_xz verts v) <= 32767.
Proof.
  intros verts v H. unfold at_xz. cbn [fst snd].
  assert (forall n, 0 <= nth n verts 0 <= 32767) as G.
  { intros n. destruct (nth_in_or_default n verts 0) as [I| ->]; [|lia]. unfold small_verts in H. rewrite Forall_forall in H. auto. }
  auto.
Qed.
Lemma uleft_exact : forall a b c, (0 <= fst a <= 32767 /\ 0 <= snd a <= 32767) -> (0 <= fst b <= 32767 /\ 0 <= snd b <= 32767) ->
  (0 <= fst c <= 32767 /\ 0 <= snd c <= 32767) -> uleft a b c = true <-> lefts a b c.
Proof.
  intros [ax az] [bx bz] [cx cz]. cbn [fst snd]. intros A B C. unfold uleft, lefts. cbn [fst snd].
  assert (is_i32 ((bx - ax) * (cz - az))) by (unfold is_i32; nia).
  assert (is_i32 ((cx - ax) * (bz - az))) by (unfold is_i32; nia).
  rewrite (i32_id ((bx - ax) * _)), (i32_id ((cx - ax) * _)) by assumption.
  rewrite i32_id by (unfold is_i32; nia). apply Z.ltb_lt.
Qed.

Lemma mergeValue_ok : forall pa pb la lb verts nvp,
  padded nvp la pa -> padded nvp lb pb -> 2 <= zlen la <= nvp -> 2 <= zlen lb <= nvp ->
  Forall (ok_vert verts) la -> Forall (ok_vert verts) lb ->
  exists v ea eb, getPolyMergeValue pa pb verts nvp = Ok (v, ea, eb) /\
    (v <> -1 -> zlen la + zlen lb - 2 <= nvp /\ 0 <= ea < zlen la /\ 0 <= eb < zlen lb /\ shared la lb ea eb /\
      uleft (at_xz verts (cyc la (ea - 1))) (at_xz verts (cyc la ea)) (at_xz verts (cyc lb (eb + 2))) = true /\
      uleft (at_xz verts (cyc lb (eb - 1))) (at_xz verts (cyc lb eb)) (at_xz verts (cyc la (ea + 2))) = true).
Proof.
  intros pa pb la lb verts nvp Ha Hb La Lb Va Vb. unfold getPolyMergeValue.
  rewrite (polyVerts_ok nvp la pa) by (auto; lia). cbn [bind]. rewrite (polyVerts_ok nvp lb pb) by (auto; lia). cbn [bind].
  destruct Ha as (_ & _ & ->), Hb as (_ & _ & ->).
  rewrite Z.gtb_ltb. destruct (Z.ltb_spec nvp (zlen la + zlen lb - 2)).
  { eexists _, _, _. split; [reflexivity|]. congruence. }
  destruct (commonEdge_ok la lb (repeat 65535 (Z.to_nat nvp - length la)) (repeat 65535 (Z.to_nat nvp - length lb))) as (ea & eb & E & Hc); [lia|lia|].
  rewrite E. cbn [bind].
  destruct Hc as [[-> ->]|(Rea & Reb & Hs)].
  { cbn [Z.eqb orb]. eexists _, _, _. split; [reflexivity|]. congruence. }
  destruct (Z.eqb_spec ea (-1)); [lia|]. destruct (Z.eqb_spec eb (-1)); [lia|]. cbn [orb].
  assert (forall i, ok_vert verts (cyc la i)) as Ka by (intros i; rewrite Forall_forall in Va; apply Va, cyc_in; lia).
  assert (forall i, ok_vert verts (cyc lb i)) as Kb by (intros i; rewrite Forall_forall in Vb; apply Vb, cyc_in; lia).
  assert (cyc la (ea + zlen la - 1) = cyc la (ea - 1)) as Ra.
  { replace (ea + zlen la - 1) with (ea - 1 + 1 * zlen la) by lia. apply cyc_add. intros F. rewrite F in La. unfold zlen in La. cbn in La. lia. }
  assert (cyc lb (eb + zlen lb - 1) = cyc lb (eb - 1)) as Rb.
  { replace (eb + zlen lb - 1) with (eb - 1 + 1 * zlen lb) by lia. apply cyc_add. intros F. rewrite F in Lb. unfold zlen in Lb. cbn in Lb. lia. }
  repeat first [rewrite cyc_get by lia | rewrite get_pad by lia | rewrite corner_ok by auto | progress cbn [bind]].
  rewrite Ra. destruct (uleft _ _ _) eqn:U1; cbn [negb]; [|eexists _, _, _; split; [reflexivity|congruence]].
  repeat first [rewrite cyc_get by lia | rewrite get_pad by lia | rewrite corner_ok by auto | progress cbn [bind]].
  rewrite Rb. destruct (uleft (at_xz verts (cyc lb _)) _ _) eqn:U2; cbn [negb]; [|eexists _, _, _; split; [reflexivity|congruence]].
  repeat first [rewrite cyc_get by lia | rewrite get_pad by lia | rewrite corner_ok by auto | progress cbn [bind]].
  eexists _, _, _. split; [reflexivity|]. intros _. split; [lia|]. split; [lia|]. split; [lia|]. auto.
Qed.

(** The only common edge is found, in whatever order. *)
Lemma matchEdge_some : forall lb padb va js j, 0 < zlen lb -> (forall j, In j js -> 0 <= j < zlen lb) ->
  In j js -> va = sorted2 (cyc lb j) (cyc lb (j + 1)) -> exists j', matchEdge (lb ++ padb) (zlen lb) va js = Ok (Some j').
Proof.
  induction js as [|k js IH]; intros j L R I E; [destruct I|]. cbn [matchEdge].
  rewrite get_pad by (apply R; now left). cbn [bind]. rewrite cyc_get by first [apply R; now left|assumption]. cbn [bind].
  destruct ((fst va =? fst (sorted2 (cyc lb k) (cyc lb (k + 1)))) && (snd va =? snd (sorted2 (cyc lb k) (cyc lb (k + 1))))) eqn:B; [eauto|].
  destruct I as [->|I]; [|apply (IH j); auto; intros x Hx; apply R; now right].
  rewrite E, !Z.eqb_refl in B. discriminate.
Qed.
Lemma sorted2_sym : forall a b, sorted2 a b = sorted2 b a.
Proof. intros a b. unfold sorted2. rewrite !Z.gtb_ltb. destruct (Z.ltb_spec b a), (Z.ltb_spec a b); try lia; try reflexivity. assert (a = b) by lia. now subst. Qed.
Lemma commonEdge_some : forall la lb pada padb i j, 0 < zlen la -> 0 < zlen lb -> 0 <= i < zlen la -> 0 <= j < zlen lb -> opposite la lb i j ->
  exists ea eb, commonEdge (la ++ pada) (lb ++ padb) (zlen la) (zlen lb) = Ok (ea, eb) /\ ea <> -1.
Proof.
  intros la lb pada padb i j Hla Hlb Hi Hj [O1 O2]. unfold commonEdge.
  destruct (foldM_inv (fun e i =>
    let* a0 := get (la ++ pada) i in
    let* a1 := get (la ++ pada) ((i + 1) mod zlen la) in
    let* m := matchEdge (lb ++ padb) (zlen lb) (sorted2 a0 a1) (zseq (Z.to_nat (zlen lb))) in
    match m with Some j => Ok (i, j) | None => Ok e end)
    (fun pre e => In i pre -> fst e <> -1)
    (zseq (Z.to_nat (zlen la))) (-1, -1)) as ([ea eb] & E & H).
  - intros [].
  - intros pre k post e El He.
    assert (0 <= k < zlen la) as Hk.
    { assert (In k (zseq (Z.to_nat (zlen la)))) as G by (rewrite El; apply in_or_app; right; now left). apply in_zseq in G. lia. }
    rewrite get_pad by assumption. cbn [bind]. rewrite cyc_get by assumption. cbn [bind].
    destruct (matchEdge_ok lb padb (sorted2 (cyc la k) (cyc la (k + 1))) (zseq (Z.to_nat (zlen lb))) Hlb) as (r & Er & Hr).
    { intros x Hx. apply in_zseq in Hx. lia. }
    destruct (Z.eq_dec k i) as [->|Ne].
    + destruct (matchEdge_some lb padb (sorted2 (cyc la i) (cyc la (i + 1))) (zseq (Z.to_nat (zlen lb))) j Hlb) as (j' & Ej).
      * intros x Hx. apply in_zseq in Hx. lia.
      * apply in_zseq. lia.
      * rewrite O1, O2. apply sorted2_sym.
      * rewrite Ej. cbn [bind]. eexists. split; [reflexivity|]. intros _. cbn [fst]. lia.
    + rewrite Er. cbn [bind]. destruct r as [j'|]; eexists; (split; [reflexivity|]); intros I; cbn [fst]; [lia|].
      apply He. apply in_app_iff in I. destruct I as [I|[I|[]]]; [exact I|congruence].
  - exists ea, eb. split; [exact E|]. apply H. apply in_zseq. lia.
Qed.
Lemma mergeValue_best : forall pa pb la lb verts nvp ea eb,
  padded nvp la pa -> padded nvp lb pb -> 2 <= zlen la <= nvp -> 2 <= zlen lb <= nvp ->
  Forall (ok_vert verts) la -> Forall (ok_vert verts) lb ->
  (forall v, In v (la ++ lb) -> 0 <= fst (at_xz verts v) <= 32767 /\ 0 <= snd (at_xz verts v) <= 32767) ->
  zlen la + zlen lb - 2 <= nvp -> 0 <= ea < zlen la -> 0 <= eb < zlen lb -> opposite la lb ea eb ->
  (forall i j, 0 <= i < zlen la -> 0 <= j < zlen lb -> shared la lb i j -> i = ea /\ j = eb) ->
  at_xz verts (cyc la ea) <> at_xz verts (cyc la (ea + 1)) ->
  uleft (at_xz verts (cyc la (ea - 1))) (at_xz verts (cyc la ea)) (at_xz verts (cyc lb (eb + 2))) = true ->
  uleft (at_xz verts (cyc lb (eb - 1))) (at_xz verts (cyc lb eb)) (at_xz verts (cyc la (ea + 2))) = true ->
  exists v, getPolyMergeValue pa pb verts nvp = Ok (v, ea, eb) /\ 0 < v.
Proof.
  intros pa pb la lb verts nvp ea eb Ha Hb La Lb Va Vb Sm Hf Rea Reb HO Un Ne U1 U2. unfold getPolyMergeValue.
  rewrite (polyVerts_ok nvp la pa) by (auto; lia). cbn [bind]. rewrite (polyVerts_ok nvp lb pb) by (auto; lia). cbn [bind].
  destruct Ha as (_ & _ & ->), Hb as (_ & _ & ->).
  rewrite Z.gtb_ltb. destruct (Z.ltb_spec nvp (zlen la + zlen lb - 2)); [lia|].
  set (pada := repeat 65535 (Z.to_nat nvp - length la)). set (padb := repeat 65535 (Z.to_nat nvp - length lb)).
  destruct (commonEdge_ok la lb pada padb) as (ea' & eb' & E & Hc); [lia|lia|].
  destruct (commonEdge_some la lb pada padb ea eb) as (ea2 & eb2 & E2 & N2); try lia; [exact HO|]. rewrite E in E2. apply Ok_inj in E2. injection E2 as <- <-.
  rewrite E. cbn [bind].
  destruct Hc as [[-> _]|(Ra' & Rb' & Hs)]; [congruence|]. destruct (Un _ _ Ra' Rb' Hs) as [-> ->].
  destruct (Z.eqb_spec ea (-1)); [lia|]. destruct (Z.eqb_spec eb (-1)); [lia|]. cbn [orb].
  assert (forall i, ok_vert verts (cyc la i)) as Ka by (intros i; rewrite Forall_forall in Va; apply Va, cyc_in; lia).
  assert (forall i, ok_vert verts (cyc lb i)) as Kb by (intros i; rewrite Forall_forall in Vb; apply Vb, cyc_in; lia).
  assert (cyc la (ea + zlen la - 1) = cyc la (ea - 1)) as Ra.
  { replace (ea + zlen la - 1) with (ea - 1 + 1 * zlen la) by lia. apply cyc_add. intros F. rewrite F in La. unfold zlen in La. cbn in La. lia. }
  assert (cyc lb (eb + zlen lb - 1) = cyc lb (eb - 1)) as Rb.
  { replace (eb + zlen lb - 1) with (eb - 1 + 1 * zlen lb) by lia. apply cyc_add. intros F. rewrite F in Lb. unfold zlen in Lb. cbn in Lb. lia. }
  repeat first [rewrite cyc_get by lia | rewrite get_pad by lia | rewrite corner_ok by auto | progress cbn [bind]].
  rewrite Ra, U1. cbn [negb].
  repeat first [rewrite cyc_get by lia | rewrite get_pad by lia | rewrite corner_ok by auto | progress cbn [bind]].
  rewrite Rb, U2. cbn [negb].
  repeat first [rewrite cyc_get by lia | rewrite get_pad by lia | rewrite corner_ok by auto | progress cbn [bind]].
  eexists. split; [reflexivity|].
  pose proof (Sm (cyc la ea) ltac:(apply in_or_app; left; apply cyc_in; lia)) as [S1 S2].
  pose proof (Sm (cyc la (ea + 1)) ltac:(apply in_or_app; left; apply cyc_in; lia)) as [S3 S4].
  destruct (at_xz verts (cyc la ea)) as [ax az], (at_xz verts (cyc la (ea + 1))) as [bx bz]. cbn [fst snd] in *.
  assert (ax <> bx \/ az <> bz) as D by (destruct (Z.eq_dec ax bx), (Z.eq_dec az bz); subst; try tauto; congruence).
  assert (forall d, -32767 <= d <= 32767 -> 0 <= d * d <= 32767 * 32767) as Q.
  { intros d Hd. pose proof (Z.mul_nonneg_nonneg (32767 - d) (32767 + d) ltac:(lia) ltac:(lia)) as HH.
    replace ((32767 - d) * (32767 + d)) with (32767 * 32767 - d * d) in HH by ring. pose proof (Z.square_nonneg d). lia. }
  pose proof (Q (ax - bx) ltac:(lia)) as B1. pose proof (Q (az - bz) ltac:(lia)) as B2.
  rewrite (i32_id ((ax - bx) * (ax - bx))), (i32_id ((az - bz) * (az - bz))) by (unfold is_i32; lia). rewrite i32_id by (unfold is_i32; lia). nia.
Qed.
