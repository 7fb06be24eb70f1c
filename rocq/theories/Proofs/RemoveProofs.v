(** Removing vertices from the polygon mesh: canRemoveVertex. *)
From Coq Require Import ZArith List Bool Lia Permutation.
From Verif.Base Require Import Res GoNum Grid.
From Verif.Model Require Import Heightfield Contour Triangulate PolyMeshOps BuildMesh.
From Verif.Spec Require Import AreaSpec MeshOpsSpec BuildSpec.
From Verif.Proofs Require Import TriangulateProofs WeldProofs MergeProofs AdjacencyProofs EdgeProofs MergeLoop BuildProofs.
Import ListNotations.
Open Scope Z_scope.

(** * Walking along a polygon *)
Notation poly := (list Z * (Z * Z))%type.
(** A polygon of the mesh over [nv] vertices. *)
Definition pgood (nvp nv : Z) (q : poly) : Prop := 3 <= zlen (fst q) <= nvp /\ Forall (fun v => 0 <= v < nv) (fst q).
Lemma pgood_padded : forall nvp nv q, nv <= 65535 -> pgood nvp nv q -> padded nvp (fst q) (fst (rowOf nvp q)).
Proof.
  intros nvp nv q Hnv [L F]. split; [unfold zlen in L; lia|]. split; [|reflexivity]. intros I. rewrite Forall_forall in F. apply F in I. lia.
Qed.
Lemma row_get : forall nvp (q : poly) j, 0 <= j < zlen (fst q) -> get (fst (rowOf nvp q)) j = Ok (cyc (fst q) j).
Proof.
  intros nvp q j Hj. unfold rowOf. cbn [fst]. rewrite get_app_l by lia. apply get_ok. split; [lia|].
  rewrite <- (Z2Nat.id j) at 2 by lia. apply cyc_nth. unfold zlen in Hj. lia.
Qed.
Lemma row_verts : forall nvp nv q, 0 <= nvp -> nv <= 65535 -> pgood nvp nv q -> polyVerts (fst (rowOf nvp q)) nvp = Ok (zlen (fst q)).
Proof. intros nvp nv q H0 Hnv H. eapply polyVerts_ok; [lia|]. eapply pgood_padded; eassumption. Qed.

Lemma cyc_list : forall l, map (cyc l) (zseq (length l)) = l.
Proof.
  intros l. apply zseq_nth; [reflexivity|]. intros k Hk. pose proof (cyc_nth l k Hk) as H. symmetry. apply nth_error_nth. exact H.
Qed.
Definition backs (l : list Z) : list (Z * Z) := map (fun j => (cyc l (j - 1), cyc l j)) (zseq (length l)).
Lemma backs_perm : forall l, Permutation (backs l) (borders l).
Proof.
  intros l. unfold backs, borders, zseq. rewrite map_map. destruct (length l) as [|m] eqn:E; [apply Permutation_refl|].
  rewrite (seq_S m 0) at 2. rewrite (map_app (fun i : nat => (cyc l (Z.of_nat i), cyc l (Z.of_nat i + 1)))). cbn [seq map Nat.add].
  eapply perm_trans; [|apply Permutation_cons_append].
  replace (cyc l (Z.of_nat 0 - 1), cyc l (Z.of_nat 0)) with (cyc l (Z.of_nat m), cyc l (Z.of_nat m + 1)).
  2:{ assert (zlen l = Z.of_nat m + 1) as L by (unfold zlen; lia).
      f_equal; [replace (Z.of_nat m) with (-1 + 1 * zlen l) by lia|replace (Z.of_nat m + 1) with (0 + 1 * zlen l) by lia];
        rewrite cyc_add by (intros F; subst; discriminate); reflexivity. }
  apply perm_skip. rewrite <- seq_shift, map_map. erewrite map_ext; [apply Permutation_refl|].
  intros a. cbn beta. f_equal; f_equal; lia.
Qed.
Lemma backs_length : forall l, length (backs l) = length l.
Proof. intros l. unfold backs. now rewrite map_length, zseq_length. Qed.
(** The loops [for j, k := 0, nv-1; j < nv; k, j = j, j+1]. *)
Lemma walk_edges : forall {T} (g : T -> Z -> Z -> res T) l p (s : T), 0 < zlen l ->
  (forall j, 0 <= j < zlen l -> get p j = Ok (cyc l j)) ->
  foldM (fun '(s, k) j => let* pj := get p j in let* pk := get p k in let* s := g s pk pj in Ok (s, j)) (zseq (Z.to_nat (zlen l))) (s, zlen l - 1)
  = let* s' := foldM (fun s e => g s (fst e) (snd e)) (backs l) s in Ok (s', zlen l - 1).
Proof.
  intros T g l p s Hl Hp.
  assert (forall n, (n <= length l)%nat ->
    foldM (fun '(s, k) j => let* pj := get p j in let* pk := get p k in let* s := g s pk pj in Ok (s, j)) (zseq n) (s, zlen l - 1)
    = let* s' := foldM (fun s e => g s (fst e) (snd e)) (map (fun j => (cyc l (j - 1), cyc l j)) (zseq n)) s in
      Ok (s', if (n =? 0)%nat then zlen l - 1 else Z.of_nat n - 1)) as G.
  { induction n as [|n IH]; intros Hn; [reflexivity|].
    rewrite zseq_S, map_app, !foldM_app, IH by lia. cbn [map foldM fst snd].
    destruct (foldM (fun s e => g s (fst e) (snd e)) (map (fun j => (cyc l (j - 1), cyc l j)) (zseq n)) s) as [s'| | |]; cbn [bind]; try reflexivity.
    rewrite Hp by (unfold zlen; lia). cbn [bind].
    assert (get p (if (n =? 0)%nat then zlen l - 1 else Z.of_nat n - 1) = Ok (cyc l (Z.of_nat n - 1))) as ->.
    { destruct (Nat.eqb_spec n 0) as [->|N].
      - rewrite Hp by lia. f_equal. replace (zlen l - 1) with (-1 + 1 * zlen l) by lia. rewrite cyc_add by (intros F; subst; discriminate). reflexivity.
      - rewrite Hp by (unfold zlen; lia). reflexivity. }
    cbn [bind]. destruct (g s' (cyc l (Z.of_nat n - 1)) (cyc l (Z.of_nat n))); cbn [bind]; try reflexivity.
    cbn [Nat.eqb]. do 2 f_equal. rewrite Nat2Z.inj_succ. lia. }
  specialize (G (length l) (le_n _)). replace (Z.to_nat (zlen l)) with (length l) by (unfold zlen; lia). rewrite G.
  destruct (foldM _ _ s); cbn [bind]; try reflexivity. destruct (Nat.eqb_spec (length l) 0); [unfold zlen in Hl; lia|]. reflexivity.
Qed.

(** * Counting *)
Definition occ (rem : Z) (l : list Z) : Z := Z.of_nat (count_occ Z.eq_dec l rem).
Lemma countRem_ok : forall nvp rem (q : poly), countRem rem (zlen (fst q)) (fst (rowOf nvp q)) = Ok (occ rem (fst q)).
Proof.
  intros nvp rem q. unfold countRem. pose (h := fun (c x : Z) => Ok (if x =? rem then c + 1 else c)).
  rewrite (foldM_ext_in _ (fun c j => h c (cyc (fst q) j))).
  2:{ intros c j Hj. apply in_zseq in Hj. rewrite row_get by lia. reflexivity. }
  rewrite <- (foldM_map' h (cyc (fst q))). replace (Z.to_nat (zlen (fst q))) with (length (fst q)) by (unfold zlen; lia). rewrite cyc_list.
  unfold h. assert (forall l c, foldM (fun c x : Z => Ok (if x =? rem then c + 1 else c)) l c = Ok (c + occ rem l)) as G.
  { induction l as [|x l IH]; intros c; unfold occ; cbn [foldM bind count_occ]; [f_equal; lia|]. rewrite IH. unfold occ. f_equal.
    destruct (Z.eqb_spec x rem), (Z.eq_dec x rem); try contradiction; lia. }
  rewrite G. reflexivity.
Qed.
Lemma occ_pos : forall rem l, occ rem l <> 0 <-> In rem l.
Proof. intros rem l. unfold occ. rewrite (count_occ_In Z.eq_dec l rem). lia. Qed.
Lemma occ_nonneg : forall rem l, 0 <= occ rem l.
Proof. intros. unfold occ. lia. Qed.
Definition occs (rem : Z) (P : list (list Z)) : Z := sum (map (occ rem) P).
Lemma occs_nonneg : forall rem P, 0 <= occs rem P.
Proof. intros rem P. unfold occs. induction P as [|l P IH]; [cbn; lia|]. cbn [map sum fold_right]. unfold sum in IH. pose proof (occ_nonneg rem l). lia. Qed.

Lemma countTouched_ok : forall nvp nv rem Q, 0 <= nvp -> nv <= 65535 -> Forall (pgood nvp nv) Q ->
  countTouched nvp rem (map (rowOf nvp) Q) = Ok (occs rem (map fst Q), remaining rem (map fst Q)).
Proof.
  intros nvp nv rem Q H0 Hnv. unfold countTouched.
  match goal with |- _ -> foldM ?f _ _ = _ => assert (forall Q a b, Forall (pgood nvp nv) Q ->
    foldM f (map (rowOf nvp) Q) (a, b) = Ok (a + occs rem (map fst Q), b + remaining rem (map fst Q))) as G end.
  { clear Q. induction Q as [|q Q IH]; intros a b F.
    - cbn [map foldM]. unfold occs, remaining. cbn. do 2 f_equal; lia.
    - inversion F; subst. cbn [map foldM]. rewrite (row_verts nvp nv) by assumption. cbn [bind]. rewrite countRem_ok. cbn [bind].
      rewrite IH by assumption. unfold occs, remaining. cbn [map sum fold_right]. fold (occ rem (fst q)). change (Z.of_nat (length (fst q))) with (zlen (fst q)). do 2 f_equal.
      + unfold sum. lia.
      + unfold sum. destruct (occ rem (fst q) =? 0); lia. }
  intros F. rewrite G by exact F. reflexivity.
Qed.

(** * Open edges *)
Definition other (rem : Z) (e : Z * Z) : Z := if fst e =? rem then snd e else fst e.
Definition oth (rem : Z) (l : list Z) : list Z := map (other rem) (filter (uses rem) (backs l)).
Lemma Permutation_filter' : forall {A} (f : A -> bool) a b, Permutation a b -> Permutation (filter f a) (filter f b).
Proof.
  intros A f a b. induction 1 as [|x a b H IH|x y a|]; cbn [filter]; [constructor|destruct (f x); auto| |eauto using perm_trans].
  destruct (f x), (f y); try apply Permutation_refl. apply perm_swap.
Qed.
Lemma oth_ends : forall rem l, Permutation (oth rem l) (far_ends rem l).
Proof. intros rem l. unfold oth, far_ends. apply (Permutation_map (other rem)). apply Permutation_filter', backs_perm. Qed.
Lemma uses_le : forall rem (l : list (Z * Z)), (length (filter (uses rem) l) <= count_occ Z.eq_dec (map fst l) rem + count_occ Z.eq_dec (map snd l) rem)%nat.
Proof.
  intros rem. induction l as [|[a b] l IH]; [cbn; lia|]. cbn [filter map fst snd count_occ]. unfold uses at 1. cbn [fst snd].
  destruct (Z.eqb_spec a rem), (Z.eqb_spec b rem), (Z.eq_dec a rem), (Z.eq_dec b rem); try contradiction; cbn [orb length]; lia.
Qed.
Lemma backs_snd : forall l, map snd (backs l) = l.
Proof. intros l. unfold backs. rewrite map_map. cbn [snd]. apply cyc_list. Qed.
Lemma count_perm : forall (a b : list Z) x, Permutation a b -> count_occ Z.eq_dec a x = count_occ Z.eq_dec b x.
Proof. intros a b x H. revert x. now apply Permutation_count_occ. Qed.
Lemma oth_length : forall rem l, (length (oth rem l) <= 2 * count_occ Z.eq_dec l rem)%nat.
Proof.
  intros rem l. unfold oth. rewrite map_length. pose proof (uses_le rem (backs l)) as H. rewrite backs_snd in H.
  rewrite (count_perm (map fst (backs l)) l rem) in H; [lia|]. rewrite <- (borders_fst l) at 2. apply Permutation_map, backs_perm.
Qed.

Definition shared (E : list redge) (O : list Z) : Prop :=
  let bs := map (fun e : redge => snd (fst e)) E in
  NoDup bs /\ (forall b, In b bs <-> In b O) /\ Forall (fun e => snd e = Z.of_nat (count_occ Z.eq_dec O (snd (fst e)))) E.
Lemma shared_length : forall E O, shared E O -> (length E <= length O)%nat.
Proof.
  intros E O (N & I & _). rewrite <- (map_length (fun e : redge => snd (fst e)) E). apply NoDup_incl_length; [exact N|]. intros b Hb. now apply I.
Qed.
Lemma share_ok : forall maxE E O a b, shared E O -> Z.of_nat (length O) < maxE -> exists E', shareEdge maxE E a b = Ok E' /\ shared E' (O ++ [b]).
Proof.
  intros maxE E O a b HS HM. pose proof (shared_length _ _ HS) as L. destruct HS as (N & I & C). unfold shareEdge.
  assert (forall x, count_occ Z.eq_dec (O ++ [b]) x = (count_occ Z.eq_dec O x + (if Z.eq_dec b x then 1 else 0))%nat) as CO.
  { intros x. rewrite count_occ_app. cbn [count_occ]. destruct (Z.eq_dec b x); reflexivity. }
  destruct (existsb (fun '(_, e1, _) => e1 =? b) E) eqn:X.
  - eexists. split; [reflexivity|].
    assert (map (fun e : redge => snd (fst e)) (map (fun '(e0, e1, n) => if e1 =? b then (e0, e1, n + 1) else (e0, e1, n)) E) = map (fun e : redge => snd (fst e)) E) as EM.
    { rewrite map_map. apply map_ext. intros [[e0 e1] n]. destruct (e1 =? b); reflexivity. }
    unfold shared. rewrite EM. split; [exact N|].
    assert (In b O) as Ib.
    { apply existsb_exists in X. destruct X as ([[e0 e1] n] & He & Hb). apply Z.eqb_eq in Hb. subst e1. apply I. apply in_map_iff. exists (e0, b, n). auto. }
    split.
    + intros x. rewrite I, in_app_iff. cbn. intuition (subst; assumption).
    + apply Forall_forall. intros e He. apply in_map_iff in He. destruct He as ([[e0 e1] n] & <- & He). rewrite Forall_forall in C. specialize (C _ He). cbn in C.
      rewrite CO. destruct (Z.eqb_spec e1 b) as [->|NE]; cbn [fst snd]; [destruct (Z.eq_dec b b); [lia|contradiction]|].
      destruct (Z.eq_dec b e1); [congruence|]. lia.
  - assert (~ In b (map (fun e : redge => snd (fst e)) E)) as NB.
    { intros F. apply in_map_iff in F. destruct F as ([[e0 e1] n] & E1 & He). cbn in E1. subst e1.
      assert (existsb (fun '(_, e1, _) => e1 =? b) E = true) as T; [|congruence]. apply existsb_exists. exists (e0, b, n). split; [exact He|apply Z.eqb_refl]. }
    rewrite Z.geb_leb. destruct (Z.leb_spec maxE (zlen E)); [unfold zlen in *; lia|]. eexists. split; [reflexivity|].
    unfold shared. rewrite map_app. cbn [map fst snd].
    assert (~ In b O) as NO by (rewrite <- I; exact NB).
    split; [apply (Permutation_NoDup (Permutation_cons_append _ _)); now constructor|]. split.
    + intros x. rewrite !in_app_iff, I. reflexivity.
    + apply Forall_app. split.
      * apply Forall_forall. intros e He. rewrite Forall_forall in C. rewrite CO, (C e He). destruct (Z.eq_dec b (snd (fst e))) as [->|]; [|lia].
        exfalso. apply NB. apply in_map_iff. exists e. auto.
      * constructor; [|constructor]. cbn [fst snd]. rewrite CO, (proj1 (count_occ_not_In Z.eq_dec O b) NO). destruct (Z.eq_dec b b); [reflexivity|contradiction].
Qed.

Lemma touchingEdges_ok : forall nvp nv rem maxE q E O, 0 <= nvp -> nv <= 65535 -> pgood nvp nv q -> shared E O ->
  Z.of_nat (length O) + Z.of_nat (length (oth rem (fst q))) <= maxE ->
  exists E', touchingEdges nvp rem maxE E (fst (rowOf nvp q)) = Ok E' /\ shared E' (O ++ oth rem (fst q)).
Proof.
  intros nvp nv rem maxE q E O H0 Hnv HG HS HM. unfold touchingEdges. rewrite (row_verts nvp nv) by assumption. cbn [bind].
  pose (g := fun (edges : list redge) pk pj => if (pj =? rem) || (pk =? rem)
     then let '(a, b) := if pk =? rem then (pk, pj) else (pj, pk) in shareEdge maxE edges a b else Ok edges).
  pose proof (walk_edges g (fst q) (fst (rowOf nvp q)) E) as W. unfold g at 1 in W. rewrite W; clear W.
  2:{ destruct HG; lia. }
  2:{ intros j Hj. apply row_get. exact Hj. }
  assert (forall es E O, shared E O -> Z.of_nat (length O) + Z.of_nat (length (map (other rem) (filter (uses rem) es))) <= maxE ->
    exists E', foldM (fun s e => g s (fst e) (snd e)) es E = Ok E' /\ shared E' (O ++ map (other rem) (filter (uses rem) es))) as G.
  { clear. induction es as [|[pk pj] es IH]; intros E O HS HM.
    - exists E. cbn [filter map foldM]. rewrite app_nil_r. auto.
    - cbn [foldM filter fst snd].
      assert (g E pk pj = if uses rem (pk, pj) then (let '(a, b) := if pk =? rem then (pk, pj) else (pj, pk) in shareEdge maxE E a b) else Ok E) as ->.
      { unfold g, uses. cbn [fst snd]. rewrite orb_comm. reflexivity. }
      cbn [filter] in HM. destruct (uses rem (pk, pj)) eqn:U.
      + cbn [map length] in HM |- *.
        assert (exists a, (let '(a, b) := if pk =? rem then (pk, pj) else (pj, pk) in shareEdge maxE E a b) = shareEdge maxE E a (other rem (pk, pj))) as (a & ->).
        { unfold other. cbn [fst snd]. destruct (pk =? rem); eauto. }
        destruct (share_ok maxE E O a (other rem (pk, pj)) HS) as (E1 & -> & HS1); [lia|]. cbn [bind].
        destruct (IH E1 _ HS1) as (E2 & -> & HS2); [rewrite app_length; cbn [length]; lia|]. exists E2. split; [reflexivity|].
        rewrite <- app_assoc in HS2. exact HS2.
      + cbn [bind]. apply IH; assumption. }
  destruct (G (backs (fst q)) E O HS HM) as (E' & -> & HS'). cbn [bind]. exists E'. split; [reflexivity|exact HS'].
Qed.

Lemma open_count : forall E O, shared E O ->
  fold_left (fun n (e : redge) => if snd e <? 2 then n + 1 else n) E 0 =
  Z.of_nat (length (filter (fun b => (count_occ Z.eq_dec O b =? 1)%nat) (nodup Z.eq_dec O))).
Proof.
  intros E O (N & I & C).
  assert (forall (E : list redge) n, fold_left (fun n (e : redge) => if snd e <? 2 then n + 1 else n) E n = n + Z.of_nat (length (filter (fun e : redge => snd e <? 2) E))) as F.
  { clear. induction E as [|e E IH]; intros n; [cbn; lia|]. cbn [fold_left filter]. rewrite IH. destruct (snd e <? 2); cbn [length]; lia. }
  rewrite F. cbn [Z.add]. f_equal.
  assert (filter (fun b => (count_occ Z.eq_dec O b =? 1)%nat) (map (fun e : redge => snd (fst e)) E) = map (fun e : redge => snd (fst e)) (filter (fun e : redge => snd e <? 2) E)) as EF.
  { assert (forall b, In b (map (fun e : redge => snd (fst e)) E) -> In b O) as I' by (intros b; apply I). clear I N F.
    induction E as [|e E IH]; [reflexivity|]. inversion C as [|? ? Ce C']; subst. cbn [map filter].
    rewrite IH; [|exact C'|intros b Hb; apply I'; now right].
    assert (In (snd (fst e)) O) as Ie by (apply I'; now left). apply (count_occ_In Z.eq_dec) in Ie.
    destruct (Z.ltb_spec (snd e) 2), (Nat.eqb_spec (count_occ Z.eq_dec O (snd (fst e))) 1); try lia; reflexivity. }
  rewrite <- (map_length (fun e : redge => snd (fst e))), <- EF. apply Permutation_length. apply Permutation_filter'.
  apply NoDup_Permutation; [exact N|apply NoDup_nodup|]. intros b. rewrite nodup_In. apply I.
Qed.

Lemma can_ok : forall nvp nv verts n rem Q, 0 <= nvp -> nv <= 65535 -> Forall (pgood nvp nv) Q ->
  canRemoveVertex nvp (mkPMesh verts n (map (rowOf nvp) Q)) rem =
  Ok ((2 <? remaining rem (map fst Q)) && (length (open_ends rem (map fst Q)) <=? 2)%nat).
Proof.
  intros nvp nv verts n rem Q H0 Hnv HG. unfold canRemoveVertex. cbn [pmPolys]. rewrite (countTouched_ok nvp nv) by assumption. cbn [bind].
  destruct (Z.leb_spec (remaining rem (map fst Q)) 2), (Z.ltb_spec 2 (remaining rem (map fst Q))); try lia; [reflexivity|]. cbn [andb].
  set (O := flat_map (oth rem) (map fst Q)).
  assert (Z.of_nat (length O) <= occs rem (map fst Q) * 2) as LO.
  { unfold O. clear. induction Q as [|q Q IH]; [cbn; lia|]. cbn [map flat_map]. rewrite app_length. pose proof (oth_length rem (fst q)).
    unfold occs in *. cbn [map sum fold_right]. unfold sum in IH. unfold occ at 1. lia. }
  assert (forall Q0 E O0, Forall (pgood nvp nv) Q0 -> shared E O0 -> Z.of_nat (length O0) + Z.of_nat (length (flat_map (oth rem) (map fst Q0))) <= occs rem (map fst Q) * 2 ->
    exists E', foldM (fun edges p => touchingEdges nvp rem (occs rem (map fst Q) * 2) edges (fst p)) (map (rowOf nvp) Q0) E = Ok E' /\
      shared E' (O0 ++ flat_map (oth rem) (map fst Q0))) as G.
  { induction Q0 as [|q Q0 IH]; intros E O0 F HS HM.
    - exists E. cbn. rewrite app_nil_r. auto.
    - inversion F; subst. cbn [map flat_map foldM] in *. rewrite app_length in HM.
      destruct (touchingEdges_ok nvp nv rem (occs rem (map fst Q) * 2) q E O0 H0 Hnv) as (E1 & -> & HS1); [assumption|assumption|lia|]. cbn [bind].
      destruct (IH E1 _ ltac:(assumption) HS1) as (E2 & -> & HS2); [rewrite app_length; lia|]. exists E2. split; [reflexivity|].
      rewrite <- app_assoc in HS2. exact HS2. }
  destruct (G Q [] [] HG) as (E & -> & HS).
  { split; [constructor|]. split; [reflexivity|constructor]. }
  { cbn [length]. fold O. lia. }
  cbn [bind app] in *. fold O in HS.
  match goal with |- context[fold_left ?f ?a ?b] =>
    replace (fold_left f a b) with (Z.of_nat (length (filter (fun z => (count_occ Z.eq_dec O z =? 1)%nat) (nodup Z.eq_dec O)))) by (symmetry; exact (open_count _ _ HS)) end.
  assert (Permutation O (flat_map (far_ends rem) (map fst Q))) as P.
  { unfold O. clear. induction (map fst Q) as [|l P IH]; [apply Permutation_refl|]. cbn [flat_map]. apply Permutation_app; [apply oth_ends|exact IH]. }
  assert (length (filter (fun b => (count_occ Z.eq_dec O b =? 1)%nat) (nodup Z.eq_dec O)) = length (open_ends rem (map fst Q))) as ->.
  { unfold open_ends. apply Permutation_length.
    erewrite filter_ext; [apply Permutation_filter'|intros b; cbn beta; rewrite (count_perm _ _ b P); reflexivity].
    apply NoDup_Permutation; try apply NoDup_nodup. intros b. rewrite !nodup_In. split; apply Permutation_in; [exact P|now apply Permutation_sym]. }
  f_equal. rewrite Z.gtb_ltb. destruct (Z.ltb_spec 2 (Z.of_nat (length (open_ends rem (map fst Q))))), (Nat.leb_spec (length (open_ends rem (map fst Q))) 2); try lia; reflexivity.
Qed.
