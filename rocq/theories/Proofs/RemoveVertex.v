(** Removing vertices from the polygon mesh: removeVertex. *)
From Coq Require Import ZArith List Bool Lia Permutation.
From Verif.Base Require Import Res GoNum Grid.
From Verif.Model Require Import Heightfield ContourGeom Contour Triangulate PolyMeshOps BuildMesh.
From Verif.Spec Require Import AreaSpec MeshOpsSpec BuildSpec.
From Verif.Proofs Require Import TriangulateProofs WeldProofs MergeProofs AdjacencyProofs EdgeProofs MergeLoop BuildProofs RemoveProofs.
Import ListNotations.
Open Scope Z_scope.

(** * Edges around the hole *)
Definition rims (rem : Z) (q : poly) : list hedge := map (fun e => (e, snd q)) (filter (fun e => negb (uses rem e)) (backs (fst q))).
Lemma rims_rim : forall rem q, Permutation (map fst (rims rem q)) (rim rem (fst q)).
Proof.
  intros rem q. unfold rims, rim. rewrite map_map. cbn [fst]. rewrite map_id. apply Permutation_filter', backs_perm.
Qed.
Lemma filter_length_le : forall {A} (f : A -> bool) l, (length (filter f l) <= length l)%nat.
Proof. intros A f. induction l as [|x l IH]; [constructor|]. cbn [filter]. destruct (f x); cbn [length]; lia. Qed.
Lemma filter_lt : forall {A} (f : A -> bool) l x, In x l -> f x = false -> (length (filter f l) < length l)%nat.
Proof.
  intros A f. induction l as [|y l IH]; intros x Hx Hf; [destruct Hx|]. cbn [filter]. destruct Hx as [->|Hx].
  - rewrite Hf. cbn [length]. pose proof (filter_length_le f l). lia.
  - specialize (IH x Hx Hf). destruct (f y); cbn [length]; lia.
Qed.
Lemma rims_length : forall rem q, In rem (fst q) -> (length (rims rem q) < length (fst q))%nat.
Proof.
  intros rem q H. unfold rims. rewrite map_length, <- (backs_length (fst q)).
  rewrite <- (backs_snd (fst q)) in H. apply in_map_iff in H. destruct H as ([a b] & E & H). cbn in E. subst b.
  apply (filter_lt _ _ _ H). unfold uses. cbn [fst snd]. rewrite Z.eqb_refl, orb_true_r. reflexivity.
Qed.
Lemma collectEdges_ok : forall nvp rem cap q E, 0 < zlen (fst q) -> zlen E + zlen (rims rem q) <= cap ->
  collectEdges rem (zlen (fst q)) cap (rowOf nvp q) E = Ok (E ++ rims rem q).
Proof.
  intros nvp rem cap q E H0 HC. unfold collectEdges.
  pose (g := fun (edges : list hedge) pk pj => if negb (pj =? rem) && negb (pk =? rem)
     then if zlen edges >=? cap then Panic else Ok (edges ++ [((pk, pj), snd (rowOf nvp q))]) else Ok edges).
  pose proof (walk_edges g (fst q) (fst (rowOf nvp q)) E H0 (fun j Hj => row_get nvp q j Hj)) as W.
  match goal with |- context[foldM ?ff ?ll ?ss] => replace (foldM ff ll ss) with
    (let* s' := foldM (fun s e => g s (fst e) (snd e)) (backs (fst q)) E in Ok (s', zlen (fst q) - 1)) by (symmetry; exact W) end. clear W.
  assert (forall es E, zlen E + zlen (filter (fun e => negb (uses rem e)) es) <= cap ->
    foldM (fun s e => g s (fst e) (snd e)) es E = Ok (E ++ map (fun e => (e, snd q)) (filter (fun e => negb (uses rem e)) es))) as G.
  { clear - g. induction es as [|[pk pj] es IH]; intros E HC; cbn [foldM filter map fst snd]; [now rewrite app_nil_r|].
    assert (g E pk pj = if negb (uses rem (pk, pj)) then if zlen E >=? cap then Panic else Ok (E ++ [((pk, pj), snd q)]) else Ok E) as ->.
    { unfold g, uses. cbn [fst snd]. rewrite negb_orb, andb_comm. reflexivity. }
    cbn [filter] in HC. destruct (negb (uses rem (pk, pj))).
    - rewrite zlen_cons in HC. pose proof (zlen_nonneg (filter (fun e => negb (uses rem e)) es)). rewrite Z.geb_leb.
      destruct (Z.leb_spec cap (zlen E)); [lia|]. cbn [bind map]. rewrite IH by (rewrite zlen_snoc; lia). rewrite <- app_assoc. reflexivity.
    - cbn [bind]. apply IH. exact HC. }
  rewrite G by (unfold rims, zlen in *; rewrite map_length in HC; exact HC). reflexivity.
Qed.

Definition has (rem : Z) (q : poly) : bool := negb (occ rem (fst q) =? 0).
Lemma has_in : forall rem q, has rem q = true <-> In rem (fst q).
Proof. intros rem q. unfold has. rewrite negb_true_iff, Z.eqb_neq. apply occ_pos. Qed.
Lemma has_not : forall rem q, has rem q = false <-> ~ In rem (fst q).
Proof. intros rem q. rewrite <- has_in. destruct (has rem q); split; congruence. Qed.
Lemma flat_map_perm : forall {A B} (f : A -> list B) a b, Permutation a b -> Permutation (flat_map f a) (flat_map f b).
Proof.
  intros A B f a b. induction 1 as [|x a b H IH|x y a|]; cbn [flat_map]; [constructor|now apply Permutation_app_head| |eauto using perm_trans].
  rewrite !app_assoc. apply Permutation_app_tail, Permutation_app_comm.
Qed.
Lemma removelast_map : forall {A B} (f : A -> B) l, removelast (map f l) = map f (removelast l).
Proof. intros A B f l. induction l as [|x [|y l] IH]; [reflexivity..|]. cbn [map removelast] in *. f_equal. exact IH. Qed.
Lemma swap_remove_front : forall {A} (l : list A) i x, get l i = Ok x ->
  exists y l1, get l (zlen l - 1) = Ok y /\ set l i y = Ok l1 /\ Permutation l (x :: removelast l1) /\
    zlen (removelast l1) = zlen l - 1 /\ firstn (Z.to_nat i) (removelast l1) = firstn (Z.to_nat i) l.
Proof.
  intros A l i x H. destruct (swap_remove l i x H) as (y & l1 & E1 & E2 & P & L). exists y, l1.
  split; [exact E1|]. split; [exact E2|]. split; [exact P|]. split; [exact L|].
  apply set_ok in E2. destruct E2 as [R ->].
  assert (Z.to_nat i <= length (removelast (upd l (Z.to_nat i) y)))%nat as LE by (unfold zlen in *; lia).
  destruct (rev_case (upd l (Z.to_nat i) y)) as [E|(k & z & E)].
  { rewrite E in LE. cbn in LE. replace (Z.to_nat i) with O by lia. reflexivity. }
  rewrite E, removelast_last in *.
  transitivity (firstn (Z.to_nat i) (k ++ [z])); [rewrite firstn_app; replace (Z.to_nat i - length k)%nat with O by lia; cbn; now rewrite app_nil_r|].
  rewrite <- E. destruct (split_at _ _ _ H) as (a & b & -> & <-). unfold zlen. rewrite Nat2Z.id, upd_app_length.
  rewrite !firstn_app, Nat.sub_diag. reflexivity.
Qed.

Lemma removePolys_ok : forall nvp nv rem cap fuel Q i E, 0 <= nvp -> nv <= 65535 -> Forall (pgood nvp nv) Q -> 0 <= i <= zlen Q ->
  zlen Q - i <= Z.of_nat fuel -> Forall (fun q => has rem q = false) (firstn (Z.to_nat i) Q) ->
  zlen E + zlen (flat_map (rims rem) (filter (has rem) Q)) <= cap ->
  exists R K, removePolys fuel nvp rem cap i (map (rowOf nvp) Q) E = Ok (map (rowOf nvp) K, E ++ flat_map (rims rem) R) /\
    Permutation Q (R ++ K) /\ Forall (fun q => has rem q = true) R /\ Forall (fun q => has rem q = false) K.
Proof.
  intros nvp nv rem cap fuel. induction fuel as [|fuel IH]; intros Q i E H0 Hnv HG Hi HF HI HC.
  - exists [], Q. cbn [removePolys]. assert (zlen (map (rowOf nvp) Q) = zlen Q) as -> by (unfold zlen; now rewrite map_length).
    destruct (Z.ltb_spec i (zlen Q)); [lia|]. cbn [flat_map app]. rewrite app_nil_r. split; [reflexivity|]. split; [apply Permutation_refl|].
    split; [constructor|]. rewrite firstn_all2 in HI by (unfold zlen in *; lia). exact HI.
  - cbn [removePolys]. assert (zlen (map (rowOf nvp) Q) = zlen Q) as EL by (unfold zlen; now rewrite map_length). rewrite EL.
    destruct (Z.ltb_spec i (zlen Q)) as [Lt|Ge].
    2:{ exists [], Q. cbn [flat_map app]. rewrite app_nil_r. split; [reflexivity|]. split; [apply Permutation_refl|].
        split; [constructor|]. rewrite firstn_all2 in HI by (unfold zlen in *; lia). exact HI. }
    destruct (get_in_range Q i ltac:(lia)) as (q & Eq). rewrite get_map, Eq. cbn [bind].
    assert (In q Q) as Iq by (apply get_ok in Eq; destruct Eq as [_ Eq]; eapply nth_error_In; eassumption).
    assert (pgood nvp nv q) as Gq by (rewrite Forall_forall in HG; auto).
    rewrite (row_verts nvp nv) by assumption. cbn [bind]. rewrite countRem_ok. cbn [bind].
    destruct (Z.eqb_spec (occ rem (fst q)) 0) as [Z0|Z0].
    + apply IH; try assumption; try lia. replace (Z.to_nat (i + 1)) with (S (Z.to_nat i)) by lia.
      apply get_ok in Eq. destruct Eq as [_ Eq].
      assert (firstn (S (Z.to_nat i)) Q = firstn (Z.to_nat i) Q ++ [q]) as ->.
      { clear -Eq. revert Q Eq. induction (Z.to_nat i) as [|k IHk]; intros [|x Q] E; try discriminate; cbn in *; [congruence|]. f_equal. auto. }
      apply Forall_app. split; [exact HI|]. constructor; [|constructor]. unfold has. rewrite Z0. reflexivity.
    + destruct (swap_remove_front Q i q Eq) as (y & l1 & E1 & E2 & P & L & Fr).
      assert (has rem q = true) as Hq by (unfold has; destruct (Z.eqb_spec (occ rem (fst q)) 0); [contradiction|reflexivity]).
      assert (Permutation (flat_map (rims rem) (filter (has rem) Q)) (rims rem q ++ flat_map (rims rem) (filter (has rem) (removelast l1)))) as PF.
      { eapply perm_trans; [apply flat_map_perm, Permutation_filter', P|]. cbn [filter]. rewrite Hq. apply Permutation_refl. }
      apply Permutation_length in PF. rewrite app_length in PF.
      rewrite collectEdges_ok; [|destruct Gq; lia|unfold zlen in *; lia]. cbn [bind].
      rewrite get_map, E1. cbn [bind].
      assert (set (map (rowOf nvp) Q) i (rowOf nvp y) = Ok (map (rowOf nvp) l1)) as ->.
      { apply set_ok in E2. destruct E2 as [R ->]. rewrite set_in_range by (unfold zlen in *; rewrite map_length; lia).
        f_equal. clear. revert Q. induction (Z.to_nat i) as [|k IHk]; intros [|z l]; cbn; f_equal; auto. }
      cbn [bind]. rewrite removelast_map.
      destruct (IH (removelast l1) i (E ++ rims rem q)) as (R & K & EK & PK & HR & HK); try assumption; try lia.
      * pose proof (Permutation_Forall P HG) as G'. inversion G'; assumption.
      * rewrite Fr. exact HI.
      * rewrite zlen_app. unfold zlen in *. lia.
      * exists (q :: R), K. cbn [flat_map]. rewrite app_assoc. split; [exact EK|].
        split; [eapply perm_trans; [exact P|]; cbn [app]; now apply perm_skip|]. split; [now constructor|exact HK].
Qed.

Lemma removed_ok : forall nvp nv rem Q, 0 <= nvp -> nv <= 65535 -> Forall (pgood nvp nv) Q ->
  foldM (fun n p => let* nv := polyVerts (fst p) nvp in let* c := countRem rem nv (fst p) in Ok (n + c)) (map (rowOf nvp) Q) 0
  = Ok (occs rem (map fst Q)).
Proof.
  intros nvp nv rem Q H0 Hnv HG.
  assert (forall n, foldM (fun n p => let* nv := polyVerts (fst p) nvp in let* c := countRem rem nv (fst p) in Ok (n + c)) (map (rowOf nvp) Q) n
    = Ok (n + occs rem (map fst Q))) as G; [|apply G].
  induction Q as [|q Q IH]; intros n; [unfold occs; cbn; f_equal; lia|]. inversion HG; subst. cbn [map foldM].
  rewrite (row_verts nvp nv) by assumption. cbn [bind]. rewrite countRem_ok. cbn [bind]. rewrite IH by assumption.
  unfold occs. cbn [map sum fold_right]. unfold sum. f_equal. lia.
Qed.
Lemma cap_enough : forall nvp nv rem Q, 0 <= nvp -> Forall (pgood nvp nv) Q ->
  zlen (flat_map (rims rem) (filter (has rem) Q)) + zlen (filter (has rem) Q) <= occs rem (map fst Q) * nvp.
Proof.
  intros nvp nv rem. induction Q as [|q Q IH]; intros H0 HG; [cbn; lia|]. inversion HG as [|? ? [L _] HG']; subst. specialize (IH H0 HG').
  unfold occs in *. cbn [map sum fold_right filter]. fold (sum (map (occ rem) (map fst Q))). pose proof (occ_nonneg rem (fst q)).
  destruct (has rem q) eqn:Hq.
  - apply has_in in Hq. pose proof (rims_length rem q Hq) as RL. apply occ_pos in Hq. cbn [flat_map]. rewrite zlen_app, zlen_cons.
    unfold zlen in *. nia.
  - nia.
Qed.

(** * Moving the vertices up *)
Lemma get_off : forall {A} (a l : list A) k, 0 <= k -> get (a ++ l) (zlen a + k) = get l k.
Proof.
  intros A a l k Hk. unfold get, zlen. destruct (Z.ltb_spec (Z.of_nat (length a) + k) 0); [lia|]. destruct (Z.ltb_spec k 0); [lia|].
  rewrite nth_error_app2 by lia. do 2 f_equal. lia.
Qed.
Lemma set_off : forall {A} (a l : list A) k v, 0 <= k < zlen l -> set (a ++ l) (zlen a + k) v = Ok (a ++ upd l (Z.to_nat k) v).
Proof.
  intros A a l k v Hk. rewrite set_in_range by (rewrite zlen_app; pose proof (zlen_nonneg a); lia). f_equal.
  unfold zlen. replace (Z.to_nat (Z.of_nat (length a) + k)) with (length a + Z.to_nat k)%nat by lia.
  induction a as [|x a IH]; [reflexivity|]. cbn. f_equal. exact IH.
Qed.
Lemma last_shift : forall {A} (l : list A) y d, last (y :: l) d = last l y.
Proof. intros A. induction l as [|z l IH]; intros y d; [reflexivity|]. change (last (z :: l) d = last (z :: l) y). rewrite !IH. reflexivity. Qed.
Lemma dropVert_ok : forall B A x rest,
  foldM (fun verts i =>
    let* x := get verts ((i + 1) * 3) in
    let* verts := set verts (i * 3) x in
    let* x := get verts ((i + 1) * 3 + 1) in
    let* verts := set verts (i * 3 + 1) x in
    let* x := get verts ((i + 1) * 3 + 2) in
    set verts (i * 3 + 2) x) (map (fun d => zlen A + d) (zseq (length B))) (flatten (A ++ x :: B) ++ rest)
  = Ok (flatten (A ++ B ++ [last B x]) ++ rest).
Proof.
  induction B as [|y B IH]; intros A x rest; [reflexivity|].
  assert (map (fun d => zlen A + d) (zseq (length (y :: B))) = zlen A :: map (fun d => zlen (A ++ [y]) + d) (zseq (length B))) as ->.
  { unfold zseq. cbn [length seq map]. rewrite Z.add_0_r. f_equal. rewrite <- seq_shift, !map_map. apply map_ext. intros d. rewrite zlen_snoc. lia. }
  cbn [foldM]. destruct x as [[x0 x1] x2], y as [[y0 y1] y2].
  assert (forall s u, (let* x := get s ((zlen A + 1) * 3) in
    let* verts := set s (zlen A * 3) x in
    let* x := get verts ((zlen A + 1) * 3 + 1) in
    let* verts := set verts (zlen A * 3 + 1) x in
    let* x := get verts ((zlen A + 1) * 3 + 2) in
    set verts (zlen A * 3 + 2) x) = u -> s = flatten A ++ x0 :: x1 :: x2 :: y0 :: y1 :: y2 :: flatten B ++ rest ->
    u = Ok (flatten A ++ y0 :: y1 :: y2 :: y0 :: y1 :: y2 :: flatten B ++ rest)) as St.
  { intros s u <- ->. set (T := flatten B ++ rest). clearbody T.
    assert (zlen (flatten A) = zlen A * 3) as EA by (unfold zlen; rewrite flatten_length; lia).
    replace ((zlen A + 1) * 3) with (zlen (flatten A) + 3) by lia. replace (zlen A * 3) with (zlen (flatten A) + 0) by lia.
    pose proof (zlen_nonneg T).
    rewrite get_off by lia. match goal with |- context[get ?l 3] => change (get l 3) with (Ok y0) end. cbn [bind].
    rewrite set_off by (rewrite !zlen_cons; lia). change (Z.to_nat 0) with 0%nat. cbn [bind upd].
    replace (zlen (flatten A) + 3 + 1) with (zlen (flatten A) + 4) by lia. rewrite get_off by lia.
    match goal with |- context[get ?l 4] => change (get l 4) with (Ok y1) end. cbn [bind].
    replace (zlen (flatten A) + 0 + 1) with (zlen (flatten A) + 1) by lia.
    rewrite set_off by (rewrite !zlen_cons; lia). change (Z.to_nat 1) with 1%nat. cbn [bind upd].
    replace (zlen (flatten A) + 3 + 2) with (zlen (flatten A) + 5) by lia. rewrite get_off by lia.
    match goal with |- context[get ?l 5] => change (get l 5) with (Ok y2) end. cbn [bind].
    replace (zlen (flatten A) + 0 + 2) with (zlen (flatten A) + 2) by lia.
    rewrite set_off by (rewrite !zlen_cons; lia). change (Z.to_nat 2) with 2%nat. cbn [bind upd]. reflexivity. }
  erewrite (St _ _ eq_refl).
  2:{ rewrite flatten_app. cbn [flatten flat_map app]. rewrite <- app_assoc. reflexivity. }
  cbn [bind].
  replace (flatten A ++ y0 :: y1 :: y2 :: y0 :: y1 :: y2 :: flatten B ++ rest) with (flatten ((A ++ [(y0, y1, y2)]) ++ (y0, y1, y2) :: B) ++ rest).
  2:{ rewrite !flatten_app. cbn [flatten flat_map app]. rewrite <- !app_assoc. reflexivity. }
  match goal with |- ?l = _ => change l with (foldM (fun verts i =>
    let* x := get verts ((i + 1) * 3) in
    let* verts := set verts (i * 3) x in
    let* x := get verts ((i + 1) * 3 + 1) in
    let* verts := set verts (i * 3 + 1) x in
    let* x := get verts ((i + 1) * 3 + 2) in
    set verts (i * 3 + 2) x) (map (fun d => zlen (A ++ [(y0, y1, y2)]) + d) (zseq (length B))) (flatten ((A ++ [(y0, y1, y2)]) ++ (y0, y1, y2) :: B) ++ rest)) end.
  rewrite IH. rewrite <- app_assoc. cbn [app].
  rewrite last_shift. reflexivity.
Qed.
Lemma drop_vert : forall rem V rest, 0 <= rem < zlen V ->
  exists rest', dropVert rem (zlen V) (flatten V ++ rest) = Ok (flatten (without rem V) ++ rest') /\ length rest' = S (S (S (length rest))).
Proof.
  intros rem V rest Hr. destruct (get_in_range V rem Hr) as (x & Ex). destruct (split_at _ _ _ Ex) as (A & B & -> & <-).
  unfold dropVert, without, zlen. rewrite Nat2Z.id, app_length. cbn [length].
  replace (Z.to_nat (Z.of_nat (length A + S (length B)) - 1 - Z.of_nat (length A))) with (length B) by lia.
  change (Z.of_nat (length A)) with (zlen A). rewrite dropVert_ok.
  assert (firstn (length A) (A ++ x :: B) = A) as -> by (rewrite firstn_app, Nat.sub_diag, firstn_all; cbn; apply app_nil_r).
  assert (skipn (S (length A)) (A ++ x :: B) = B) as ->.
  { replace (S (length A)) with (length (A ++ [x])) by (rewrite app_length; cbn; lia). change (x :: B) with ([x] ++ B). rewrite app_assoc, skipn_app, Nat.sub_diag, skipn_all. reflexivity. }
  exists (flatten [last B x] ++ rest). rewrite app_assoc, flatten_app, <- app_assoc. split; [reflexivity|].
  rewrite app_length, flatten_length. reflexivity.
Qed.

(** * Renumbering *)
Lemma lower_low : forall rem v, lower rem v = low rem v.
Proof. intros. unfold lower, low. rewrite Z.gtb_ltb. reflexivity. Qed.
Lemma low_range : forall rem v nv, 0 <= rem < nv -> 0 <= v < nv -> v <> rem -> 0 <= low rem v < nv - 1.
Proof. intros. unfold low. destruct (Z.ltb_spec rem v); lia. Qed.
Lemma low_range' : forall rem v nv, 0 <= rem < nv -> 0 <= v < nv -> 0 <= low rem v < nv.
Proof. intros. unfold low. destruct (Z.ltb_spec rem v); lia. Qed.
Lemma lowerPolys_ok : forall nvp nv rem K, 0 <= nvp -> nv <= 65535 -> Forall (pgood nvp nv) K ->
  lowerPolys nvp rem (map (rowOf nvp) K) = Ok (map (rowOf nvp) (map (renumbered rem) K)).
Proof.
  intros nvp nv rem K H0 Hnv HG. unfold lowerPolys.
  assert (forall acc, foldM (fun l p => let* q := lowerPoly nvp rem p in Ok (l ++ [q])) (map (rowOf nvp) K) acc = Ok (acc ++ map (rowOf nvp) (map (renumbered rem) K))) as G; [|apply G].
  induction K as [|q K IH]; intros acc; [cbn; now rewrite app_nil_r|]. inversion HG; subst. cbn [map foldM].
  assert (lowerPoly nvp rem (rowOf nvp q) = Ok (rowOf nvp (renumbered rem q))) as ->.
  { unfold lowerPoly. rewrite (row_verts nvp nv) by assumption. cbn [bind]. unfold rowOf, renumbered. cbn [fst snd]. f_equal.
    replace (Z.to_nat (zlen (fst q))) with (length (fst q)) by (unfold zlen; lia).
    rewrite firstn_app, Nat.sub_diag, firstn_all, skipn_app, Nat.sub_diag, skipn_all. cbn [firstn skipn app]. rewrite app_nil_r, map_length.
    rewrite (map_ext (lower rem) (low rem)) by apply lower_low. reflexivity. }
  cbn [bind]. rewrite IH by assumption. rewrite <- app_assoc. reflexivity.
Qed.

(** * The walk around the hole *)
Notation hent := (Z * (Z * Z))%type.
Definition nomatch (hole : list hent) (e : hedge) : Prop :=
  snd (fst e) <> hd 0 (map fst hole) /\ fst (fst e) <> last (map fst hole) 0.
Record hinv (E0 : list hedge) (cap a0 : Z) (edges : list hedge) (hole : list hent) : Prop := {
  hi_perm : Permutation (map fst E0) (steps (map fst hole) ++ map fst edges);
  hi_in : forall h, In h hole -> In (snd h) (map snd E0);
  hi_verts : forall h, In h hole -> exists e, In e E0 /\ snd h = snd e /\ (fst h = fst (fst e) \/ fst h = snd (fst e));
  hi_sub : incl edges E0;
  hi_cap : zlen hole + zlen edges <= cap;
  hi_start : In a0 (map fst hole) }.
Lemma hinv_perm : forall E0 cap a0 edges edges' hole, Permutation edges edges' -> hinv E0 cap a0 edges hole -> hinv E0 cap a0 edges' hole.
Proof.
  intros E0 cap a0 edges edges' hole P [H1 H2 H3 H4 H5 H6]. constructor; auto.
  - eapply perm_trans; [exact H1|]. apply Permutation_app_head, Permutation_map, P.
  - intros e He. apply H4. eapply Permutation_in; [apply Permutation_sym, P|exact He].
  - apply Permutation_length in P. unfold zlen in *. lia.
Qed.
Lemma steps_snoc : forall l x y, steps ((l ++ [x]) ++ [y]) = steps (l ++ [x]) ++ [(x, y)].
Proof. intros l x y. rewrite <- app_assoc. cbn [app]. apply steps_join. Qed.
Lemma hinv_front : forall E0 cap a0 a b x edges h hole, hinv E0 cap a0 ((a, b, x) :: edges) (h :: hole) -> fst h = b ->
  hinv E0 cap a0 edges ((a, x) :: h :: hole).
Proof.
  intros E0 cap a0 a b x edges h hole [H1 H2 H3 H4 H5 H6] Hb. assert (In (a, b, x) E0) as IE by (apply H4; now left). constructor.
  - cbn [map fst] in *. rewrite steps_cons. rewrite Hb in *. eapply perm_trans; [exact H1|]. cbn [app]. apply Permutation_sym, Permutation_middle.
  - intros k [<-|Hk]; [|now apply H2]. cbn [snd]. apply in_map_iff. exists (a, b, x). auto.
  - intros k [<-|Hk]; [|now apply H3]. exists (a, b, x). cbn. auto.
  - intros e He. apply H4. now right.
  - rewrite !zlen_cons in *. lia.
  - now right.
Qed.
Lemma hinv_back : forall E0 cap a0 a b x edges h hole, hinv E0 cap a0 ((a, b, x) :: edges) (hole ++ [h]) -> fst h = a ->
  hinv E0 cap a0 edges ((hole ++ [h]) ++ [(b, x)]).
Proof.
  intros E0 cap a0 a b x edges h hole [H1 H2 H3 H4 H5 H6] Ha. assert (In (a, b, x) E0) as IE by (apply H4; now left). constructor.
  - rewrite !map_app in *. cbn [map fst] in *. rewrite steps_snoc, Ha in *. eapply perm_trans; [exact H1|]. rewrite <- app_assoc. apply Permutation_refl.
  - intros k Hk. apply in_app_iff in Hk. destruct Hk as [Hk|[<-|[]]]; [now apply H2|]. cbn [snd]. apply in_map_iff. exists (a, b, x). auto.
  - intros k Hk. apply in_app_iff in Hk. destruct Hk as [Hk|[<-|[]]]; [now apply H3|]. exists (a, b, x). cbn. auto.
  - intros e He. apply H4. now right.
  - unfold zlen in *. rewrite !app_length in *. cbn [length] in *. lia.
  - rewrite map_app. apply in_or_app. now left.
Qed.
Lemma hole_ne : forall E0 cap a0 edges hole, hinv E0 cap a0 edges hole -> hole <> [].
Proof. intros E0 cap a0 edges hole H ->. destruct (hi_start _ _ _ _ _ H). Qed.
Lemma drop_at : forall {A} (l : list A) i x, get l i = Ok x ->
  exists l', (let* z := get l (zlen l - 1) in let* l := set l i z in Ok (removelast l)) = Ok l' /\ Permutation l (x :: l') /\ zlen l' = zlen l - 1.
Proof.
  intros A l i x H. destruct (swap_remove l i x H) as (y & l1 & E1 & E2 & P & L). rewrite E1. cbn [bind]. rewrite E2. cbn [bind]. eauto.
Qed.
Lemma holePass_ok : forall E0 cap a0 fuel i edges hole m, hinv E0 cap a0 edges hole -> 0 <= i <= zlen edges -> zlen edges - i <= Z.of_nat fuel ->
  exists edges' hole' m', holePass fuel cap i edges hole m = Ok (edges', hole', m') /\ hinv E0 cap a0 edges' hole' /\
    ((m' = m /\ edges' = edges /\ hole' = hole /\ Forall (nomatch hole) (skipn (Z.to_nat i) edges)) \/ (m' = true /\ zlen edges' < zlen edges)).
Proof.
  intros E0 cap a0. induction fuel as [|fuel IH]; intros i edges hole m HI Hi HF.
  - exists edges, hole, m. cbn [holePass]. destruct (Z.ltb_spec i (zlen edges)); [lia|]. split; [reflexivity|]. split; [exact HI|]. left.
    repeat (split; [reflexivity|]). rewrite skipn_all2 by (unfold zlen in *; lia). constructor.
  - cbn [holePass]. destruct (Z.ltb_spec i (zlen edges)) as [Lt|Ge].
    2:{ exists edges, hole, m. split; [reflexivity|]. split; [exact HI|]. left. repeat (split; [reflexivity|]). rewrite skipn_all2 by (unfold zlen in *; lia). constructor. }
    destruct (get_in_range edges i ltac:(lia)) as ([[a b] x] & Ee). rewrite Ee. cbn [bind].
    assert (exists h0 t, hole = h0 :: t) as (h0 & t & Eh) by (pose proof (hole_ne _ _ _ _ _ HI); destruct hole; [contradiction|eauto]).
    destruct (rev_case hole) as [E|(k & h1 & Ek)]; [subst hole; discriminate|].
    assert (get hole 0 = Ok h0) as -> by (rewrite Eh; reflexivity). cbn [bind].
    assert (get hole (zlen hole - 1) = Ok h1) as -> by (rewrite Ek; apply get_last). cbn [bind].
    destruct (drop_at edges i _ Ee) as (l' & El & P & Ll).
    pose proof (hi_cap _ _ _ _ _ HI) as HC.
    destruct (Z.eqb_spec (fst h0) b) as [Eb|Nb].
    + unfold pushFront. rewrite Z.geb_leb. destruct (Z.leb_spec cap (zlen hole)); [lia|]. cbn [bind]. rewrite El. cbn [bind].
      assert (hinv E0 cap a0 l' ((a, x) :: hole)) as HI'.
      { rewrite Eh in *. eapply hinv_front; [|exact Eb]. eapply hinv_perm; [exact P|exact HI]. }
      destruct (IH i l' ((a, x) :: hole) true HI') as (edges' & hole' & m' & E' & HI2 & HM); [lia|lia|].
      exists edges', hole', m'. split; [exact E'|]. split; [exact HI2|]. right. destruct HM as [(-> & -> & _)|(-> & L)]; split; auto; lia.
    + destruct (Z.eqb_spec (fst h1) a) as [Ea|Na].
      * unfold pushBack. rewrite Z.geb_leb. destruct (Z.leb_spec cap (zlen hole)); [lia|]. cbn [bind]. rewrite El. cbn [bind].
        assert (hinv E0 cap a0 l' (hole ++ [(b, x)])) as HI'.
        { rewrite Ek in *. eapply hinv_back; [|exact Ea]. eapply hinv_perm; [exact P|exact HI]. }
        destruct (IH i l' (hole ++ [(b, x)]) true HI') as (edges' & hole' & m' & E' & HI2 & HM); [lia|lia|].
        exists edges', hole', m'. split; [exact E'|]. split; [exact HI2|]. right. destruct HM as [(-> & -> & _)|(-> & L)]; split; auto; lia.
      * destruct (IH (i + 1) edges hole m HI) as (edges' & hole' & m' & E' & HI2 & HM); [lia|lia|].
        exists edges', hole', m'. split; [exact E'|]. split; [exact HI2|]. destruct HM as [(-> & -> & -> & F)|R]; [left|now right].
        repeat (split; [reflexivity|]). apply get_ok in Ee. destruct Ee as [_ Ee].
        replace (Z.to_nat (i + 1)) with (S (Z.to_nat i)) in F by lia.
        assert (skipn (Z.to_nat i) edges = (a, b, x) :: skipn (S (Z.to_nat i)) edges) as ->.
        { clear -Ee. revert edges Ee. induction (Z.to_nat i) as [|n IHn]; intros [|y l] E; try discriminate; [|apply IHn, E]. inversion E. reflexivity. }
        constructor; [|exact F]. unfold nomatch. cbn [fst snd]. split.
        -- rewrite Eh. cbn [map hd]. congruence.
        -- rewrite Ek, map_app. cbn [map]. rewrite last_last. congruence.
Qed.
Lemma holeLoop_ok : forall E0 cap a0 fuel edges hole, hinv E0 cap a0 edges hole -> (length edges < fuel)%nat ->
  exists edges' hole', holeLoop fuel cap edges hole = Ok hole' /\ hinv E0 cap a0 edges' hole' /\ Forall (nomatch hole') edges'.
Proof.
  intros E0 cap a0. induction fuel as [|fuel IH]; intros edges hole HI HF; [lia|]. cbn [holeLoop].
  destruct (Z.eqb_spec (zlen edges) 0) as [Z0|Z0].
  - exists edges, hole. split; [reflexivity|]. split; [exact HI|]. destruct edges; [constructor|]. rewrite zlen_cons in Z0. pose proof (zlen_nonneg edges). lia.
  - destruct (holePass_ok E0 cap a0 (length edges) 0 edges hole false HI) as (edges' & hole' & m' & E & HI' & HM); [unfold zlen; lia|unfold zlen; lia|].
    rewrite E. cbn [bind]. destruct HM as [(-> & -> & -> & F)|(-> & L)].
    + exists edges, hole. auto.
    + apply IH; [exact HI'|unfold zlen in *; lia].
Qed.

(** * Filling the hole *)
Lemma holeVerts_ok : forall verts hole, Forall (fun h : hent => 0 <= fst h /\ fst h * 3 + 2 < zlen verts) hole ->
  exists t, holeVerts verts hole = Ok t /\ zlen t = 4 * zlen hole.
Proof.
  intros verts hole HF. unfold holeVerts.
  destruct (foldM_inv (fun t (h : hent) =>
    let* x := get verts (fst h * 3) in
    let* y := get verts (fst h * 3 + 1) in
    let* z := get verts (fst h * 3 + 2) in
    Ok (t ++ [x; y; z; 0])) (fun pre t => zlen t = 4 * zlen pre) hole []) as (t & E & L); [reflexivity| |eauto].
  intros pre h post t -> L. apply Forall_app in HF. destruct HF as [_ HF]. inversion HF as [|? ? [H0 H1] _]; subst.
  destruct (get_in_range verts (fst h * 3) ltac:(lia)) as (x & ->). destruct (get_in_range verts (fst h * 3 + 1) ltac:(lia)) as (y & ->).
  destruct (get_in_range verts (fst h * 3 + 2) ltac:(lia)) as (z & ->). cbn [bind]. eexists. split; [reflexivity|].
  rewrite zlen_app, zlen_snoc, L. unfold zlen. cbn [length]. lia.
Qed.
Lemma triangulate_two : forall verts cap, 8 <= zlen verts -> triangulate 2 verts [0; 1] cap = Panic.
Proof.
  intros verts cap H. unfold triangulate.
  assert (exists ind, flagEars 2 verts [0; 1] = Ok ind /\ zlen ind = 2) as (ind & -> & L).
  { unfold flagEars.
    assert (holds [0; 1] [0; 1]) as Hh.
    { split; [constructor|reflexivity]. }
    destruct (foldM_inv (fun indices i =>
      let i1 := next i 2 in
      let i2 := next i1 2 in
      let* d := diagonal i i2 2 verts indices in
      if d then setFlag indices i1 else Ok indices) (fun _ ind => holds ind [0; 1] /\ zlen ind = 2) (zseq (Z.to_nat 2)) [0; 1]) as (ind & E & _ & L); [split; [exact Hh|reflexivity]| |eauto].
    intros pre i post ind E [Hi Li]. assert (0 <= i < 2) as Hr.
    { assert (In i (zseq (Z.to_nat 2))) as G by (rewrite E; apply in_or_app; right; now left). apply in_zseq in G. lia. }
    assert (Forall (okIdx verts) [0; 1]) as Hv.
    { repeat (constructor; [unfold okIdx; lia|]). constructor. }
    cbv zeta. destruct (diagonal_ok verts ind [0; 1] 2 Hi Hv eq_refl ltac:(lia) i (next (next i 2) 2)) as [d Ed]; [exact Hr|apply next_range; [lia|apply next_range; lia]|].
    rewrite Ed. cbn [bind]. destruct d; [|eauto].
    destruct (setFlag_ok ind [0; 1] 2 Hi eq_refl (next i 2)) as (ind' & E' & H'); [apply next_range; lia|].
    exists ind'. split; [exact E'|]. split; [exact H'|]. unfold setFlag in E'. apply bind_ok in E' as (x & _ & E'). apply set_ok in E'. destruct E' as [_ ->].
    unfold zlen in *. rewrite upd_length. exact Li. }
  cbn [bind]. change (Z.to_nat (2 - 3)) with O. cbn [clipLoop].
  destruct (get_in_range ind 0 ltac:(lia)) as (a & ->). destruct (get_in_range ind 1 ltac:(lia)) as (b & ->). cbn [bind].
  rewrite get_panic by lia. reflexivity.
Qed.
Lemma msteps_info : forall {X} nvp verts (join : X -> X -> X) (P : X -> Prop) qs qs', (forall a b, P a -> P b -> P (join a b)) ->
  msteps nvp verts join qs qs' -> Forall (fun q => P (snd q)) qs -> Forall (fun q => P (snd q)) qs'.
Proof.
  intros X nvp verts join P qs qs' HJ. induction 1 as [qs|q1 q2 q3 S _ IH]; intros F; [exact F|]. apply IH. clear IH.
  destruct S as [qs la xa lb xb ea eb rest qs' P1 _ P2]. apply (Permutation_Forall P1) in F. inversion F as [|? ? Fa F']; subst. inversion F' as [|? ? Fb F'']; subst.
  apply (Permutation_Forall (Permutation_sym P2)). constructor; [|exact F'']. cbn [snd] in *. auto.
Qed.
Lemma msteps_polys : forall {X} nvp verts (join : X -> X -> X) (P : list Z * X -> Prop) qs qs',
  (forall la xa lb xb l, P (la, xa) -> P (lb, xb) -> incl l (la ++ lb) -> P (l, join xa xb)) ->
  msteps nvp verts join qs qs' -> Forall P qs -> Forall P qs'.
Proof.
  intros X nvp verts join P qs qs' HJ. induction 1 as [qs|q1 q2 q3 S _ IH]; intros F; [exact F|]. apply IH. clear IH.
  destruct S as [qs la xa lb xb ea eb rest qs' P1 (_ & Ra & Rb & _) P2]. apply (Permutation_Forall P1) in F. inversion F as [|? ? Fa F']; subst. inversion F' as [|? ? Fb F'']; subst.
  apply (Permutation_Forall (Permutation_sym P2)). constructor; [|exact F'']. apply (HJ la xa lb xb); auto.
  intros v Hv. apply in_or_app. apply (merged_in la lb ea eb); [lia|lia|exact Hv].
Qed.
(** Region and area of a triangle. *)
Definition infoOf (hole : list hent) (t : Z * Z * Z) : Z * Z :=
  let '(t0, t1, t2) := t in
  let r k := fst (snd (nth (Z.to_nat k) hole (0, (0, 0)))) in
  (if negb (r t0 =? r t1) || negb (r t1 =? r t2) then 0 else r t0, snd (snd (nth (Z.to_nat t0) hole (0, (0, 0))))).
Definition okInfo (x : Z * Z) : Prop := 0 <= fst x <= 65535 /\ 0 <= snd x <= 255.
Lemma get_nth : forall {A} (l : list A) i d, 0 <= i < zlen l -> get l i = Ok (nth (Z.to_nat i) l d).
Proof. intros A l i d H. apply get_ok. split; [lia|]. apply nth_error_nth'. unfold zlen in H. lia. Qed.
Lemma holeInfo_ok : forall hole t, Forall (fun h : hent => okInfo (snd h)) hole -> (forall v, In v (corners t) -> 0 <= v < zlen hole) ->
  holeInfo hole t = Ok (infoOf hole t) /\
  (exists h, In h hole /\ snd (infoOf hole t) = snd (snd h)) /\
  (fst (infoOf hole t) = 0 \/ forall k, In k (corners t) -> exists h, In h hole /\ fst h = nth (Z.to_nat k) (map fst hole) 0 /\ fst (infoOf hole t) = fst (snd h)) /\
  (forall x, Forall (fun h => snd h = x) hole -> infoOf hole t = x).
Proof.
  intros hole [[t0 t1] t2] HF HR. unfold holeInfo, infoOf. cbn [corners In] in HR.
  assert (forall k, 0 <= k < zlen hole -> In (nth (Z.to_nat k) hole (0, (0, 0))) hole) as HI by (intros k Hk; apply nth_In; unfold zlen in Hk; lia).
  rewrite (get_nth hole t0 (0, (0, 0))), (get_nth hole t1 (0, (0, 0))), (get_nth hole t2 (0, (0, 0))) by auto. cbn [bind].
  pose proof (HI t0 (HR t0 ltac:(auto))) as I0. pose proof (HI t1 (HR t1 ltac:(auto))) as I1. pose proof (HI t2 (HR t2 ltac:(auto))) as I2.
  set (a := nth (Z.to_nat t0) hole (0, (0, 0))) in *. set (b := nth (Z.to_nat t1) hole (0, (0, 0))) in *. set (c := nth (Z.to_nat t2) hole (0, (0, 0))) in *.
  pose proof HF as HF'. rewrite Forall_forall in HF'. destruct (HF' _ I0) as [Ra Aa]. split; [|split; [|split]].
  - rewrite u16_id by (unfold is_u16; lia). unfold u8. rewrite Z.mod_small by lia. reflexivity.
  - exists a. cbn [snd]. split; [exact I0|reflexivity].
  - cbn [fst]. destruct (Z.eqb_spec (fst (snd a)) (fst (snd b))) as [E1|]; [|now left]. destruct (Z.eqb_spec (fst (snd b)) (fst (snd c))) as [E2|]; [|now left].
    right. cbn [negb orb corners]. change 0 with (fst (0, (0, 0))). intros k [<-|[<-|[<-|[]]]]; [exists a|exists b|exists c]; rewrite map_nth; (split; [assumption|]); (split; [reflexivity|congruence]).
  - intros x HX. rewrite Forall_forall in HX. rewrite (HX _ I0), (HX _ I1), (HX _ I2), !Z.eqb_refl. cbn [negb orb]. destruct x; reflexivity.
Qed.

Lemma store_fold : forall {A} maxT (rows polys : list A),
  fold_left (fun polys q => if zlen polys >=? maxT then polys else polys ++ [q]) rows polys = polys ++ firstn (Z.to_nat (maxT - zlen polys)) rows.
Proof.
  intros A maxT. induction rows as [|q rows IH]; intros polys; cbn [fold_left]; [rewrite firstn_nil, app_nil_r; reflexivity|].
  rewrite Z.geb_leb. destruct (Z.leb_spec maxT (zlen polys)) as [L|L].
  - rewrite IH. replace (Z.to_nat (maxT - zlen polys)) with O by lia. reflexivity.
  - rewrite IH, zlen_snoc, <- app_assoc. replace (Z.to_nat (maxT - zlen polys)) with (S (Z.to_nat (maxT - (zlen polys + 1)))) by lia. reflexivity.
Qed.
Lemma pgood_proper : forall nvp nv q, proper nvp nv q -> pgood nvp nv q.
Proof. intros nvp nv q (L & F & _). split; assumption. Qed.
Lemma firstn_map : forall {A B} (f : A -> B) n l, firstn n (map f l) = map f (firstn n l).
Proof. intros A B f. induction n as [|n IH]; intros [|x l]; cbn; f_equal; auto. Qed.
Lemma without_length : forall {A} rem (V : list A), 0 <= rem < zlen V -> zlen (without rem V) = zlen V - 1.
Proof. intros A rem V H. unfold without, zlen in *. rewrite app_length, firstn_length, skipn_length. lia. Qed.

Lemma renumbered_proper : forall nvp nv rem q, 0 <= rem < nv -> ~ In rem (fst q) -> proper nvp nv q -> proper nvp (nv - 1) (renumbered rem q).
Proof.
  intros nvp nv rem q Hr NI (L & F & I). unfold proper, renumbered. cbn [fst snd]. rewrite map_length. split; [exact L|]. split; [|exact I].
  apply Forall_forall. intros v Hv. apply in_map_iff in Hv. destruct Hv as (u & <- & Hu). apply low_range; [exact Hr| |].
  - rewrite Forall_forall in F. auto.
  - intros ->. contradiction.
Qed.

Lemma remove_ok : forall nvp maxT cap V Q m rem, 3 <= nvp -> zlen V <= 21845 -> zlen Q * nvp <= 65535 -> Forall (proper nvp (zlen V)) Q ->
  0 <= rem < zlen V -> holdsPM nvp cap V Q m -> exists R K hole, torn rem Q R K hole /\
    ((hole = [] \/ (3 <= length hole)%nat) -> exists m' Q', removeVertex nvp maxT m rem = Ok m' /\ holdsPM nvp cap (without rem V) Q' m' /\
       patched nvp maxT rem (without rem V) R K hole Q' /\ Forall (proper nvp (zlen V - 1)) Q' /\ zlen Q' <= Z.max maxT (zlen Q)) /\
    (length hole = 2%nat -> removeVertex nvp maxT m rem = Panic).
Proof.
  intros nvp maxT cap V Q [verts nverts polys] rem Hn HV HQ HP Hr (EN & EL & EF & EP). cbn [pmNVerts pmVerts pmPolys] in *.
  change (polys = map (rowOf nvp) Q) in EP. subst polys.
  assert (Forall (pgood nvp (zlen V)) Q) as HG by (eapply Forall_impl; [|exact HP]; intros q; apply pgood_proper).
  unfold removeVertex. cbn [pmNVerts pmVerts pmPolys]. rewrite (removed_ok nvp (zlen V)) by (try assumption; lia). cbn [bind].
  set (cap' := occs rem (map fst Q) * nvp).
  pose proof (cap_enough nvp (zlen V) rem Q ltac:(lia) HG) as HC. fold cap' in HC.
  pose proof (zlen_nonneg (filter (has rem) Q)) as NF.
  destruct (removePolys_ok nvp (zlen V) rem cap' (length (map (rowOf nvp) Q)) Q 0 []) as (R & K & ER & PQ & HR & HK); try assumption; try lia.
  { pose proof (zlen_nonneg Q). lia. }
  { rewrite map_length. unfold zlen. lia. }
  { constructor. }
  { rewrite zlen_nil. lia. }
  rewrite ER. cbn [bind app]. clear ER.
  assert (Permutation (filter (has rem) Q) R) as PR.
  { eapply perm_trans; [apply Permutation_filter', PQ|]. rewrite filter_app.
    assert (filter (has rem) R = R) as -> by (clear -HR; induction HR as [|q R Hq _ IH]; [reflexivity|]; cbn [filter]; rewrite Hq; f_equal; exact IH).
    assert (filter (has rem) K = []) as -> by (clear -HK; induction HK as [|q K Hq _ IH]; [reflexivity|]; cbn [filter]; rewrite Hq; exact IH).
    rewrite app_nil_r. apply Permutation_refl. }
  assert (zlen (flat_map (rims rem) R) + zlen R <= cap') as HC'.
  { pose proof (Permutation_length (flat_map_perm (rims rem) _ _ PR)) as L1. pose proof (Permutation_length PR) as L2. unfold zlen in *. lia. }
  clear HC. pose proof (Permutation_Forall PQ HP) as HP'. apply Forall_app in HP'. destruct HP' as [HPR HPK].
  assert (exists rest, verts = flatten V ++ rest /\ length rest = (Z.to_nat (3 * cap) - 3 * length V)%nat /\ (3 * length V <= Z.to_nat (3 * cap))%nat) as (rest & EV & LR & LC).
  { exists (skipn (3 * length V) verts). split; [rewrite <- EF; symmetry; apply firstn_skipn|]. rewrite skipn_length. split; [lia|].
    apply (f_equal (@length Z)) in EF. rewrite firstn_length, flatten_length in EF. lia. }
  rewrite EN. change (Z.of_nat (length V)) with (zlen V). rewrite EV.
  destruct (drop_vert rem V rest Hr) as (rest' & ED & LR'). rewrite ED. cbn [bind]. clear ED.
  rewrite (lowerPolys_ok nvp (zlen V)) by (try lia; (eapply Forall_impl; [intros q; apply pgood_proper|exact HPK])). cbn [bind].
  set (V' := without rem V). set (verts' := flatten V' ++ rest').
  assert (zlen V' = zlen V - 1) as LV' by (apply without_length; exact Hr).
  assert (forall Q', Forall (proper nvp (zlen V - 1)) Q' -> holdsPM nvp cap V' Q' (mkPMesh verts' (zlen V - 1) (map (rowOf nvp) Q'))) as HOLD.
  { intros Q' _. unfold holdsPM. cbn [pmNVerts pmVerts pmPolys]. split; [unfold zlen in LV' |- *; lia|]. split.
    - unfold verts'. rewrite app_length, flatten_length. unfold zlen in *. lia.
    - split; [|reflexivity]. unfold verts'. rewrite firstn_app, flatten_length, Nat.sub_diag. cbn [firstn]. rewrite app_nil_r. apply firstn_all2. rewrite flatten_length. lia. }
  set (E0 := map (lowerEdge rem) (flat_map (rims rem) R)).
  assert (Permutation (map fst E0) (hole_edges rem (map fst R))) as PE.
  { unfold E0, hole_edges.
    assert (forall l : list hedge, map fst (map (lowerEdge rem) l) = map (fun e => (low rem (fst e), low rem (snd e))) (map fst l)) as ->.
    { clear. induction l as [|[[a b] x] l IH]; [reflexivity|]. cbn [map lowerEdge fst snd]. rewrite !lower_low. f_equal. exact IH. }
    apply Permutation_map.
    clear. induction R as [|q R IH]; [apply Permutation_refl|]. cbn [flat_map map]. rewrite map_app. apply Permutation_app; [apply rims_rim|exact IH]. }
  assert (forall e, In e E0 -> In (snd e) (map snd R) /\ 0 <= fst (fst e) < zlen V - 1 /\ 0 <= snd (fst e) < zlen V - 1 /\
    touches rem R (fst (fst e)) (snd e) /\ touches rem R (snd (fst e)) (snd e)) as HE.
  { intros e He. unfold E0 in He. apply in_map_iff in He. destruct He as ([[a b] x] & <- & He). apply in_flat_map in He. destruct He as (q & Hq & He).
    unfold rims in He. apply in_map_iff in He. destruct He as ([a' b'] & E & He). inversion E; subst a' b' x; clear E. apply filter_In in He. destruct He as [He Hu].
    unfold lowerEdge. cbn [fst snd]. split; [now apply in_map|]. rewrite !lower_low.
    apply (Permutation_in _ (backs_perm _)) in He. apply borders_in in He. destruct He as [Ia Ib].
    unfold uses in Hu. cbn [fst snd] in Hu. rewrite negb_orb in Hu. apply andb_true_iff in Hu. destruct Hu as [Ua Ub].
    apply negb_true_iff, Z.eqb_neq in Ua. apply negb_true_iff, Z.eqb_neq in Ub.
    rewrite Forall_forall in HPR. destruct (HPR q Hq) as (_ & F & _). rewrite Forall_forall in F. split; [apply low_range; auto|]. split; [apply low_range; auto|].
    split; [exists q, a|exists q, b]; (split; [exact Hq|]); (split; [reflexivity|]); auto. }
  assert (Forall (fun q => In rem (fst q)) R) as HR' by (eapply Forall_impl; [|exact HR]; intros q; apply has_in).
  assert (Forall (fun q => ~ In rem (fst q)) K) as HK' by (eapply Forall_impl; [|exact HK]; intros q; apply has_not).
  assert (Forall (proper nvp (zlen V - 1)) (map (renumbered rem) K)) as HPK'.
  { apply Forall_forall. intros q Hq. apply in_map_iff in Hq. destruct Hq as (q0 & <- & Hq). rewrite Forall_forall in HPK, HK'. apply renumbered_proper; auto. }
  assert (zlen (map (renumbered rem) K) = zlen K) as LK by (unfold zlen; now rewrite map_length).
  assert (zlen Q = zlen R + zlen K) as LQ by (apply Permutation_length in PQ; rewrite app_length in PQ; unfold zlen; lia).
  pose proof (zlen_nonneg R) as NR. pose proof (zlen_nonneg K) as NK.
  assert (length E0 = length (flat_map (rims rem) R)) as LE0 by apply map_length. clearbody E0.
  destruct E0 as [|[[ea eb] x0] E1].
  - exists R, K, []. split; [|split; [|discriminate]].
    + split; [exact PQ|]. split; [exact HR'|]. split; [exact HK'|]. cbn [map] in PE. apply Permutation_nil in PE. rewrite PE.
      exists []. split; [apply Permutation_refl|]. split; [reflexivity|]. split; [congruence|constructor].
    + intros _. exists (mkPMesh verts' (zlen V - 1) (map (rowOf nvp) (map (renumbered rem) K))), (map (renumbered rem) K). split; [reflexivity|].
      split; [apply HOLD, HPK'|]. split; [|split; [exact HPK'|lia]].
      exists []. rewrite firstn_nil, app_nil_r. split; [reflexivity|]. split; [reflexivity|]. split; [congruence|]. split; constructor.
  - assert (zlen E1 + 1 = zlen (flat_map (rims rem) R)) as LE by (cbn [length] in LE0; unfold zlen; lia).
    assert (1 <= zlen R) as R1.
    { destruct R; [discriminate|]. rewrite zlen_cons. pose proof (zlen_nonneg R). lia. }
    pose proof (zlen_nonneg E1) as NE1.
    assert (pushBack cap' (ea, x0) [] = Ok [(ea, x0)]) as EPB by (unfold pushBack; rewrite zlen_nil, Z.geb_leb; destruct (Z.leb_spec cap' 0); [lia|reflexivity]).
    rewrite EPB. cbn [bind].
    set (E := (ea, eb, x0) :: E1) in *.
    assert (hinv E cap' ea E [(ea, x0)]) as HI.
    { constructor.
      - apply Permutation_refl.
      - intros h [<-|[]]. now left.
      - intros h [<-|[]]. exists (ea, eb, x0). split; [now left|]. split; [reflexivity|now left].
      - intros e He. exact He.
      - unfold E. rewrite !zlen_cons, zlen_nil. lia.
      - now left. }
    destruct (holeLoop_ok E cap' ea (S (length E)) E [(ea, x0)] HI ltac:(lia)) as (E2 & hole & EH & HI2 & NM). rewrite EH. cbn [bind]. clear EH HI.
    assert (2 <= length hole)%nat as L2.
    { destruct hole as [|h [|h' hole]]; [destruct (hi_start _ _ _ _ _ HI2)| |cbn; lia]. exfalso.
      pose proof (hi_start _ _ _ _ _ HI2) as HS. cbn [map] in HS. destruct HS as [HS|[]].
      pose proof (hi_perm _ _ _ _ _ HI2) as HPm. cbn [map steps combine tl app] in HPm. unfold E in HPm. cbn [map fst] in HPm.
      assert (In (ea, eb) (map fst E2)) as I2 by (eapply Permutation_in; [exact HPm|now left]).
      apply in_map_iff in I2. destruct I2 as (e & Ee & I2). rewrite Forall_forall in NM. destruct (NM e I2) as [_ NM2]. rewrite Ee in NM2. apply NM2. cbn. symmetry. exact HS. }
    assert (zlen hole <= zlen (flat_map (rims rem) R) + 1) as LH.
    { pose proof (Permutation_length (hi_perm _ _ _ _ _ HI2)) as PL. rewrite app_length, steps_length, !map_length in PL.
      unfold E in PL. cbn [length] in PL. unfold zlen in *. lia. }
    assert (zlen (flat_map (rims rem) R) <= zlen R * nvp) as LRm.
    { clear -HPR HR'. induction R as [|q R IH]; [cbn; lia|]. inversion HPR as [|? ? (L & _) HPR']; subst. inversion HR' as [|? ? Hq HR'']; subst.
      specialize (IH HPR' HR''). cbn [flat_map]. rewrite zlen_app, zlen_cons. pose proof (rims_length rem q Hq). unfold zlen in *. nia. }
    assert (forall h, In h hole -> 0 <= fst h < zlen V - 1) as HH.
    { intros h Hh. destruct (hi_verts _ _ _ _ _ HI2 h Hh) as (e & He & _ & Hv). destruct (HE e He) as (_ & A & B & _). destruct Hv as [->| ->]; assumption. }
    assert (forall h, In h hole -> In (snd h) (map snd R)) as HHI.
    { intros h Hh. pose proof (hi_in _ _ _ _ _ HI2 h Hh) as Hi. apply in_map_iff in Hi. destruct Hi as (e & <- & He). apply HE. exact He. }
    assert (length verts' = Z.to_nat (3 * cap) /\ (3 * length V' <= length verts')%nat) as [LVv LVv'].
    { unfold verts'. rewrite app_length, flatten_length. unfold zlen in *. lia. }
    destruct (holeVerts_ok verts' hole) as (tv & ET & LT).
    { apply Forall_forall. intros h Hh. specialize (HH h Hh). unfold zlen in *. lia. }
    rewrite ET. cbn [bind]. clear ET.
    exists R, K, (map fst hole). split; [|split].
    + split; [exact PQ|]. split; [exact HR'|]. split; [exact HK'|]. exists (map fst E2). split; [|split; [|split]].
      * eapply perm_trans; [apply Permutation_sym, PE|]. exact (hi_perm _ _ _ _ _ HI2).
      * intros F. rewrite F in PE. apply Permutation_sym, Permutation_nil in PE. discriminate.
      * intros _. rewrite map_length. exact L2.
      * apply Forall_forall. intros e He. apply in_map_iff in He. destruct He as (e' & <- & He). rewrite Forall_forall in NM. exact (NM e' He).
    + intros HL. assert (3 <= length hole)%nat as L3.
      { destruct HL as [HL|HL]; [destruct hole; [cbn in L2; lia|discriminate]|rewrite map_length in HL; exact HL]. }
      set (ids := map fst hole).
      assert (zlen ids = zlen hole) as Li by (unfold ids, zlen; now rewrite map_length).
      destruct (triangulate_fill (zlen hole) tv (zseq (Z.to_nat (zlen hole))) (zlen hole * 3) ids) as (r & tr & left & ETr & ERr & Dtr & Ctr & HT); try (unfold zlen in *; rewrite ?zseq_length; lia).
      { apply firstn_all2. rewrite zseq_length. lia. }
      rewrite ETr. cbn [bind]. clear ETr.
      replace (if r <? 0 then - r else r) with (zlen tr) by (destruct (Z.ltb_spec r 0); lia).
      assert (firstn (Z.to_nat (zlen tr)) tr = tr) as -> by (apply firstn_all2; unfold zlen; lia).
      assert (Forall (fun h : hent => okInfo (snd h)) hole) as OKI.
      { apply Forall_forall. intros h Hh. apply HHI in Hh. apply in_map_iff in Hh. destruct Hh as (q & Eq & Hq). rewrite Forall_forall in HPR.
        destruct (HPR q Hq) as (_ & _ & I). rewrite Eq in I. exact I. }
      rewrite (initialPolys_ok nvp ids (holeInfo hole) (infoOf hole) tr Hn).
      2:{ apply Forall_forall. intros v Hv. unfold ids in Hv. apply in_map_iff in Hv. destruct Hv as (h & <- & Hh). specialize (HH h Hh). unfold is_u16. lia. }
      2:{ apply Forall_forall. intros t Ht. rewrite Forall_forall in Dtr. split; [auto|]. split.
          - intros v Hv. specialize (Ctr t v Ht Hv). lia.
          - apply holeInfo_ok; [exact OKI|]. intros v Hv. apply (Ctr t v Ht Hv). }
      cbn [bind]. set (f := fun k => nth (Z.to_nat k) ids 0) in *. set (ts := map (map3 f) tr) in *.
      set (tx := map (fun t => (map3 f t, infoOf hole t)) tr).
      assert (map fst tx = ts) as Etx by (unfold tx; rewrite map_map; reflexivity).
      assert (map (fun t => (map f (corners t), infoOf hole t)) tr = map (fun t => (corners (fst t), snd t)) tx) as Eqs.
      { unfold tx. rewrite map_map. apply map_ext. intros [[a b] c]. reflexivity. }
      rewrite Eqs. set (qs := map (fun t => (corners (fst t), snd t)) tx).
      destruct (tri_incl _ _ _ HT) as [Ict Lts].
      assert (Forall (fun v => ok_vert verts' v /\ 0 <= v < zlen V' /\ at_xz verts' v = pos_in V' v) ids) as Vid.
      { apply Forall_forall. intros v Hv. unfold ids in Hv. apply in_map_iff in Hv. destruct Hv as (h & <- & Hh). specialize (HH h Hh).
        split; [unfold ok_vert; unfold zlen in *; lia|]. split; [lia|]. unfold at_xz, pos_in, verts'.
        destruct (nth (Z.to_nat (fst h)) V' (0, 0, 0)) as [[x y] z] eqn:N.
        assert (nth_error V' (Z.to_nat (fst h)) = Some (x, y, z)) as N' by (rewrite <- N; apply nth_error_nth'; unfold zlen in *; lia).
        destruct (flatten_nth V' rest' _ _ _ _ N') as (A & _ & C). rewrite Z2Nat.id in A, C by lia.
        apply get_ok in A, C. destruct A as [_ A], C as [_ C]. rewrite (nth_error_nth _ _ 0 A), (nth_error_nth _ _ 0 C). reflexivity. }
      assert (Forall (good nvp verts') qs) as Gq.
      { apply Forall_forall. intros q Hq. unfold qs in Hq. apply in_map_iff in Hq. destruct Hq as (t & <- & Ht). apply (in_map fst) in Ht. rewrite Etx in Ht.
        split; cbn [fst].
        - destruct t as [[[a b] c] u]. unfold zlen. cbn. lia.
        - apply Forall_forall. intros v Hv. apply (Ict _ Ht) in Hv. rewrite Forall_forall in Vid. apply Vid, Hv. }
      assert (length qs = length ts) as Lqs by (unfold qs; rewrite map_length, <- Etx, map_length; reflexivity).
      assert (zlen (map (rowOf (X := Z * Z) nvp) qs) = zlen qs) as -> by (unfold zlen; now rewrite map_length).
      assert (forall h, In h hole -> touches rem R (fst h) (snd h)) as HHT.
      { intros h Hh. destruct (hi_verts _ _ _ _ _ HI2 h Hh) as (e & He & -> & Hv). destruct (HE e He) as (_ & _ & _ & A & B). destruct Hv as [->| ->]; assumption. }
      set (P1 := fun n : poly => In (snd (snd n)) (map (fun q : poly => snd (snd q)) R) /\
        (fst (snd n) = 0 \/ forall v, In v (fst n) -> exists ar, touches rem R v (fst (snd n), ar))).
      assert (Forall P1 qs) as I1.
      { apply Forall_forall. intros q Hq. unfold qs, tx in Hq. rewrite map_map in Hq. apply in_map_iff in Hq. destruct Hq as (t & <- & Ht). unfold P1. cbn [fst snd].
        destruct (holeInfo_ok hole t OKI) as (_ & (h & Hh & E1') & E2' & _); [intros v Hv; apply (Ctr t v Ht Hv)|]. rewrite E1'. split.
        - apply HHI in Hh. apply in_map_iff in Hh. destruct Hh as (q & Eq & Hq). apply in_map_iff. exists q. rewrite Eq. auto.
        - destruct E2' as [E2'|E2']; [now left|]. right. intros v Hv.
          assert (corners (map3 f t) = map f (corners t)) as EC by (destruct t as [[? ?] ?]; reflexivity). rewrite EC in Hv.
          apply in_map_iff in Hv. destruct Hv as (k & <- & Hk). destruct (E2' k Hk) as (h' & Hh' & Ef & Er). exists (snd (snd h')). rewrite Er.
          unfold f, ids. rewrite <- Ef. replace (fst (snd h'), snd (snd h')) with (snd h') by (destruct (snd h'); reflexivity). apply HHT, Hh'. }
      assert (forall x, Forall (fun q => snd q = x) R -> Forall (fun q => snd q = x) qs) as IX.
      { intros x HX. apply Forall_forall. intros q Hq. unfold qs, tx in Hq. rewrite map_map in Hq. apply in_map_iff in Hq. destruct Hq as (t & <- & Ht). cbn [snd].
        destruct (holeInfo_ok hole t OKI) as (_ & _ & _ & U); [intros v Hv; apply (Ctr t v Ht Hv)|]. apply U.
        apply Forall_forall. intros h Hh. apply HHI in Hh. apply in_map_iff in Hh. destruct Hh as (q & <- & Hq). rewrite Forall_forall in HX. auto. }
      assert (exists N, (if zlen qs =? 0 then Ok (mkPMesh verts' (zlen V - 1) (map (rowOf nvp) (map (renumbered rem) K))) else
          let* rows := mergePolys nvp verts' joinRegs (map (rowOf nvp) qs) in
          Ok (mkPMesh verts' (zlen V - 1) (fold_left (fun polys q => if zlen polys >=? maxT then polys else polys ++ [q]) rows (map (rowOf nvp) (map (renumbered rem) K))))) =
          Ok (mkPMesh verts' (zlen V - 1) (map (rowOf nvp) (map (renumbered rem) K ++ firstn (Z.to_nat (maxT - zlen K)) N))) /\
          filled nvp V' ids (map fst N) /\ Forall P1 N /\ (forall x, Forall (fun q => snd q = x) R -> Forall (fun q => snd q = x) N)) as (N & EQ & HFl & IN & UN).
      { destruct (Z.eqb_spec (zlen qs) 0) as [Z0|Z0].
        - exists []. rewrite firstn_nil, app_nil_r. split; [reflexivity|]. split; [|split; [constructor|constructor]].
          assert (ts = []) as Ets by (apply length_zero_iff_nil; unfold zlen in Z0; lia). rewrite Ets in HT. eapply fill_none; exact HT.
        - destruct (mergePolys_ok nvp verts' joinRegs qs ltac:(lia) Gq) as (qs' & EM & SM). rewrite EM. pose proof (mergePolys_end _ _ _ _ _ EM) as FI. cbn [bind]. exists qs'.
          rewrite store_fold. split; [|split; [|split]].
          + do 2 f_equal. rewrite map_app, firstn_map. f_equal. f_equal. unfold zlen. rewrite !map_length. reflexivity.
          + rewrite <- Etx in HT. apply (fill_ok nvp verts' V' joinRegs ids tx left qs' Hn HT Vid SM FI).
          + eapply msteps_polys; [|exact SM|exact I1]. intros la xa lb xb l [Ha1 Ha2] [_ Hb2] Hl. unfold P1, joinRegs in *. cbn [fst snd] in *. split; [exact Ha1|].
            destruct (Z.eqb_spec (fst xa) (fst xb)) as [Ex|]; [|now left]. destruct Ha2 as [Ha2|Ha2]; [now left|]. destruct Hb2 as [Hb2|Hb2]; [left; congruence|].
            right. intros v Hv. apply Hl, in_app_iff in Hv. destruct Hv as [Hv|Hv]; [auto|]. rewrite Ex. auto.
          + intros x HX. specialize (IX x HX). eapply (msteps_info nvp verts' joinRegs (fun y => y = x)); [|exact SM|exact IX].
            intros a b -> ->. unfold joinRegs. rewrite Z.eqb_refl. destruct x; reflexivity. }
      rewrite EQ. clear EQ. eexists. exists (map (renumbered rem) K ++ firstn (Z.to_nat (maxT - zlen K)) N). split; [reflexivity|].
      assert (Forall (proper nvp (zlen V - 1)) (map (renumbered rem) K ++ firstn (Z.to_nat (maxT - zlen K)) N)) as HPN.
      { apply Forall_app. split; [exact HPK'|]. apply Forall_forall. intros q Hq.
        assert (In q N) as HqN by (rewrite <- (firstn_skipn (Z.to_nat (maxT - zlen K)) N); apply in_or_app; now left).
        destruct HFl as (ts' & left' & _ & _ & _ & HFl & _). rewrite Forall_forall in HFl. destruct (HFl (fst q)) as [L I]; [now apply in_map|].
        split; [exact L|]. split.
        - apply Forall_forall. intros v Hv. apply I in Hv. unfold ids in Hv. apply in_map_iff in Hv. destruct Hv as (h & <- & Hh). auto.
        - rewrite Forall_forall in IN. destruct (IN q HqN) as [A B]. rewrite Forall_forall in HPR. apply in_map_iff in A. destruct A as (qa & Ea & Ha).
          destruct (HPR qa Ha) as (_ & _ & _ & A2). split; [|rewrite <- Ea; exact A2]. destruct B as [B|B]; [rewrite B; lia|].
          destruct (fst q) as [|v0 q0] eqn:Efq; [unfold zlen in L; cbn in L; lia|].
          destruct (B v0 (or_introl eq_refl)) as (ar & qb & ub & Hb & Eb & _). destruct (HPR qb Hb) as (_ & _ & B1 & _). rewrite Eb in B1. exact B1. }
      split; [apply HOLD; exact HPN|]. split; [|split; [exact HPN|]].
      * exists N. split; [reflexivity|]. split; [intros F; destruct hole; [cbn in L2; lia|discriminate]|]. split; [intros _; exact HFl|]. split; [exact IN|exact UN].
      * rewrite zlen_app, LK. assert (zlen (firstn (Z.to_nat (maxT - zlen K)) N) <= Z.max 0 (maxT - zlen K)) by (unfold zlen; rewrite firstn_length; lia). lia.
    + rewrite map_length. intros L. assert (zlen hole = 2) as LH2 by (unfold zlen; lia).
      rewrite LH2. change (zseq (Z.to_nat 2)) with [0; 1]. rewrite triangulate_two; [reflexivity|]. assert (zlen hole = 2) by (unfold zlen; lia). lia.
Qed.

(** * A walk that is one chain *)
Lemma steps_in : forall p a b, In (a, b) (steps p) <-> exists u v, p = u ++ a :: b :: v.
Proof.
  intros p a b. split.
  - induction p as [|x [|y p] IH]; intros H; [destruct H..|]. rewrite steps_cons in H. destruct H as [H|H].
    + inversion H; subst. exists [], p. reflexivity.
    + destruct (IH H) as (u & v & E). exists (x :: u), v. rewrite E. reflexivity.
  - intros (u & v & ->). rewrite steps_join. apply in_or_app. right. rewrite steps_cons. now left.
Qed.
Lemma NoDup_split_unique : forall {A} (u u' v v' : list A) x, NoDup (u ++ x :: v) -> u ++ x :: v = u' ++ x :: v' -> u = u' /\ v = v'.
Proof.
  intros A. induction u as [|y u IH]; intros u' v v' x N E; destruct u' as [|z u']; cbn in *.
  - inversion E; auto.
  - inversion E; subst. inversion N as [|? ? NI _]; subst. exfalso. apply NI. apply in_or_app. right. now left.
  - inversion E; subst. inversion N as [|? ? NI _]; subst. exfalso. apply NI. apply in_or_app. right. now left.
  - inversion E; subst. inversion N; subst. destruct (IH u' v v' x) as [-> ->]; auto.
Qed.
Lemma walk_section : forall h p, NoDup p -> incl (steps h) (steps p) -> (2 <= length h)%nat -> exists u v, p = u ++ h ++ v.
Proof.
  induction h as [|x h IH]; intros p N I L; [cbn in L; lia|]. destruct h as [|y h]; [cbn in L; lia|].
  assert (In (x, y) (steps p)) as Hxy by (apply I; now left). apply steps_in in Hxy. destruct Hxy as (u & v & E).
  destruct h as [|z h]; [exists u, v; exact E|].
  destruct (IH p N) as (u' & v' & E'); [intros e He; apply I; now right|cbn; lia|].
  exists u, v'. rewrite E in E', N. change (u ++ x :: y :: v) with (u ++ [x] ++ y :: v) in *. rewrite app_assoc in *.
  cbn [app] in E'. destruct (NoDup_split_unique _ _ _ _ _ N E') as [E1 E2]. rewrite E, E2, <- !app_assoc. reflexivity.
Qed.
Lemma hd_app : forall (h v : list Z), h <> [] -> hd 0 (h ++ v) = hd 0 h.
Proof. intros [|x h] v H; [congruence|reflexivity]. Qed.
Lemma walk_chain : forall E hole p, NoDup p -> (2 <= length p)%nat -> Permutation E (steps p) -> longest_walk E hole -> hole = p.
Proof.
  intros E hole p N L P (rest & PR & _ & L2 & NM).
  assert (E <> []) as NE.
  { intros ->. apply Permutation_nil in P. destruct p as [|x [|y p]]; cbn in L; try lia. discriminate. }
  specialize (L2 NE). assert (Permutation (steps p) (steps hole ++ rest)) as PP by (eapply perm_trans; [apply Permutation_sym, P|exact PR]).
  destruct (walk_section hole p N) as (u & v & Ep); [|exact L2|].
  { intros e He. eapply Permutation_in; [apply Permutation_sym, PP|]. apply in_or_app. now left. }
  assert (forall a b, In (a, b) (steps hole) -> In a hole /\ In b hole) as SI.
  { intros a b H. apply steps_in in H. destruct H as (c & d & ->). split; apply in_or_app; right; [now left|right; now left]. }
  rewrite Forall_forall in NM.
  destruct (rev_case u) as [->|(u0 & a & ->)].
  - destruct v as [|b v]; [rewrite Ep; cbn; rewrite app_nil_r; reflexivity|]. exfalso. cbn [app] in Ep.
    destruct (rev_case hole) as [->|(h0 & l & Eh)]; [cbn in L2; lia|].
    assert (In (l, b) (steps p)) as Hs by (apply steps_in; exists h0, v; rewrite Ep, Eh, <- app_assoc; reflexivity).
    eapply Permutation_in in Hs; [|exact PP]. apply in_app_iff in Hs. destruct Hs as [Hs|Hs].
    + apply SI in Hs. rewrite Ep in N. apply NoDup_remove_2 in N. apply N. apply in_or_app. left. apply Hs.
    + apply NM in Hs. cbn [fst snd] in Hs. destruct Hs as [_ Hs]. apply Hs. rewrite Eh, last_last. reflexivity.
  - exfalso. destruct hole as [|b h]; [cbn in L2; lia|].
    assert (In (a, b) (steps p)) as Hs by (apply steps_in; exists u0, (h ++ v); rewrite Ep, <- app_assoc; reflexivity).
    eapply Permutation_in in Hs; [|exact PP]. apply in_app_iff in Hs. destruct Hs as [Hs|Hs].
    + apply SI in Hs. rewrite Ep, <- app_assoc in N. cbn [app] in N. apply NoDup_remove_2 in N. apply N. apply in_or_app. right.
      change (b :: h ++ v) with ((b :: h) ++ v). apply in_or_app. left. apply Hs.
    + apply NM in Hs. cbn [fst snd hd] in Hs. destruct Hs as [Hs _]. congruence.
Qed.

(** * All marked vertices *)
Lemma dropFlag_ok : forall B A (x : Z) rest,
  foldM (fun fl j => let* x := get fl (j + 1) in set fl j x) (map (fun d => zlen A + d) (zseq (length B))) (A ++ x :: B ++ rest)
  = Ok (A ++ B ++ last B x :: rest).
Proof.
  induction B as [|y B IH]; intros A x rest; [reflexivity|].
  assert (map (fun d => zlen A + d) (zseq (length (y :: B))) = zlen A :: map (fun d => zlen (A ++ [y]) + d) (zseq (length B))) as ->.
  { unfold zseq. cbn [length seq map]. rewrite Z.add_0_r. f_equal. rewrite <- seq_shift, !map_map. apply map_ext. intros d. rewrite zlen_snoc. lia. }
  cbn [foldM app]. rewrite get_off by lia. change (get (x :: y :: B ++ rest) 1) with (Ok y). cbn [bind].
  rewrite set_mid. cbn [bind]. replace (A ++ y :: y :: B ++ rest) with ((A ++ [y]) ++ y :: B ++ rest) by (rewrite <- app_assoc; reflexivity).
  rewrite IH. rewrite <- app_assoc, last_shift. reflexivity.
Qed.
Definition flag (b : bool) : Z := if b then 1 else 0.
Lemma drop_flag : forall F i rest, (i < length F)%nat ->
  exists rest', dropFlag (Z.of_nat i) (zlen F - 1) (map flag F ++ rest) = Ok (map flag (without (Z.of_nat i) F) ++ rest').
Proof.
  intros F i rest Hi. destruct (nth_error F i) as [x|] eqn:Ex; [|apply nth_error_None in Ex; lia].
  destruct (nth_error_split _ _ Ex) as (A & B & -> & <-). unfold dropFlag, without, zlen. rewrite Nat2Z.id, app_length. cbn [length].
  replace (Z.to_nat (Z.of_nat (length A + S (length B)) - 1 - Z.of_nat (length A))) with (length (map flag B)) by (rewrite map_length; lia).
  replace (Z.of_nat (length A)) with (zlen (map flag A)) by (unfold zlen; now rewrite map_length).
  rewrite map_app. cbn [map]. rewrite <- app_assoc. cbn [app]. rewrite dropFlag_ok.
  assert (firstn (length A) (A ++ x :: B) = A) as -> by (rewrite firstn_app, Nat.sub_diag, firstn_all; cbn; apply app_nil_r).
  assert (skipn (S (length A)) (A ++ x :: B) = B) as ->.
  { replace (S (length A)) with (length (A ++ [x])) by (rewrite app_length; cbn; lia). change (x :: B) with ([x] ++ B). rewrite app_assoc, skipn_app, Nat.sub_diag, skipn_all. reflexivity. }
  exists (last (map flag B) (flag x) :: rest). rewrite map_app, <- app_assoc. reflexivity.
Qed.

Lemma removeFlagged_ok : forall nvp maxT cap fuel i V F Q m rest, 3 <= nvp -> zlen V <= 21845 -> zlen Q <= maxT -> maxT * nvp <= 65535 ->
  Forall (proper nvp (zlen V)) Q -> holdsPM nvp cap V Q m -> length F = length V -> (i <= length V)%nat -> (2 * length V - i <= fuel)%nat ->
  exists V' F' Q' j, trimmed nvp maxT i V F Q V' F' Q' j /\ length F' = length V' /\ (length V' <= length V)%nat /\
    zlen Q' <= maxT /\ Forall (proper nvp (zlen V')) Q' /\
    ((exists m', removeFlagged fuel nvp maxT (Z.of_nat i) m (map flag F ++ rest) = Ok m' /\ holdsPM nvp cap V' Q' m' /\ j = length V') \/
     (removeFlagged fuel nvp maxT (Z.of_nat i) m (map flag F ++ rest) = Panic /\
      nth_error F' j = Some true /\ removable (Z.of_nat j) (map fst Q') /\ exists R K hole, torn (Z.of_nat j) Q' R K hole /\ length hole = 2%nat)).
Proof.
  intros nvp maxT cap. induction fuel as [|fuel IH]; intros i V F Q m rest Hn HV HQ HM HP HH LF Li HF.
  - assert (length V = 0)%nat by lia. assert (i = 0)%nat as -> by lia. exists V, F, Q, 0%nat. split; [constructor|]. split; [exact LF|]. split; [lia|]. split; [exact HQ|]. split; [exact HP|].
    left. exists m. cbn [removeFlagged]. destruct HH as (EN & HH). rewrite EN. destruct (Z.ltb_spec (Z.of_nat 0) (Z.of_nat (length V))); [lia|].
    split; [reflexivity|]. split; [split; assumption|lia].
  - cbn [removeFlagged]. assert (pmNVerts m = zlen V) as EN by apply HH. rewrite EN.
    destruct (Z.ltb_spec (Z.of_nat i) (zlen V)) as [Lt|Ge]; [unfold zlen in Lt|unfold zlen in Ge].
    2:{ exists V, F, Q, i. split; [constructor|]. split; [exact LF|]. split; [lia|]. split; [exact HQ|]. split; [exact HP|]. left. exists m. split; [reflexivity|]. split; [exact HH|lia]. }
    destruct (nth_error F i) as [f|] eqn:Ef; [|apply nth_error_None in Ef; lia].
    assert (get (map flag F ++ rest) (Z.of_nat i) = Ok (flag f)) as ->.
    { apply get_ok. split; [lia|]. rewrite Nat2Z.id, nth_error_app1 by (rewrite map_length; lia). rewrite nth_error_map, Ef. reflexivity. }
    cbn [bind].
    assert (zlen Q * nvp <= 65535) as HQn by nia.
    assert (Forall (pgood nvp (zlen V)) Q) as HG by (eapply Forall_impl; [|exact HP]; intros q; apply pgood_proper).
    assert (u16 (Z.of_nat i) = Z.of_nat i) as U by (apply u16_id; unfold is_u16, zlen in *; lia). rewrite U.
    assert (canRemoveVertex nvp m (Z.of_nat i) = Ok ((2 <? remaining (Z.of_nat i) (map fst Q)) && (length (open_ends (Z.of_nat i) (map fst Q)) <=? 2)%nat)) as EC.
    { destruct m as [mv mn mp]. destruct HH as (_ & _ & _ & EP). cbn [pmPolys] in EP. subst mp. apply (can_ok nvp (zlen V)); [lia|lia|exact HG]. }
    set (c := (2 <? remaining (Z.of_nat i) (map fst Q)) && (length (open_ends (Z.of_nat i) (map fst Q)) <=? 2)%nat) in *.
    assert (c = true <-> removable (Z.of_nat i) (map fst Q)) as Hc.
    { unfold c, removable. rewrite andb_true_iff, Z.ltb_lt, Nat.leb_le. reflexivity. }
    assert (forall b, (nth_error F i = Some false \/ (nth_error F i = Some true /\ ~ removable (Z.of_nat i) (map fst Q))) -> b = removeFlagged fuel nvp maxT (Z.of_nat i + 1) m (map flag F ++ rest) ->
      exists V' F' Q' j, trimmed nvp maxT i V F Q V' F' Q' j /\ length F' = length V' /\ (length V' <= length V)%nat /\
      zlen Q' <= maxT /\ Forall (proper nvp (zlen V')) Q' /\
      ((exists m', b = Ok m' /\ holdsPM nvp cap V' Q' m' /\ j = length V') \/
       (b = Panic /\ nth_error F' j = Some true /\ removable (Z.of_nat j) (map fst Q') /\ exists R K hole, torn (Z.of_nat j) Q' R K hole /\ length hole = 2%nat))) as KEEP.
    { intros b Hk ->. replace (Z.of_nat i + 1) with (Z.of_nat (S i)) by lia.
      destruct (IH (S i) V F Q m rest Hn HV HQ HM HP HH LF ltac:(lia) ltac:(lia)) as (V' & F' & Q' & j & T & L1 & L2 & L3 & PP & C).
      exists V', F', Q', j. split; [eapply trimmed_keep; eassumption|]. auto 10. }
    destruct f; cbn [flag].
    2:{ apply KEEP; [left; exact Ef|reflexivity]. }
    cbn [Z.eqb]. rewrite EC. cbn [bind]. destruct c eqn:Ec; cbn [negb].
    2:{ apply KEEP; [|reflexivity]. right. split; [exact Ef|]. intros R. apply Hc in R. discriminate. }
    assert (removable (Z.of_nat i) (map fst Q)) as HR by (apply Hc; reflexivity). clear KEEP EC Hc.
    destruct (remove_ok nvp maxT cap V Q m (Z.of_nat i) Hn HV HQn HP) as (R & K & hole & HT & HOK & HBAD); [unfold zlen; lia|exact HH|].
    assert (hole = [] \/ (3 <= length hole)%nat \/ length hole = 2%nat) as [H|[H|H]].
    { destruct HT as (_ & _ & _ & (r & P & E0 & E2 & _)).
      destruct (hole_edges (Z.of_nat i) (map fst R)) as [|e es]; [left; auto|]. right. assert (2 <= length hole)%nat by (apply E2; discriminate). lia. }
    1,2: destruct HOK as (m' & Q1 & ER & HH' & HPt & HP1 & LQ1); [auto|]; rewrite ER; cbn [bind];
      assert (pmNVerts m' = zlen F - 1) as -> by (destruct HH' as (-> & _); fold (zlen (without (Z.of_nat i) V)); rewrite without_length by (unfold zlen; lia); unfold zlen; lia);
      destruct (drop_flag F i rest ltac:(lia)) as (rest' & ->); cbn [bind];
      pose proof (without_length (Z.of_nat i) V ltac:(unfold zlen; lia)) as LW; pose proof (without_length (Z.of_nat i) F ltac:(unfold zlen; lia)) as LWF;
      (destruct (IH i (without (Z.of_nat i) V) (without (Z.of_nat i) F) Q1 m' rest' Hn) as (V' & F' & Q' & j & T & L1 & L2 & L3 & PP & C);
        [lia|lia|exact HM|rewrite LW; exact HP1|exact HH'|unfold zlen in *; lia|unfold zlen in *; lia|unfold zlen in *; lia|]);
      exists V', F', Q', j; (split; [eapply trimmed_drop; eassumption|]); (split; [exact L1|]); (split; [unfold zlen in *; lia|]); auto.
    rewrite (HBAD H). cbn [bind]. exists V, F, Q, i. split; [constructor|]. split; [exact LF|]. split; [lia|]. split; [exact HQ|]. split; [exact HP|].
    right. split; [reflexivity|]. split; [exact Ef|]. split; [exact HR|]. exists R, K, hole. auto.
Qed.
