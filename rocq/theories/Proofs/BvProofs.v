From Coq Require Import ZArith List Bool Lia Permutation.
From Verif.Base Require Import Res GoNum F32 Num Grid Bytes.
From Verif.Model Require Import MeshTypes Bounds BvTree.
From Verif.Spec Require Import BvSpec.
From Verif.Proofs Require Import BasicsProofs.
Import ListNotations.
Open Scope Z_scope.

Ltac ifs := repeat match goal with |- context [if ?b then _ else _] => destruct b eqn:? end.

(** * calcExtends *)
Definition ext_fold (tl : list bvItem) b := fold_left ext_step tl b.

Lemma ext_fold_spec : forall tl mn mx done,
  (forall it, In it done -> encloses mn mx it) -> touches mn mx done ->
  let '(mn', mx') := fold_left ext_step tl (mn, mx) in
  (forall it, In it (done ++ tl) -> encloses mn' mx' it) /\ touches mn' mx' (done ++ tl).
Proof.
  induction tl as [|x tl IH]; intros mn mx done E T.
  - rewrite app_nil_r. split; assumption.
  - cbn [fold_left].
    change (done ++ x :: tl) with (done ++ [x] ++ tl). rewrite app_assoc.
    destruct (ext_step (mn, mx) x) as [mn1 mx1] eqn:S1. apply IH.
    + intros it I. apply in_app_or in I.
      unfold ext_step in S1. injection S1 as <- <-.
      unfold encloses, le3. cbn [c0 c1 c2].
      destruct I as [I|[<-|[]]].
      * destruct (E it I) as ((A & B & C) & (F & G & H)).
        repeat apply conj; ifs; lia.
      * repeat apply conj; ifs; lia.
    + destruct T as [T1 T2]. unfold ext_step in S1. injection S1 as <- <-.
      assert (K : forall (f : bvItem -> Z * Z * Z) (c : Z * Z * Z -> Z) (b : bool) old,
                 (exists it, In it done /\ c (f it) = old) ->
                 exists it, In it (done ++ [x]) /\ c (f it) = (if b then c (f x) else old)).
      { intros f c b old (it & I & Q). destruct b.
        - exists x. split; [apply in_or_app; right; left; reflexivity|reflexivity].
        - exists it. split; [apply in_or_app; left; exact I|exact Q]. }
      split; intros c [<-|[<-|[<-|[]]]]; cbn [c0 c1 c2]; apply K; [apply (T1 c0)|apply (T1 c1)|apply (T1 c2)|apply (T2 c0)|apply (T2 c1)|apply (T2 c2)]; cbn; auto.
Qed.

Lemma foldM_get : forall {A B} (f : B -> A -> B) (mid pre post : list A) b,
  foldM (fun b k => let* it := get (pre ++ mid ++ post) (zlen pre + k) in Ok (f b it)) (zseq (length mid)) b
  = Ok (fold_left f mid b).
Proof.
  induction mid as [|x mid IH] using rev_ind; intros pre post b; [reflexivity|].
  rewrite app_length, Nat.add_1_r, zseq_S, foldM_app.
  rewrite <- app_assoc. rewrite IH. cbn [bind].
  rewrite fold_left_app. cbn [fold_left foldM].
  rewrite app_assoc.
  replace (zlen pre + Z.of_nat (length mid)) with (zlen (pre ++ mid)) by (rewrite zlen_app; reflexivity).
  cbn [app]. rewrite get_app_here. reflexivity.
Qed.

Lemma calcExtends_fold : forall pre it tl post,
  calcExtends (pre ++ (it :: tl) ++ post) (zlen pre) (zlen pre + zlen (it :: tl))
  = Ok (fold_left ext_step tl (iMin it, iMax it)).
Proof.
  intros. unfold calcExtends. cbn [app]. rewrite get_app_here. cbn [bind].
  replace (Z.to_nat (zlen pre + zlen (it :: tl) - zlen pre - 1)) with (length tl) by (rewrite zlen_cons; unfold zlen; lia).
  change (pre ++ it :: tl ++ post) with (pre ++ [it] ++ tl ++ post). rewrite app_assoc.
  replace (zlen pre + 1) with (zlen (pre ++ [it])) by apply zlen_snoc.
  apply foldM_get.
Qed.

Lemma calcExtends_spec : forall pre mid post, mid <> [] -> exists mn mx,
  calcExtends (pre ++ mid ++ post) (zlen pre) (zlen pre + zlen mid) = Ok (mn, mx) /\
  (forall it, In it mid -> encloses mn mx it) /\ touches mn mx mid.
Proof.
  intros pre [|it tl] post H; [congruence|].
  rewrite calcExtends_fold.
  pose proof (ext_fold_spec tl (iMin it) (iMax it) [it]) as S.
  destruct (fold_left ext_step tl (iMin it, iMax it)) as [mn mx].
  exists mn, mx. split; [reflexivity|]. apply S.
  - intros i [<-|[]]. unfold encloses, le3. lia.
  - split; intros c C; exists it; (split; [left; reflexivity|reflexivity]).
Qed.

(** * Trees in an array *)
Lemma BvAt_len : forall nodes k l e, BvAt nodes k l e -> l <> [] /\ e = k + 2 * zlen l - 1.
Proof.
  induction 1 as [k it G|k m e l r mn mx G A [IA EA] B [IB EB] En To].
  - split; [discriminate|]. change (zlen [it]) with 1. lia.
  - split; [destruct l; [congruence|discriminate]|]. rewrite zlen_app. lia.
Qed.

Lemma BvAt_frame : forall nodes nodes' k l e, BvAt nodes k l e ->
  (forall j, k <= j < e -> get nodes' j = get nodes j) -> BvAt nodes' k l e.
Proof.
  induction 1 as [k it G|k m e l r mn mx G A IA B IB En To]; intros F.
  - apply BvLeaf. rewrite F by lia. exact G.
  - destruct (BvAt_len _ _ _ _ A) as [NA EA]. destruct (BvAt_len _ _ _ _ B) as [NB EB].
    assert (0 < zlen l) by (destruct l; [congruence|unfold zlen; cbn [length]; lia]).
    assert (0 < zlen r) by (destruct r; [congruence|unfold zlen; cbn [length]; lia]).
    apply BvInner with m mn mx; auto.
    + rewrite F by lia. exact G.
    + apply IA. intros. apply F. lia.
    + apply IB. intros. apply F. lia.
Qed.

Lemma get_set_other : forall {A} (l l' : list A) i v j, set l i v = Ok l' -> j <> i -> get l' j = get l j.
Proof.
  intros A l l' i v j H N. apply set_ok in H as [R ->].
  destruct (Z_lt_dec j 0).
  - unfold get. replace (j <? 0) with true by (symmetry; apply Z.ltb_lt; lia). reflexivity.
  - rewrite get_upd by lia. destruct (Z.eqb_spec j i); [congruence|]. reflexivity.
Qed.
Lemma get_set_same : forall {A} (l l' : list A) i v, set l i v = Ok l' -> get l' i = Ok v.
Proof.
  intros A l l' i v H. apply set_ok in H as [R ->].
  rewrite get_upd by lia. rewrite Z.eqb_refl.
  destruct (Z.ltb_spec i (zlen l)); [reflexivity|lia].
Qed.
Lemma set_zlen : forall {A} (l l' : list A) i v, set l i v = Ok l' -> zlen l' = zlen l.
Proof. intros A l l' i v H. apply set_ok in H as [_ ->]. apply zlen_upd. Qed.

Section Sort.
Variable sort : (bvItem -> bvItem -> bool) -> list bvItem -> list bvItem.
Hypothesis sort_perm : forall less l, Permutation (sort less l) l.

Lemma sort_range_mid : forall less pre mid post,
  sort_range sort less (pre ++ mid ++ post) (zlen pre) (zlen pre + zlen mid) = Ok (pre ++ sort less mid ++ post).
Proof.
  intros. unfold sort_range, slice.
  assert ((0 <=? zlen pre) && (zlen pre <=? zlen pre + zlen mid) && (zlen pre + zlen mid <=? zlen (pre ++ mid ++ post)) = true) as ->.
  { rewrite !zlen_app. pose proof (zlen_nonneg pre). pose proof (zlen_nonneg mid). pose proof (zlen_nonneg post).
    rewrite !andb_true_iff, !Z.leb_le. lia. }
  cbn [bind]. do 2 f_equal.
  - replace (Z.to_nat (zlen pre)) with (length pre) by (unfold zlen; lia).
    rewrite firstn_app, Nat.sub_diag, firstn_all. apply app_nil_r.
  - f_equal.
    + f_equal. replace (Z.to_nat (zlen pre)) with (length pre) by (unfold zlen; lia).
      rewrite skipn_app, Nat.sub_diag, skipn_all. cbn [app skipn].
      replace (Z.to_nat (zlen pre + zlen mid - zlen pre)) with (length mid) by (unfold zlen; lia).
      rewrite firstn_app, Nat.sub_diag, firstn_all. apply app_nil_r.
    + rewrite app_assoc. replace (Z.to_nat (zlen pre + zlen mid)) with (length (pre ++ mid)) by (rewrite app_length; unfold zlen; lia).
      rewrite skipn_app, Nat.sub_diag, skipn_all. reflexivity.
Qed.

Lemma subdivide_spec : forall f pre mid post cur nodes,
  mid <> [] -> (length mid <= f)%nat -> zlen (pre ++ mid ++ post) < 2 ^ 31 ->
  0 <= cur -> cur + 2 * zlen mid - 1 <= zlen nodes -> zlen nodes < 2 ^ 31 ->
  exists mid' nodes',
    subdivide sort f (pre ++ mid ++ post) (zlen pre) (zlen pre + zlen mid) cur nodes
      = Ok (pre ++ mid' ++ post, cur + 2 * zlen mid - 1, nodes') /\
    Permutation mid' mid /\ BvAt nodes' cur mid' (cur + 2 * zlen mid - 1) /\
    zlen nodes' = zlen nodes /\
    (forall j, j < cur \/ cur + 2 * zlen mid - 1 <= j -> get nodes' j = get nodes j).
Proof.
  induction f as [|f IH]; intros pre mid post cur nodes NE Hf Hi Hc Hn Hb.
  { destruct mid; [congruence|cbn in Hf; lia]. }
  assert (L1 : 1 <= zlen mid) by (destruct mid; [congruence|rewrite zlen_cons; pose proof (zlen_nonneg mid); lia]).
  assert (Lz : zlen pre + zlen mid + zlen post < 2 ^ 31) by (rewrite !zlen_app in Hi; lia).
  pose proof (zlen_nonneg pre) as P0. pose proof (zlen_nonneg post) as P1.
  cbn [subdivide].
  replace (i32 (zlen pre + zlen mid - zlen pre)) with (zlen mid) by (rewrite i32_id; unfold is_i32; lia).
  rewrite (i32_id (cur + 1)) by (unfold is_i32; lia).
  destruct (get_in_range nodes cur) as [nd Gn]; [lia|]. rewrite Gn. cbn [bind].
  destruct (Z.eqb_spec (zlen mid) 1) as [E1|N1].
  - destruct mid as [|it [|it2 mid2]]; [congruence| |rewrite !zlen_cons in E1; pose proof (zlen_nonneg mid2); lia].
    cbn [app]. rewrite get_app_here. cbn [bind].
    destruct (set nodes cur {| bMin := iMin it; bMax := iMax it; bI := iI it |}) as [nodes'| | |] eqn:Es;
      try (rewrite set_in_range in Es by lia; discriminate).
    cbn [bind]. exists [it], nodes'.
    replace (cur + 2 * zlen [it] - 1) with (cur + 1) by (rewrite E1; lia).
    split; [reflexivity|]. split; [apply Permutation_refl|].
    split; [apply BvLeaf; exact (get_set_same _ _ _ _ Es)|].
    split; [exact (set_zlen _ _ _ _ Es)|].
    intros j Hj. apply (get_set_other _ _ _ _ _ Es). lia.
  - destruct (calcExtends_spec pre mid post NE) as (mn & mx & Ec & En & To).
    rewrite Ec. cbn [bind].
    destruct (set nodes cur (mkBv mn mx (bI nd))) as [nodes0| | |] eqn:Es0;
      try (rewrite set_in_range in Es0 by lia; discriminate).
    cbn [bind].
    rewrite sort_range_mid. cbn [bind].
    set (sm := sort _ mid).
    assert (Ps : Permutation sm mid) by apply sort_perm.
    assert (Ls : zlen sm = zlen mid) by (unfold zlen; now rewrite (Permutation_length Ps)).
    rewrite Z.quot_div_nonneg by lia.
    set (h := zlen mid / 2).
    assert (Hh : 1 <= h < zlen mid) by (unfold h; split; [apply Z.div_le_lower_bound; lia|apply Z.div_lt; lia]).
    clearbody h.
    set (l := firstn (Z.to_nat h) sm). set (r := skipn (Z.to_nat h) sm).
    assert (El : zlen l = h) by (unfold l, zlen in *; rewrite firstn_length; lia).
    assert (Er : zlen r = zlen mid - h) by (unfold r, zlen in *; rewrite skipn_length; lia).
    assert (Esm : sm = l ++ r) by (symmetry; apply firstn_skipn).
    clearbody l r. rewrite Esm. rewrite <- app_assoc.
    destruct (IH pre l (r ++ post) (cur + 1) nodes0) as (l' & n1 & S1 & Pl & B1 & Z1 & F1).
    { destruct l; [rewrite zlen_nil in El; lia|discriminate]. }
    { unfold zlen in *. lia. }
    { rewrite !zlen_app. lia. }
    { lia. }
    { rewrite (set_zlen _ _ _ _ Es0). lia. }
    { rewrite (set_zlen _ _ _ _ Es0). lia. }
    rewrite El in S1. rewrite S1. cbn [bind].
    assert (Ll' : zlen l' = h) by (unfold zlen in *; rewrite (Permutation_length Pl); lia).
    rewrite app_assoc.
    destruct (IH (pre ++ l') r post (cur + 1 + 2 * h - 1) n1) as (r' & n2 & S2 & Pr & B2 & Z2 & F2).
    { destruct r; [rewrite zlen_nil in Er; lia|discriminate]. }
    { unfold zlen in *. lia. }
    { rewrite !zlen_app. lia. }
    { lia. }
    { rewrite Z1, (set_zlen _ _ _ _ Es0). lia. }
    { rewrite Z1, (set_zlen _ _ _ _ Es0). lia. }
    rewrite zlen_app, Ll', Er in S2.
    replace (zlen pre + h + (zlen mid - h)) with (zlen pre + zlen mid) in S2 by lia.
    rewrite S2. cbn [bind].
    rewrite Er in *. rewrite El in *.
    replace (cur + 1 + 2 * h - 1 + 2 * (zlen mid - h) - 1) with (cur + 2 * zlen mid - 1) in * by lia.
    assert (Ei : i32 (- i32 (cur + 2 * zlen mid - 1 - cur)) = - (cur + 2 * zlen mid - 1 - cur)).
    { rewrite (i32_id (cur + 2 * zlen mid - 1 - cur)) by (unfold is_i32; lia). apply i32_id. unfold is_i32. lia. }
    rewrite Ei.
    assert (Zn : zlen n2 = zlen nodes) by (rewrite Z2, Z1; exact (set_zlen _ _ _ _ Es0)).
    destruct (set n2 cur (mkBv mn mx (- (cur + 2 * zlen mid - 1 - cur)))) as [n3| | |] eqn:Es3;
      try (rewrite set_in_range in Es3 by lia; discriminate).
    cbn [bind]. exists (l' ++ r'), n3.
    assert (Pm : Permutation (l' ++ r') mid) by (rewrite <- Ps, Esm; apply Permutation_app; assumption).
    split; [rewrite <- !app_assoc; reflexivity|]. split; [exact Pm|].
    split; [|split].
    + apply BvInner with (cur + 1 + 2 * h - 1) mn mx.
      * exact (get_set_same _ _ _ _ Es3).
      * apply BvAt_frame with n1; [exact B1|].
        intros j Hj. rewrite (get_set_other _ _ _ _ _ Es3) by lia. apply F2. lia.
      * apply BvAt_frame with n2; [exact B2|].
        intros j Hj. apply (get_set_other _ _ _ _ _ Es3). lia.
      * intros it I. apply En. eapply Permutation_in; [exact Pm|exact I].
      * destruct To as [T1 T2]. split; intros c C.
        -- destruct (T1 c C) as (it & I & Q). exists it. split; [|exact Q].
           eapply Permutation_in; [apply Permutation_sym; exact Pm|exact I].
        -- destruct (T2 c C) as (it & I & Q). exists it. split; [|exact Q].
           eapply Permutation_in; [apply Permutation_sym; exact Pm|exact I].
    + rewrite (set_zlen _ _ _ _ Es3). exact Zn.
    + intros j Hj. rewrite (get_set_other _ _ _ _ _ Es3) by lia.
      rewrite F2 by lia. rewrite F1 by lia. apply (get_set_other _ _ _ _ _ Es0). lia.
Qed.

Lemma subdivide_tree : forall items nodes, items <> [] -> 2 * zlen items - 1 <= zlen nodes -> zlen nodes < 2 ^ 31 ->
  exists items' nodes',
    subdivide sort (S (length items)) items 0 (zlen items) 0 nodes = Ok (items', 2 * zlen items - 1, nodes') /\
    Permutation items' items /\ BvAt nodes' 0 items' (2 * zlen items - 1) /\ zlen nodes' = zlen nodes /\
    (forall j, 2 * zlen items - 1 <= j -> get nodes' j = get nodes j).
Proof.
  intros items nodes NE Hn Hb.
  assert (1 <= zlen items) by (destruct items; [congruence|rewrite zlen_cons; pose proof (zlen_nonneg items); lia]).
  destruct (subdivide_spec (S (length items)) [] items [] 0 nodes) as (items' & nodes' & S1 & P & B & Z1 & F).
  - exact NE.
  - lia.
  - cbn [app]. rewrite app_nil_r. lia.
  - lia.
  - lia.
  - lia.
  - cbn [app] in S1. rewrite !app_nil_r in S1.
    change (zlen (@nil bvItem)) with 0 in S1. rewrite !Z.add_0_l in *.
    exists items', nodes'. split; [exact S1|]. split; [exact P|]. split; [exact B|]. split; [exact Z1|].
    intros j Hj. apply F. right. lia.
Qed.
End Sort.
