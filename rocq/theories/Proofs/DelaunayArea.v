(** When the table is complete, the triangles cover the hull exactly. *)
From Coq Require Import ZArith List Bool Lia Permutation.
From Verif.Base Require Import Res GoNum F32.
From Verif.Spec Require Import AreaSpec HullSpec DelaunaySpec.
From Verif.Proofs Require Import DelaunayTable DelaunayLoop.
Import ListNotations.
Open Scope Z_scope.

Section Area.
Variable pos : Z -> Z * Z.
Definition w (p : Z * Z) : Z := cross (pos (fst p)) (pos (snd p)).
Lemma w_anti : forall a b, w (a, b) + w (b, a) = 0.
Proof. intros. unfold w, cross. cbn [fst snd]. lia. Qed.
Definition sumw (l : list (Z * Z)) : Z := sum (map w l).
Lemma sum_app : forall l k, sum (l ++ k) = sum l + sum k.
Proof. induction l as [|x l IH]; intros k; cbn [app sum fold_right]; [reflexivity|]. fold (sum (l ++ k)) (sum l). rewrite IH. lia. Qed.
Lemma sumw_app : forall l k, sumw (l ++ k) = sumw l + sumw k.
Proof. intros. unfold sumw. now rewrite map_app, sum_app. Qed.
Lemma sumw_cons : forall x l, sumw (x :: l) = w x + sumw l.
Proof. reflexivity. Qed.
Lemma sumw_perm : forall l k, Permutation l k -> sumw l = sumw k.
Proof. induction 1; rewrite ?sumw_cons; lia. Qed.
Lemma sumw_dirs : forall E, sumw (dirs E) = 0.
Proof. induction E as [|[[[s t] l] r] E IH]; [reflexivity|]. rewrite dirs_cons. change ((s, t) :: (t, s) :: dirs E) with ([(s, t); (t, s)] ++ dirs E).
  rewrite sumw_app, IH. unfold sumw. cbn [map sum fold_right]. pose proof (w_anti s t). lia. Qed.
Lemma sumw_tri : forall a b c, sumw (triSides (a, b, c)) = area [pos a; pos b; pos c].
Proof. intros. unfold sumw, area, w. cbn. lia. Qed.
Lemma sumw_flat : forall ts, sumw (flat_map triSides ts) = sum (map (fun '(a, b, c) => area [pos a; pos b; pos c]) ts).
Proof. induction ts as [|[[a b] c] ts IH]; [reflexivity|]. cbn [flat_map]. rewrite sumw_app, sumw_tri, IH. reflexivity. Qed.

Lemma sumw_open : forall l x, sumw (combine (x :: removelast l) l) = chain (map pos (x :: l)).
Proof.
  induction l as [|y l IH]; intros x; [reflexivity|]. destruct l as [|z l].
  - unfold sumw. cbn. unfold w. cbn. lia.
  - change (combine (x :: removelast (y :: z :: l)) (y :: z :: l)) with ((x, y) :: combine (y :: removelast (z :: l)) (z :: l)).
    rewrite sumw_cons, (IH y). reflexivity.
Qed.
Lemma sumw_ring : forall l, sumw (ring l) = area (map pos l).
Proof.
  intros l. unfold ring. rewrite sumw_open. destruct l as [|x l]; [reflexivity|].
  cbn [map]. unfold area. assert (L : forall a b, last (map pos (a :: l)) b = pos (last (a :: l) 0)).
  { clear x. induction l as [|y l IH]; intros a b; [reflexivity|]. change (last (map pos (y :: l)) b = pos (last (y :: l) 0)). apply IH. }
  specialize (L x (pos x)). cbn [map] in L. rewrite L. cbn [chain]. lia.
Qed.

(** Swapping two corners changes the sign. *)
Lemma area_rev : forall x y z, area [pos x; pos y; pos z] = - area [pos y; pos x; pos z].
Proof. intros. unfold area, cross. cbn [chain last]. unfold cross. lia. Qed.
Lemma area_cyc : forall t t', cyc t t' -> (let '(a, b, c) := t in area [pos a; pos b; pos c]) = (let '(a, b, c) := t' in area [pos a; pos b; pos c]).
Proof. intros [[a b] c] t' [-> | [-> | ->]]; unfold area, cross; cbn [chain last]; unfold cross; lia. Qed.

Lemma filter_split : forall {A} (g h : A -> bool) l, (forall x, In x l -> g x = negb (h x)) -> Permutation l (filter g l ++ filter h l).
Proof.
  intros A g h l. induction l as [|x l IH]; intros H; [constructor|]. cbn [filter]. specialize (IH (fun y Hy => H y (or_intror Hy))).
  rewrite (H x (or_introl eq_refl)). destruct (h x); cbn [negb app].
  - now apply Permutation_cons_app.
  - now constructor.
Qed.
Lemma NoDup_map_filter : forall {A B} (f : A -> B) g l, NoDup (map f l) -> NoDup (map f (filter g l)).
Proof.
  intros A B f g l. induction l as [|x l IH]; cbn; intros N; [constructor|]. apply NoDup_cons_iff in N as [N1 N2].
  destruct (g x); cbn; [|auto]. constructor; [|auto]. intros H. apply N1. apply in_map_iff in H as (y & Hy & Hi). apply filter_In in Hi as [Hi _].
  apply in_map_iff. eauto.
Qed.
Lemma NoDup_flat : forall {A B} (f : A -> list B) l, (forall i x, nth_error l i = Some x -> NoDup (f x)) ->
  (forall i j x y b, nth_error l i = Some x -> nth_error l j = Some y -> In b (f x) -> In b (f y) -> i = j) -> NoDup (flat_map f l).
Proof.
  intros A B f l. induction l as [|x l IH]; intros H1 H2; [constructor|]. cbn [flat_map]. apply NoDup_app_intro.
  - apply (H1 O). reflexivity.
  - apply IH; [intros i y Hy; apply (H1 (S i)); exact Hy|]. intros i j y z b Hy Hz Hb Hb'. assert (S i = S j) by (apply (H2 (S i) (S j) y z b); assumption). lia.
  - intros b Hb Hf. apply in_flat_map in Hf as (y & Hy & Hb'). apply In_nth_error in Hy as [j Hj].
    assert (O = S j) by (apply (H2 O (S j) x y b); [reflexivity|exact Hj|exact Hb|exact Hb']). discriminate.
Qed.

Lemma tiles : forall circle pts n mx hull E ts, table circle pts n mx hull E ts -> NoDup hull ->
  (forall a b, In (a, b, -2) (sides E) -> In (a, b) (ring hull)) ->
  (forall f, 0 <= f < zlen ts -> zlen (owned E f) = 3) ->
  sum (map (fun '(a, b, c) => area [pos a; pos b; pos c]) ts) = - area (map pos hull) /\
  3 * zlen ts + zlen hull = 2 * zlen E.
Proof.
  intros circle pts n mx hull E ts [T1 T2 T3 T4 T5 T6 T7 T8] Nh Hb Ho.
  set (F := map fst (filter (fun x => 0 <=? snd x) (sides E))).
  set (B := map fst (filter (fun x => snd x =? -2) (sides E))).
  assert (P : Permutation (dirs E) (F ++ B)).
  { unfold F, B, dirs. rewrite <- map_app. apply Permutation_map. apply filter_split. intros [[a b] f] Hi. cbn [snd].
    destruct (T5 a b f Hi) as [(H & _)|(-> & _)]; [|reflexivity]. destruct (Z.leb_spec 0 f); [|lia]. destruct (Z.eqb_spec f (-2)); [lia|reflexivity]. }
  assert (PB : Permutation B (ring hull)).
  { apply NoDup_Permutation.
    - apply NoDup_map_filter. exact T1.
    - apply (NoDup_map_inv snd). unfold ring. assert (G : forall (l m : list Z), length l = length m -> map snd (combine l m) = m).
      { induction l as [|x l IH]; intros [|y m] HL; try discriminate; [reflexivity|]. cbn. f_equal. apply IH. now injection HL. }
      destruct hull as [|x l]; [constructor|]. rewrite G; [exact Nh|]. cbn [length]. rewrite removelast_firstn_len, firstn_length. cbn [length]. lia.
    - intros [a b]. unfold B. rewrite in_map_iff. split.
      + intros ([[x y] f] & H & Hi). cbn in H. injection H as -> ->. apply filter_In in Hi as [Hi Hf]. cbn in Hf. apply Z.eqb_eq in Hf. subst. auto.
      + intros Hi. destruct (T4 a b Hi) as (r & Hr). exists (a, b, -2). split; [reflexivity|]. apply filter_In. split; [|reflexivity]. apply in_sides. eauto. }
  assert (Own : forall f t p, nth_error ts f = Some t -> In p (triSides t) -> In (fst p, snd p, Z.of_nat f) (sides E)).
  { intros f t p Ht Hp. apply in_owned. assert (Lf : (f < length ts)%nat) by (apply nth_error_Some; congruence).
    assert (L3 : zlen (owned E (Z.of_nat f)) = 3) by (apply Ho; unfold zlen; lia).
    assert (Nd : NoDup (owned E (Z.of_nat f))) by (apply NoDup_map_filter; exact T1).
    assert (I : incl (owned E (Z.of_nat f)) (triSides t)).
    { intros [a b] Hi. apply in_owned in Hi. cbn [fst snd] in Hi. destruct (T5 _ _ _ Hi) as [(_ & t' & Ht' & Hs)|(H & _)]; [|lia].
      rewrite Nat2Z.id in Ht'. assert (t' = t) by congruence. now subst. }
    assert (I' : incl (triSides t) (owned E (Z.of_nat f))); [|now apply I'].
    apply NoDup_length_incl; [exact Nd| |exact I]. destruct t as [[a b] c]. unfold zlen in L3. cbn. lia. }
  assert (PF : Permutation F (flat_map triSides ts)).
  { apply NoDup_Permutation.
    - apply NoDup_map_filter. exact T1.
    - apply NoDup_flat.
      + intros i [[a b] c] Hi. apply nth_error_In in Hi. destruct (T6 a b c Hi) as (H1 & H2 & H3 & _). cbn. repeat constructor; cbn; intuition congruence.
      + intros i j x y [a b] Hi Hj Hx Hy. apply (Own i) in Hx; [|exact Hi]. apply (Own j) in Hy; [|exact Hj]. cbn [fst snd] in *.
        pose proof (sides_fun _ _ _ _ _ T1 Hx Hy). lia.
    - intros [a b]. unfold F. rewrite in_map_iff, in_flat_map. split.
      + intros ([[x y] f] & H & Hi). cbn in H. injection H as -> ->. apply filter_In in Hi as [Hi Hf]. cbn in Hf. apply Z.leb_le in Hf.
        destruct (T5 _ _ _ Hi) as [(_ & t & Ht & Hs)|(-> & _)]; [|lia]. exists t. split; [now apply nth_error_In in Ht|exact Hs].
      + intros (t & Ht & Hs). apply In_nth_error in Ht as [f Hf]. exists (a, b, Z.of_nat f). split; [reflexivity|]. apply filter_In.
        split; [now apply (Own f t (a, b))|]. cbn. apply Z.leb_le. lia. }
  split.
  - pose proof (sumw_perm _ _ P) as S. rewrite sumw_dirs, sumw_app, (sumw_perm _ _ PF), (sumw_perm _ _ PB), sumw_flat, sumw_ring in S. lia.
  - apply Permutation_length in P, PF, PB. rewrite app_length, PF, PB in P.
    assert (L1 : length (dirs E) = (2 * length E)%nat) by (clear; induction E as [|[[[s t] l] r] E IH]; [reflexivity|]; rewrite dirs_cons; cbn [length]; lia).
    assert (L2 : length (flat_map triSides ts) = (3 * length ts)%nat) by (clear; induction ts as [|[[a b] c] ts IH]; [reflexivity|]; cbn [flat_map]; rewrite app_length, IH; cbn [length triSides]; lia).
    assert (L3 : length (ring hull) = length hull).
    { unfold ring. rewrite combine_length. cbn [length]. rewrite removelast_firstn_len, firstn_length. destruct hull; cbn [length]; lia. }
    unfold zlen. lia.
Qed.
End Area.
