From Coq Require Import ZArith List Bool Lia.
From Verif.Base Require Import Res GoNum F32 Num Grid.
From Verif.Model Require Import ContourGeom Hull.
From Verif.Spec Require Import AreaSpec HullSpec.
From Verif.Proofs Require Import FloatAdd TriangulateProofs BasicsProofs.
Import ListNotations.
Open Scope Z_scope.

(** * Distances are not negative *)
Definition notneg (a : f32) : Prop := match a with S754_finite true _ _ | S754_infinity true => False | _ => True end.
Lemma notneg_flt : forall a, notneg a -> flt a f0 = false.
Proof. intros [s|s| |s m e] H; try reflexivity; destruct s; try contradiction; reflexivity. Qed.
Lemma aux_notneg : forall m e l, 0 <= m -> notneg (binary_round_aux fprec femax false m e l).
Proof. intros m e l H. destruct (round_aux_sign false m e l H) as [->|[->|(m' & e' & ->)]]; exact I. Qed.
Lemma fsqrt_notneg : forall a, notneg (fsqrt a).
Proof.
  intros [s|s| |s m e]; unfold fsqrt; cbn [SFsqrt]; try exact I; destruct s; try exact I.
  destruct (SFsqrt_core_binary _ _ _ _) as [[mz ez] lz] eqn:E. apply aux_notneg.
  unfold SFsqrt_core_binary in E.
  set (m' := match _ with Z0 => _ | Z.pos _ => _ | Z.neg _ => _ end) in E.
  pose proof (Z.sqrtrem_sqrt m') as Q. destruct (Z.sqrtrem m') as [q r]. injection E as <- _ _. cbn [fst] in Q. rewrite Q. apply Z.sqrt_nonneg.
Qed.
Lemma fadd_notneg : forall a b, notneg a -> notneg b -> notneg (fadd a b).
Proof.
  intros [sa|sa| |sa ma ea] [sb|sb| |sb mb eb] Ha Hb; unfold fadd; cbn [SFadd]; try exact I;
    try (destruct sa; try contradiction; try exact I); try (destruct sb; try contradiction; try exact I).
  cbn [cond_Zopp]. set (ez := Z.min ea eb).
  destruct (Zpos (fst (shl_align ma ea ez)) + Zpos (fst (shl_align mb eb ez))) as [|p|p] eqn:E; [lia| |lia].
  cbn [binary_normalize]. unfold binary_round. destruct (shl_align p _ _). apply aux_notneg. lia.
Qed.
Lemma vdist2_notneg : forall p q, notneg (vdist2 p q).
Proof. intros. apply fsqrt_notneg. Qed.

Section Hull.
Variables (verts : list f32) (hull : list Z) (n : Z).
Hypothesis n3 : 3 <= n <= zlen hull.
Hypothesis idx : forall v, In v (firstn (Z.to_nat n) hull) -> 0 <= v /\ 3 * v + 2 < zlen verts.
Hypothesis small : zlen verts < 2 ^ 31.
Let L := firstn (Z.to_nat n) hull.
Lemma L_len : zlen L = n.
Proof. unfold L, zlen in *. rewrite firstn_length. lia. Qed.
Lemma get_L : forall i, 0 <= i < n -> exists v, get hull i = Ok v /\ nth_error L (Z.to_nat i) = Some v.
Proof.
  intros i Hi. destruct (get_in_range hull i ltac:(lia)) as [v G]. exists v. split; [exact G|]. apply get_ok in G as [_ G].
  unfold L. rewrite <- (firstn_skipn (Z.to_nat n) hull) in G. rewrite nth_error_app1 in G; [exact G|].
  pose proof L_len as X. unfold L, zlen in X. lia.
Qed.
Lemma hullPt_ok : forall i, 0 <= i < n -> exists p, hullPt verts hull i = Ok p.
Proof.
  intros i Hi. unfold hullPt. destruct (get_L i Hi) as (v & -> & E). cbn [bind].
  destruct (idx v) as [V1 V2]; [eapply nth_error_In; exact E|].
  rewrite i32_id by (unfold is_i32; lia).
  rewrite (proj2 (Z.ltb_ge (v * 3) 0)), (proj2 (Z.ltb_ge (zlen verts) (v * 3))) by lia. cbn [orb].
  destruct (get_in_range verts (v * 3)) as [x ->]; [lia|]. destruct (get_in_range verts (v * 3 + 2)) as [z ->]; [lia|].
  cbn [bind]. eauto.
Qed.
Lemma prev_range : forall i, 0 <= i < n -> 0 <= prev i n < n.
Proof. intros i H. unfold prev. rewrite Z.geb_leb. destruct (Z.leb_spec 0 (i - 1)); lia. Qed.
Lemma next_range : forall i, 0 <= i < n -> 0 <= next i n < n.
Proof. intros i H. unfold next. destruct (Z.ltb_spec (i + 1) n); lia. Qed.

(** The search for another ear changes nothing: dmin starts with 0. *)
Lemma ears_none : foldM (earStep n verts hull) (zseq (Z.to_nat n)) (0, 1, n - 1, f0) = Ok (0, 1, n - 1, f0).
Proof.
  assert (K : forall l, (forall i, In i l -> 0 <= i < n) -> foldM (earStep n verts hull) l (0, 1, n - 1, f0) = Ok (0, 1, n - 1, f0)).
  { induction l as [|i l IH]; intros H; [reflexivity|]. cbn [foldM earStep].
    pose proof (H i (or_introl eq_refl)) as Hi.
    destruct (hullPt_ok (prev i n)) as [p ->]; [now apply prev_range|]. destruct (hullPt_ok i) as [q ->]; [exact Hi|].
    destruct (hullPt_ok (next i n)) as [r ->]; [now apply next_range|]. cbn [bind].
    rewrite notneg_flt by (apply fadd_notneg; [apply fadd_notneg|]; apply vdist2_notneg). cbn [bind].
    apply IH. intros. apply H. now right. }
  apply K. intros i Hi. apply in_zseq in Hi. lia.
Qed.

(** The corners from left to right. *)
Definition arc (l r : Z) : list Z := firstn (Z.to_nat (r - l + 1)) (skipn (Z.to_nat l) L).
Lemma skipn_nth : forall {A} (l : list A) k x, nth_error l k = Some x -> skipn k l = x :: skipn (S k) l.
Proof. induction l as [|a l IH]; intros [|k] x H; cbn in *; try discriminate; [congruence|]. now apply IH. Qed.
Lemma arc_left : forall l r v, 0 <= l -> l <= r -> nth_error L (Z.to_nat l) = Some v -> arc l r = v :: arc (l + 1) r.
Proof.
  intros l r v H0 H E. unfold arc. rewrite (skipn_nth _ _ _ E).
  replace (Z.to_nat (r - l + 1)) with (S (Z.to_nat (r - (l + 1) + 1))) by lia. cbn [firstn].
  replace (Z.to_nat (l + 1)) with (S (Z.to_nat l)) by lia. reflexivity.
Qed.
Lemma arc_right : forall l r v, 0 <= l -> l <= r -> nth_error L (Z.to_nat r) = Some v -> arc l r = arc l (r - 1) ++ [v].
Proof.
  intros l r v H0 H E. unfold arc. replace (Z.to_nat (r - l + 1)) with (S (Z.to_nat (r - 1 - l + 1))) by lia.
  apply firstn_snoc. rewrite <- E. rewrite <- (firstn_skipn (Z.to_nat l) L) at 2.
  assert (Z.to_nat l < length L)%nat by (assert (nth_error L (Z.to_nat r) <> None) as X by congruence; apply nth_error_Some in X; lia).
  rewrite nth_error_app2 by (rewrite firstn_length; lia). f_equal. rewrite firstn_length. lia.
Qed.

Lemma fanLoop_spec : forall f l r tris, 1 <= l < r -> r < n -> (Z.to_nat (r - l) < f)%nat -> exists ts ts',
  fanLoop f n verts hull l r tris = Ok (tris ++ quads ts) /\ Forall2 cyc ts ts' /\
  ((r = l + 1 /\ ts = []) \/ triangulation (arc l r) ts') /\ zlen ts = r - l - 1.
Proof.
  induction f as [|f IH]; intros l r tris Hl Hr Hf; [lia|].
  cbn [fanLoop]. unfold next at 1. rewrite (proj2 (Z.ltb_lt (l + 1) n)) by lia.
  destruct (Z.eqb_spec (l + 1) r) as [E|Ne].
  { exists [], []. cbn. rewrite app_nil_r. split; [reflexivity|]. split; [constructor|]. split; [left; split; [lia|reflexivity]|lia]. }
  unfold next. rewrite (proj2 (Z.ltb_lt (l + 1) n)) by lia.
  unfold prev. rewrite Z.geb_leb, (proj2 (Z.leb_le 0 (r - 1))) by lia.
  destruct (hullPt_ok l) as [p1 ->]; [lia|]. destruct (hullPt_ok (l + 1)) as [p2 ->]; [lia|].
  destruct (hullPt_ok r) as [p3 ->]; [lia|]. destruct (hullPt_ok (r - 1)) as [p4 ->]; [lia|]. cbn [bind].
  destruct (get_L l) as (x & -> & Ex); [lia|]. destruct (get_L r) as (z & -> & Ez); [lia|]. cbn [bind].
  destruct (flt _ _).
  - destruct (get_L (l + 1)) as (y & -> & Ey); [lia|]. cbn [bind].
    destruct (IH (l + 1) r (tris ++ [x; y; z; 0])) as (ts & ts' & R & C & T & Lt); [lia|lia|lia|].
    exists ((x, y, z) :: ts). rewrite R, <- app_assoc.
    assert (EA : arc l r = x :: y :: arc (l + 2) (r - 1) ++ [z]).
    { rewrite (arc_left l r x), (arc_left (l + 1) r y), (arc_right (l + 1 + 1) r z) by (assumption || lia). now replace (l + 1 + 1) with (l + 2) by lia. }
    assert (EB : arc (l + 1) r = y :: arc (l + 2) (r - 1) ++ [z]).
    { rewrite (arc_left (l + 1) r y), (arc_right (l + 1 + 1) r z) by (assumption || lia). now replace (l + 1 + 1) with (l + 2) by lia. }
    destruct T as [[E ->]|T].
    + inversion C; subst. exists [(x, y, z)]. split; [reflexivity|]. split; [constructor; [now left|constructor]|].
      split; [right|rewrite zlen_cons; change (zlen (@nil (Z * Z * Z))) with 0; lia].
      exists [], x, y, z. split; [reflexivity|]. rewrite EA. replace (arc (l + 2) (l + 1 + 1 - 1)) with (@nil Z) by (unfold arc; replace (l + 1 + 1 - 1 - (l + 2) + 1) with 0 by lia; reflexivity).
      constructor.
    + exists ((z, x, y) :: ts'). split; [reflexivity|]. split; [constructor; [right; right; reflexivity|exact C]|].
      split; [right|rewrite zlen_cons; lia].
      destruct T as (ts0 & a & b & c & -> & Cu). exists ((z, x, y) :: ts0), a, b, c. split; [reflexivity|].
      econstructor; [|exact Cu]. rewrite EA, EB. exists [], x, (y :: arc (l + 2) (r - 1) ++ [z]), z, y, (arc (l + 2) (r - 1)).
      repeat split. cbn [app]. now rewrite app_nil_r.
  - destruct (get_L (r - 1)) as (y & -> & Ey); [lia|]. cbn [bind].
    destruct (IH l (r - 1) (tris ++ [x; y; z; 0])) as (ts & ts' & R & C & T & Lt); [lia|lia|lia|].
    exists ((x, y, z) :: ts). rewrite R, <- app_assoc.
    assert (EA : arc l r = (x :: arc (l + 1) (r - 2)) ++ [y; z]).
    { rewrite (arc_right l r z), (arc_right l (r - 1) y), (arc_left l (r - 1 - 1) x) by (assumption || lia).
      replace (r - 1 - 1) with (r - 2) by lia. now rewrite <- !app_assoc. }
    assert (EB : arc l (r - 1) = (x :: arc (l + 1) (r - 2)) ++ [y]).
    { rewrite (arc_right l (r - 1) y), (arc_left l (r - 1 - 1) x) by (assumption || lia). now replace (r - 1 - 1) with (r - 2) by lia. }
    destruct T as [[E ->]|T].
    + inversion C; subst. exists [(x, y, z)]. split; [reflexivity|]. split; [constructor; [now left|constructor]|].
      split; [right|rewrite zlen_cons; change (zlen (@nil (Z * Z * Z))) with 0; lia].
      exists [], x, y, z. split; [reflexivity|]. rewrite EA. replace (arc (l + 1) (r - 2)) with (@nil Z) by (unfold arc; replace (r - 2 - (l + 1) + 1) with 0 by lia; reflexivity).
      constructor.
    + exists ((y, z, x) :: ts'). split; [reflexivity|]. split; [constructor; [right; left; reflexivity|exact C]|].
      split; [right|rewrite zlen_cons; lia].
      destruct T as (ts0 & a & b & c & -> & Cu). exists ((y, z, x) :: ts0), a, b, c. split; [reflexivity|].
      econstructor; [|exact Cu]. rewrite EA, EB. exists ((x :: arc (l + 1) (r - 2)) ++ [y]), z, [], y, x, (arc (l + 1) (r - 2)).
      split; [now rewrite <- app_assoc|]. split; [now rewrite app_nil_r|]. split; reflexivity.
Qed.

Theorem triangulateHull_spec : forall tris, exists ts ts',
  triangulateHull verts n hull tris = Ok (tris ++ quads ts) /\ zlen ts = n - 2 /\ Forall2 cyc ts ts' /\ triangulation L ts'.
Proof.
  intros tris. unfold triangulateHull. rewrite ears_none. cbn [bind].
  destruct (get_L 0) as (x & -> & Ex); [lia|]. destruct (get_L 1) as (y & -> & Ey); [lia|]. destruct (get_L (n - 1)) as (z & -> & Ez); [lia|].
  cbn [bind].
  destruct (fanLoop_spec (S (Z.to_nat n)) 1 (n - 1) (tris ++ [x; y; z; 0])) as (ts & ts' & R & C & T & Lt); [lia|lia|lia|].
  exists ((x, y, z) :: ts). rewrite R, <- app_assoc.
  assert (EL : L = arc 0 (n - 1)).
  { unfold arc. cbn [Z.to_nat skipn]. replace (n - 1 - 0 + 1) with n by lia. symmetry. apply firstn_all2. unfold L. rewrite firstn_length. lia. }
  assert (EA : L = x :: y :: arc 2 (n - 2) ++ [z]).
  { rewrite EL, (arc_left 0 (n - 1) x), (arc_left (0 + 1) (n - 1) y), (arc_right (0 + 1 + 1) (n - 1) z) by (assumption || lia).
    now replace (n - 1 - 1) with (n - 2) by lia. }
  assert (EB : arc 1 (n - 1) = y :: arc 2 (n - 2) ++ [z]).
  { rewrite (arc_left 1 (n - 1) y), (arc_right (1 + 1) (n - 1) z) by (assumption || lia). now replace (n - 1 - 1) with (n - 2) by lia. }
  destruct T as [[E ->]|T].
  - inversion C; subst ts'. exists [(x, y, z)]. split; [reflexivity|]. split; [rewrite zlen_cons; change (zlen (@nil (Z * Z * Z))) with 0; lia|].
    split; [constructor; [now left|constructor]|]. exists [], x, y, z. split; [reflexivity|]. rewrite EA.
    replace (arc 2 (n - 2)) with (@nil Z) by (unfold arc; replace (n - 2 - 2 + 1) with 0 by lia; reflexivity). constructor.
  - exists ((z, x, y) :: ts'). split; [reflexivity|]. split; [rewrite zlen_cons; lia|].
    split; [constructor; [right; right; reflexivity|exact C]|].
    destruct T as (ts0 & a & b & c & -> & Cu). exists ((z, x, y) :: ts0), a, b, c. split; [reflexivity|].
    econstructor; [|exact Cu]. rewrite EA, EB. exists [], x, (y :: arc 2 (n - 2) ++ [z]), z, y, (arc 2 (n - 2)).
    repeat split. cbn [app]. now rewrite app_nil_r.
Qed.

(** The first triangle is always the ear at corner 0. *)
Theorem triangulateHull_first : forall tris, exists a b c rest,
  get hull 0 = Ok a /\ get hull 1 = Ok b /\ get hull (n - 1) = Ok c /\
  triangulateHull verts n hull tris = Ok (tris ++ [a; b; c; 0] ++ rest).
Proof.
  intros tris. unfold triangulateHull. rewrite ears_none. cbn [bind].
  destruct (get_L 0) as (x & -> & Ex); [lia|]. destruct (get_L 1) as (y & -> & Ey); [lia|]. destruct (get_L (n - 1)) as (z & -> & Ez); [lia|].
  cbn [bind].
  destruct (fanLoop_spec (S (Z.to_nat n)) 1 (n - 1) (tris ++ [x; y; z; 0])) as (ts & ts' & R & _); [lia|lia|lia|].
  exists x, y, z, (quads ts). rewrite R, <- app_assoc. easy.
Qed.
End Hull.

Lemma cyc_area : forall (pos : Z -> Z * Z) ts ts', Forall2 cyc ts ts' ->
  sum (map (fun t => tri_area (map3 pos t)) ts) = sum (map (fun t => tri_area (map3 pos t)) ts').
Proof.
  intros pos ts ts' H. induction H as [|[[a b] c] t ts ts' E H IH]; [reflexivity|]. cbn [map sum fold_right]. unfold sum in IH. rewrite IH. f_equal.
  destruct (pos a) as [ax ay] eqn:Ea, (pos b) as [bx bz] eqn:Eb, (pos c) as [cx cy] eqn:Ec.
  destruct E as [-> | [-> | ->]]; unfold map3; cbn [fst snd]; rewrite ?Ea, ?Eb, ?Ec; unfold tri_area, area, chain, cross; cbn [last fst snd]; lia.
Qed.
