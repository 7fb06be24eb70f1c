(** Proofs about rasterization (C46). *)
From Coq Require Import ZArith List Bool Lia.
From Verif.Base Require Import Res GoNum F32 Num Grid.
From Verif.Model Require Import Heightfield Compact Raster.
From Verif.Spec Require Import HeightfieldSpec.
Import ListNotations.
Open Scope Z_scope.

Lemma clamp_range : forall a lo hi, lo <= hi -> lo <= int32Clamp a lo hi <= hi.
Proof. intros a lo hi H. unfold int32Clamp. destruct (Z.ltb_spec a lo); [lia|]. destruct (Z.gtb_spec a hi); lia. Qed.
Lemma in_range : forall a b x, In x (range a b) <-> a <= x <= b.
Proof.
  intros a b x. unfold range. rewrite in_map_iff. split.
  - intros (i & <- & Hi). apply in_zseq in Hi. lia.
  - intros H. exists (x - a). split; [lia|]. apply in_zseq. lia.
Qed.

(** A span that rasterizeTri may add. *)
Definition fine (w h area thr : Z) (o : Ins) : Prop :=
  0 <= iX o < w /\ 0 <= iY o < h /\ 0 <= iMn o <= 65535 /\ 0 <= iMx o <= 65535 /\ (iMn o < 65535 -> iMn o < iMx o) /\ iArea o = area /\ iThr o = thr.
(** What has been added to [hf0] so far. *)
Definition added (hf0 hf : Heightfield) (good : Ins -> Prop) : Prop :=
  hf_w hf = hf_w hf0 /\ hf_h hf = hf_h hf0 /\ exists ops, Forall good ops /\ run_ins hf0 ops = Ok hf.

Lemma added_refl : forall hf good, added hf hf good.
Proof. intros hf good. split; [reflexivity|]. split; [reflexivity|]. exists []. split; [constructor|reflexivity]. Qed.
Lemma added_trans : forall hf0 hf1 hf2 good, added hf0 hf1 good -> added hf1 hf2 good -> added hf0 hf2 good.
Proof.
  intros hf0 hf1 hf2 good (W1 & H1 & ops1 & F1 & R1) (W2 & H2 & ops2 & F2 & R2).
  split; [congruence|]. split; [congruence|]. exists (ops1 ++ ops2). split; [apply Forall_app; auto|].
  unfold run_ins in *. rewrite foldM_app, R1. exact R2.
Qed.
Lemma added_weaken : forall hf0 hf (good good' : Ins -> Prop), (forall o, good o -> good' o) -> added hf0 hf good -> added hf0 hf good'.
Proof.
  intros hf0 hf good good' H (W & Hh & ops & F & R). split; [exact W|]. split; [exact Hh|]. exists ops. split; [|exact R].
  revert F. apply Forall_impl. exact H.
Qed.
Lemma added_one : forall hf hf' x y mn mx area thr (good : Ins -> Prop), addSpan hf x y mn mx area thr = Ok hf' ->
  good (mkIns x y mn mx area thr) -> added hf hf' good.
Proof.
  intros hf hf' x y mn mx area thr good E G. split; [|split].
  - unfold addSpan in E. apply bind_ok in E. destruct E as (c & _ & E). apply bind_ok in E. destruct E as (s & _ & E).
    apply Ok_inj in E. subst hf'. reflexivity.
  - unfold addSpan in E. apply bind_ok in E. destruct E as (c & _ & E). apply bind_ok in E. destruct E as (s & _ & E).
    apply Ok_inj in E. subst hf'. reflexivity.
  - exists [mkIns x y mn mx area thr]. split; [constructor; [exact G|constructor]|]. unfold run_ins. cbn [foldM iX iY iMn iMx iArea iThr].
    rewrite E. reflexivity.
Qed.

Lemma snap_range : forall s s' ich, let a := snapMin s ich in let b := snapMax s' ich a in
  0 <= a <= 65535 /\ 0 <= b <= 65535 /\ (a < 65535 -> a < b).
Proof.
  intros s s' ich a b. assert (0 <= a <= 65535) as Ha.
  { unfold a, snapMin. pose proof (u16_range (int32Clamp (f_floor_i32 (fmul s ich)) 0 MAX_HEIGHT)) as R. unfold is_u16 in R. lia. }
  split; [exact Ha|]. clearbody a. unfold b, snapMax, MAX_HEIGHT.
  pose proof (u16_range (a + 1)) as R. unfold is_u16 in R.
  pose proof (clamp_range (f_ceil_i32 (fmul s' ich)) (u16 (a + 1)) 65535 ltac:(lia)) as C.
  rewrite (u16_id (int32Clamp _ _ _)) by (unfold is_u16; lia). split; [lia|].
  intros L. rewrite (u16_id (a + 1)) in C at 1 by (unfold is_u16; lia). lia.
Qed.

Lemma cellSpan_added : forall hf mem o n x y area thr b1 by_ ich hf' w h,
  0 <= x < w -> 0 <= y < h ->
  cellSpan hf mem o n x y area thr b1 by_ ich = Ok hf' -> added hf hf' (fine w h area thr).
Proof.
  intros hf mem o n x y area thr b1 by_ ich hf' w h Hx Hy E. unfold cellSpan in E.
  destruct (n <? 3); [apply Ok_inj in E; subst; apply added_refl|].
  apply bind_ok in E. destruct E as (mM & _ & E).
  destruct (flt _ f0) in E; [apply Ok_inj in E; subst; apply added_refl|].
  destruct (fgt _ by_) in E; [apply Ok_inj in E; subst; apply added_refl|].
  cbv zeta in E.
  match type of E with addSpan _ _ _ (snapMin ?a _) (snapMax ?b _ _) _ _ = _ => set (lo := a) in E; set (hi := b) in E end.
  eapply added_one; [exact E|]. unfold fine. cbn [iX iY iMn iMx iArea iThr].
  pose proof (snap_range lo hi ich) as S. cbv zeta in S. split; [exact Hx|]. split; [exact Hy|]. intuition.
Qed.

Lemma rasterRow_added : forall area thr bmin by_ cs ics ich st y st' w h,
  0 <= y < h -> hf_w (snd (fst (fst st))) = w -> 0 < w <= 2147483647 ->
  rasterRow area thr bmin by_ cs ics ich st y = Ok st' ->
  added (snd (fst (fst st))) (snd (fst (fst st'))) (fine w h area thr).
Proof.
  intros area thr bmin by_ cs ics ich [[[mem hf] nvIn] [[[oin inrow] p1] p2]] y st' w h Hy Ew Hw E.
  cbn [fst snd] in *. unfold rasterRow in E.
  apply bind_ok in E. destruct E as ([[mem1 nvrow] nvIn1] & _ & E).
  destruct (nvrow <? 3); [apply Ok_inj in E; subst st'; apply added_refl|].
  apply bind_ok in E. destruct E as (mM & _ & E). cbv zeta in E.
  match type of E with context [range ?a ?b] => set (x0 := a) in E; set (x1 := b) in E end.
  assert (0 <= x0 /\ x1 < w) as [X0 X1].
  { unfold x0, x1. rewrite Ew, i32_id by (unfold is_i32; lia).
    pose proof (clamp_range (f_to_i32 (fmul (fsub (fst mM) (c0 bmin)) ics)) 0 (w - 1) ltac:(lia)).
    pose proof (clamp_range (f_to_i32 (fmul (fsub (snd mM) (c0 bmin)) ics)) 0 (w - 1) ltac:(lia)). lia. }
  clearbody x0 x1. apply bind_ok in E. destruct E as ([[[[mem2 hf2] nv2] inrow2] p22] & E1 & E). apply Ok_inj in E. subst st'.
  cbn [fst snd].
  pose proof (foldM_ok_inv (rasterCell y area thr oin bmin by_ cs ich)
    (fun _ s => added hf (snd (fst (fst (fst s)))) (fine w h area thr)) (range x0 x1) (mem1, hf, nvrow, inrow, p2) (mem2, hf2, nv2, inrow2, p22)) as F.
  cbn [fst snd] in F. apply F; clear F; [exact E1|apply added_refl|].
  intros pre x post [[[[memA hfA] nvA] irA] p2A] s' Esp HA EA. cbn [fst snd] in *. unfold rasterCell in EA.
  apply bind_ok in EA. destruct EA as ([[memB nvB] nv2B] & _ & EA). apply bind_ok in EA. destruct EA as (hfB & EB & EA).
  apply Ok_inj in EA. subst s'. cbn [fst snd].
  assert (In x (range x0 x1)) as Hx by (rewrite Esp; apply in_or_app; right; left; reflexivity). apply in_range in Hx.
  eapply added_trans; [exact HA|]. refine (cellSpan_added _ _ _ _ _ _ _ _ _ _ _ _ w h _ Hy EB). lia.
Qed.

Lemma rasterizeTri_added : forall v0 v1 v2 area hf bmin bmax cs ics ich thr hf' w h,
  hf_w hf = w -> hf_h hf = h -> 0 < w <= 2147483647 -> 0 < h <= 2147483647 ->
  rasterizeTri v0 v1 v2 area hf bmin bmax cs ics ich thr = Ok hf' -> added hf hf' (fine w h area thr).
Proof.
  intros v0 v1 v2 area hf bmin bmax cs ics ich thr hf' w h Ew Eh Hw Hh E. unfold rasterizeTri in E. cbv zeta in E.
  destruct (negb (overlapBounds _ _ _ _)); [apply Ok_inj in E; subst; apply added_refl|].
  match type of E with context [range ?a ?b] => set (y0 := a) in E; set (y1 := b) in E end.
  assert (0 <= y0 /\ y1 < h) as [Y0 Y1].
  { unfold y0, y1. rewrite Eh, i32_id by (unfold is_i32; lia). split; [apply clamp_range; lia|].
    match goal with |- int32Clamp ?a _ _ < _ => pose proof (clamp_range a 0 (h - 1) ltac:(lia)) end. lia. }
  clearbody y0 y1. apply bind_ok in E. destruct E as ([[[memE hfE] nvE] offE] & E1 & E). apply Ok_inj in E. subst hfE.
  match type of E1 with foldM ?f ?l ?s = Ok ?s' =>
    pose proof (foldM_ok_inv f (fun _ q => added hf (snd (fst (fst q))) (fine w h area thr)) l s s') as F end.
  cbn [fst snd] in F. apply F; clear F; [exact E1|apply added_refl|].
  intros pre y post sA sB Esp HA EA. cbn beta in HA |- *.
  assert (In y (range y0 y1)) as Hy by (rewrite Esp; apply in_or_app; right; left; reflexivity). apply in_range in Hy.
  eapply added_trans; [exact HA|]. eapply rasterRow_added; [| |exact Hw|exact EA]; [lia|]. destruct HA as (W & _). congruence.
Qed.
