(** Rasterization of triangles (C46) and division of polygons (C47). *)
From Coq Require Import ZArith List Bool Lia QArith Lqa.
From Verif.Base Require Import Res GoNum F32 Num Grid.
From Verif.Model Require Import Heightfield Raster.
From Verif.Spec Require Import HeightfieldSpec DivideSpec.
From Verif.Proofs Require Import RasterProofs DivideProofs DivideQ.
Import ListNotations.
Open Scope Z_scope.

(** ** C46 *)
(** Whatever the coordinates are (NaN and infinities included): if rasterizing a triangle
    returns, then the new heightfield is the old one after a sequence of insertions of spans,
    each of them in a cell of the grid, with the area and merge threshold of the call, with
    heights of 16 bits, and not empty unless it starts at the topmost height. *)
Theorem C46_triangle : forall v0 v1 v2 area fr hf thr hf',
  0 < hf_w hf <= 2147483647 -> 0 < hf_h hf <= 2147483647 ->
  RasterizeTriangle v0 v1 v2 area fr hf thr = Ok hf' ->
  hf_w hf' = hf_w hf /\ hf_h hf' = hf_h hf /\
  exists ops, run_ins hf ops = Ok hf' /\
    forall o, In o ops ->
      0 <= iX o < hf_w hf /\ 0 <= iY o < hf_h hf /\ iArea o = area /\ iThr o = thr /\
      0 <= iMn o <= 65535 /\ 0 <= iMx o <= 65535 /\ (iMn o < 65535 -> iMn o < iMx o).
Proof.
  intros v0 v1 v2 area fr hf thr hf' Hw Hh E. unfold RasterizeTriangle in E.
  destruct (rasterizeTri_added _ _ _ _ _ _ _ _ _ _ _ _ _ _ eq_refl eq_refl Hw Hh E) as (W & H & ops & F & R).
  split; [exact W|]. split; [exact H|]. exists ops. split; [exact R|]. intros o Ho. rewrite Forall_forall in F.
  destruct (F o Ho) as (A1 & A2 & A3 & A4 & A5 & A6 & A7). auto 10.
Qed.

(** The same for a list of triangles, whose areas are those of the list. *)
Definition spans_of (w h : Z) (areas : list Z) (thr : Z) (o : Ins) : Prop :=
  0 <= iX o < w /\ 0 <= iY o < h /\ In (iArea o) areas /\ iThr o = thr /\
  0 <= iMn o <= 65535 /\ 0 <= iMx o <= 65535 /\ (iMn o < 65535 -> iMn o < iMx o).
Lemma get_In : forall (l : list Z) i v, get l i = Ok v -> In v l.
Proof. intros l i v E. unfold get in E. destruct (i <? 0); [discriminate|]. destruct (nth_error l (Z.to_nat i)) eqn:N; [|discriminate]. apply nth_error_In in N. cbn in E. apply Ok_inj in E. subst. exact N. Qed.
Lemma added_fold : forall {I} (step : Heightfield -> I -> res Heightfield) l w h (good : Ins -> Prop),
  (forall hf i hf', hf_w hf = w -> hf_h hf = h -> step hf i = Ok hf' -> added hf hf' good) ->
  forall hf hf', hf_w hf = w -> hf_h hf = h -> foldM step l hf = Ok hf' -> added hf hf' good.
Proof.
  intros I step l w h good HS. induction l as [|i l IH]; intros hf hf' W H E.
  - cbn in E. apply Ok_inj in E. subst. apply added_refl.
  - cbn [foldM] in E. apply bind_ok in E. destruct E as (hf1 & E1 & E2). pose proof (HS _ _ _ W H E1) as A.
    eapply added_trans; [exact A|]. destruct A as (W1 & H1 & _). apply IH; [congruence|congruence|exact E2].
Qed.

Lemma fine_spans : forall w h area thr areas o, In area areas -> fine w h area thr o -> spans_of w h areas thr o.
Proof. intros w h area thr areas o HA (A1 & A2 & A3 & A4 & A5 & A6 & A7). unfold spans_of. rewrite A6. auto 10. Qed.

Theorem C46_triangles : forall verts tris areas nt fr hf thr hf',
  0 < hf_w hf <= 2147483647 -> 0 < hf_h hf <= 2147483647 ->
  (RasterizeTriangles verts tris areas nt fr hf thr = Ok hf' \/ RasterizeTriangles2 verts areas nt fr hf thr = Ok hf') ->
  hf_w hf' = hf_w hf /\ hf_h hf' = hf_h hf /\
  exists ops, run_ins hf ops = Ok hf' /\ forall o, In o ops -> spans_of (hf_w hf) (hf_h hf) areas thr o.
Proof.
  intros verts tris areas nt fr hf thr hf' Hw Hh E.
  assert (added hf hf' (spans_of (hf_w hf) (hf_h hf) areas thr)) as (W & H & ops & F & R).
  { destruct E as [E|E].
    - refine (added_fold _ _ _ _ _ _ hf hf' eq_refl eq_refl E). clear E. intros hf1 i hf2 W H E.
      repeat (apply bind_ok in E; destruct E as (? & ? & E)). apply get_In in H6.
      eapply added_weaken; [intros o; apply fine_spans; exact H6|]. eapply rasterizeTri_added; eauto.
    - refine (added_fold _ _ _ _ _ _ hf hf' eq_refl eq_refl E). clear E. intros hf1 i hf2 W H E.
      repeat (apply bind_ok in E; destruct E as (? & ? & E)). apply get_In in H3.
      eapply added_weaken; [intros o; apply fine_spans; exact H3|]. eapply rasterizeTri_added; eauto. }
  split; [exact W|]. split; [exact H|]. exists ops. split; [exact R|]. rewrite Forall_forall in F. exact F.
Qed.

(** A triangle over three of four cells. *)
Definition q (a b : Z) : f32 := f_ratio a b.
Example C46_example :
  RasterizeTriangle (q 1 4, q 1 1, q 1 4) (q 7 4, q 3 1, q 1 4) (q 1 4, q 1 1, q 7 4) 63
    (mkFrame (f0, f0, f0) (q 2 1, q 10 1, q 2 1) f1 (q 1 2)) (mkHF 2 2 [[]; []; []; []]) 1
  = Ok (mkHF 2 2 [[mkSpan 2 4 63]; [mkSpan 4 6 63]; [mkSpan 2 4 63]; []]).
Proof. vm_compute. reflexivity. Qed.
Example C46_example_list :
  RasterizeTriangles2 [q 1 4; q 1 1; q 1 4; q 7 4; q 3 1; q 1 4; q 1 4; q 1 1; q 7 4] [63] 1
    (mkFrame (f0, f0, f0) (q 2 1, q 10 1, q 2 1) f1 (q 1 2)) (mkHF 2 2 [[]; []; []; []]) 1
  = Ok (mkHF 2 2 [[mkSpan 2 4 63]; [mkSpan 4 6 63]; [mkSpan 2 4 63]; []]).
Proof. vm_compute. reflexivity. Qed.

(** The exception is needed: a flat triangle in the topmost voxel leaves an empty span,
    because the successor of its minimum wraps to 0. *)
Theorem C46_top_refuted : exists v0 v1 v2 area fr thr s,
  RasterizeTriangle v0 v1 v2 area fr (mkHF 1 1 [[]]) thr = Ok (mkHF 1 1 [[s]]) /\ smin s = 65535 /\ smax s = 65535.
Proof.
  exists (q 1 4, q 131071 2, q 1 4), (q 3 4, q 131071 2, q 1 4), (q 1 4, q 131071 2, q 3 4), 63,
    (mkFrame (f0, f0, f0) (q 1 1, q 65536 1, q 1 1) f1 f1), 1, (mkSpan 65535 65535 63).
  split; [vm_compute; reflexivity|]. split; reflexivity.
Qed.

(** ** C47 *)
Open Scope Q_scope.
(** In exact arithmetic. The polygon is the list [P] of vertices read from the array; [A] and
    [B] are what the function leaves in the two output parts. The outputs need room for as
    many more vertices as there are places where the boundary leaves the lower half-space
    (one for a convex polygon that is cut). *)
Theorem C47_divide : forall mem o o1 o2 room (P : list qv) x axis,
  P <> [] -> (0 <= axis <= 2)%Z -> (zlen P <= 12)%Z ->
  (0 <= o)%Z -> (0 <= o1)%Z -> (0 <= o2)%Z -> (o1 + 3 * room <= zlen mem)%Z -> (o2 + 3 * room <= zlen mem)%Z ->
  apart o (3 * zlen P) o1 (3 * room) -> apart o (3 * zlen P) o2 (3 * room) -> apart o1 (3 * room) o2 (3 * room) ->
  (zlen P + Z.of_nat (leaves axis x P) <= room)%Z ->
  holds mem o P ->
  exists mem' A B,
    dividePoly numQ mem o (zlen P) o1 o2 x axis = Ok (mem', zlen A, zlen B) /\
    holds mem' o1 A /\ holds mem' o2 B /\
    (* each on its side *)
    (forall r, In r A -> coord axis r <= x) /\ (forall r, In r B -> x <= coord axis r) /\
    (* on the boundary of the input *)
    (forall r, In r A \/ In r B -> exists p1 p2, In (p1, p2) (edges P) /\ on_edge p1 p2 r) /\
    (* keeping its vertices *)
    (forall r, In r P -> (coord axis r < x -> In r A) /\ (x < coord axis r -> In r B)) /\
    (* sizes *)
    (length A <= length P + leaves axis x P)%nat /\ (length B <= length P + leaves axis x P)%nat /\
    (* areas, projected along any of the coordinates *)
    (forall k, qarea axis k A + qarea axis k B == qarea axis k P).
Proof.
  intros mem o o1 o2 room P x axis HP Hax H12 H0 H1 H2 L1 L2 A1 A2 A3 HR HH.
  destruct P as [|a P'] eqn:EP; [congruence|]. rewrite <- EP in *.
  set (A := fst (split numQ axis x (last P a) P)). set (B := snd (split numQ axis x (last P a) P)).
  destruct (divide_count axis x P a HP) as [C1 C2]. change (length A <= length P + leaves axis x P)%nat in C1. change (length B <= length P + leaves axis x P)%nat in C2.
  assert (edges P = edges_from (last P a) P) as EE by (rewrite EP; reflexivity).
  destruct (dividePoly_ok numQ axis x Hax mem o o1 o2 room P a) as (mem' & E & Ha & Hb); try assumption.
  - pose proof (Zle_0_nat (length P)). unfold zlen in *. lia.
  - change (zlen A <= room)%Z. unfold zlen in *. lia.
  - change (zlen B <= room)%Z. unfold zlen in *. lia.
  - exists mem', A, B. split; [exact E|]. split; [exact Ha|]. split; [exact Hb|].
    split; [|split; [|split; [|split; [|split; [exact C1|split; [exact C2|]]]]]].
    + intros r Hr. apply split_in in Hr. destruct Hr as (e & _ & Hr). apply emit_fst in Hr. destruct Hr as [Hr _]. unfold u in Hr. Lqa.lra.
    + intros r Hr. apply split_in in Hr. destruct Hr as (e & _ & Hr). apply emit_snd in Hr. destruct Hr as [Hr _]. unfold u in Hr. Lqa.lra.
    + intros r [Hr|Hr]; apply split_in in Hr; destruct Hr as ([p1 p2] & He & Hr); exists p1, p2; rewrite EE; (split; [exact He|]);
        [apply emit_fst in Hr|apply emit_snd in Hr]; tauto.
    + intros r Hr. destruct (split_keeps axis x P (last P a) r Hr) as [K1 K2]. unfold u in *. split; intros Hl; [apply K1|apply K2]; Lqa.lra.
    + intros k. apply divide_area; assumption.
Qed.

(** A triangle with one vertex above the plane x = 1: a quadrangle and a triangle. *)
Definition tri : list qv := [(0, 5, 0); (2, 7, 0); (0, 5, 2)].
Definition triMem : list Q := [0; 5; 0; 2; 7; 0; 0; 5; 2] ++ repeat 0 24.
Example C47_example :
  let P := tri in
  leaves 0 1 P = 1%nat /\ (zlen P + Z.of_nat (leaves 0 1 P) <= 4)%Z /\
  (9 + 3 * 4 <= zlen triMem)%Z /\ (21 + 3 * 4 <= zlen triMem)%Z /\
  apart 0 (3 * zlen P) 9 (3 * 4) /\ apart 0 (3 * zlen P) 21 (3 * 4) /\ apart 9 (3 * 4) 21 (3 * 4) /\
  holds triMem 0 P /\
  exists mem', dividePoly numQ triMem 0 3 9 21 1 0 = Ok (mem', 4%Z, 3%Z) /\
    qarea 0 2 P == 4.
Proof.
  cbv zeta. split; [reflexivity|]. unfold apart. change (zlen tri) with 3%Z. change (zlen triMem) with 33%Z. change (leaves 0 1 tri) with 1%nat.
  repeat (split; [lia|]). split.
  - intros i p E k Hk. assert (k = 0 \/ k = 1 \/ k = 2)%Z as Hk' by lia.
    destruct i as [|[|[|i]]]; cbn in E; [| | |destruct i; discriminate];
    injection E as <-; destruct Hk' as [->|[->| ->]]; reflexivity.
  - eexists. split; [vm_compute; reflexivity|]. vm_compute. reflexivity.
Qed.

Print Assumptions C46_triangle.
Print Assumptions C46_triangles.
Print Assumptions C46_top_refuted.
Print Assumptions C47_divide.
