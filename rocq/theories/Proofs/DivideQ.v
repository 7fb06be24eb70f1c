(** dividePoly in exact arithmetic (C47). *)
From Coq Require Import ZArith List Bool Lia QArith Qfield Lqa.
From Verif.Base Require Import Res GoNum Num.
From Verif.Spec Require Import DivideSpec.
From Verif.Proofs Require Import DivideProofs.
Import ListNotations.
Open Scope Q_scope.

Section Exact.
Variables (axis b : Z) (x : Q).

Definition u (p : qv) : Q := x - coord axis p.
Definition t (p : qv) : Q := coord b p.
Definition cut_at (p q : qv) : qv := lerp numQ (u p / (u p - u q)) p q.

Lemma coord_lerp : forall s p q k, coord k (lerp numQ s p q) = coord k p + (coord k q - coord k p) * s.
Proof. intros s p q k. unfold coord, lerp. cbn [nadd nmul nsub numQ]. destruct (k =? 0)%Z; [reflexivity|]. destruct (k =? 1)%Z; reflexivity. Qed.

Inductive step (p q : qv) : list qv * list qv -> Prop :=
| step_in : 0 <= u p -> 0 < u q -> step p q ([q], [])
| step_on : 0 <= u p -> u q == 0 -> step p q ([q], [q])
| step_out : u p < 0 -> u q < 0 -> step p q ([], [q])
| step_leave : 0 <= u p -> u q < 0 -> step p q ([cut_at p q], [cut_at p q; q])
| step_enter : u p < 0 -> 0 < u q -> step p q ([cut_at p q; q], [cut_at p q])
| step_touch : u p < 0 -> u q == 0 -> step p q ([cut_at p q], [cut_at p q]).

Lemma Qltb_spec : forall a c, (Qltb a c = true <-> a < c) /\ (Qltb a c = false <-> c <= a).
Proof.
  intros a c. unfold Qltb. destruct (Qle_bool c a) eqn:E; cbn.
  - apply Qle_bool_iff in E. split; (split; [try discriminate|]); intros; lra.
  - assert (a < c) by (apply Qnot_le_lt; intros F; apply Qle_bool_iff in F; congruence). split; (split; [|try discriminate]); intros; try lra; reflexivity.
Qed.
Lemma Qleb_spec : forall a c, (Qle_bool a c = true <-> a <= c) /\ (Qle_bool a c = false <-> c < a).
Proof.
  intros a c. destruct (Qle_bool a c) eqn:E.
  - apply Qle_bool_iff in E. split; (split; [try discriminate|]); intros; try lra; reflexivity.
  - assert (c < a) by (apply Qnot_le_lt; intros F; apply Qle_bool_iff in F; congruence). split; (split; [|try discriminate]); intros; try lra; reflexivity.
Qed.

Lemma emit_step : forall p q, step p q (emit numQ axis x p q).
Proof.
  intros p q. unfold emit. cbn [nZ nle nlt ndiv nsub numQ]. cbv zeta. change (dd numQ axis x p) with (u p). change (dd numQ axis x q) with (u q).
  change (lerp numQ (u p / (u p - u q)) p q) with (cut_at p q). change (inject_Z 0) with 0.
  destruct (Qle_bool 0 (u p)) eqn:E1, (Qle_bool 0 (u q)) eqn:E2; cbn [Bool.eqb negb]; apply Qleb_spec in E1; apply Qleb_spec in E2.
  - destruct (Qle_bool (u q) 0) eqn:E3; cbn [negb]; apply Qleb_spec in E3; constructor; lra.
  - destruct (Qltb 0 (u q)) eqn:E3; apply Qltb_spec in E3; [lra|]. destruct (Qltb (u q) 0) eqn:E4; apply Qltb_spec in E4; [|lra]. constructor; lra.
  - destruct (Qltb 0 (u q)) eqn:E3; apply Qltb_spec in E3; [constructor; lra|]. destruct (Qltb (u q) 0) eqn:E4; apply Qltb_spec in E4; [lra|]. constructor; lra.
  - constructor; lra.
Qed.

Definition crossing (p q : qv) : Prop := (0 <= u p /\ u q < 0) \/ (u p < 0 /\ 0 <= u q).
Lemma u_cut : forall p q, crossing p q -> u (cut_at p q) == 0.
Proof.
  intros p q H. assert (~ u p - u q == 0) by (destruct H; lra). unfold u at 1. unfold cut_at. rewrite coord_lerp.
  assert (coord axis q - coord axis p == u p - u q) as E by (unfold u; ring). rewrite E.
  setoid_replace ((u p - u q) * (u p / (u p - u q))) with (u p) by (field; assumption). unfold u. ring.
Qed.
Lemma s_range : forall p q, crossing p q -> 0 <= u p / (u p - u q) <= 1.
Proof.
  intros p q [[A B]|[A B]].
  - split; [apply Qle_shift_div_l; lra|apply Qle_shift_div_r; lra].
  - setoid_replace (u p / (u p - u q)) with ((- u p) / (u q - u p)) by (field; lra).
    split; [apply Qle_shift_div_l; lra|apply Qle_shift_div_r; lra].
Qed.
Lemma cut_touch : forall p q k, u p < 0 -> u q == 0 -> coord k (cut_at p q) == coord k q.
Proof.
  intros p q k A B. unfold cut_at. rewrite coord_lerp.
  setoid_replace (u p / (u p - u q)) with 1 by (rewrite B; field; lra). ring.
Qed.

(** ** Areas *)
Definition uc (p q : qv) : Q := u p * t q - u q * t p.
Fixpoint S (L : qv) (E : list qv) : Q := match E with [] => 0 | q :: E => uc L q + S q E end.
Lemma S_app : forall E1 E2 L, S L (E1 ++ E2) == S L E1 + S (last E1 L) E2.
Proof.
  induction E1 as [|q E1 IH]; intros E2 L; [cbn; ring|].
  cbn [app S]. rewrite IH. destruct E1 as [|q' E1]; [cbn [S last]; ring|].
  change (last (q :: q' :: E1) L) with (last (q' :: E1) L).
  assert (forall d d', last (q' :: E1) d = last (q' :: E1) d') as D by (clear; revert q'; induction E1 as [|a E1 IH]; intros q' d d'; [reflexivity|]; cbn [last] in *; apply IH).
  rewrite (D L q). ring.
Qed.

Definition cA (p q : qv) : Q :=
  if Qle_bool 0 (u p) then (if Qle_bool 0 (u q) then uc p q else uc p (cut_at p q))
  else (if Qle_bool 0 (u q) then uc (cut_at p q) q else 0).
Definition cB (p q : qv) : Q :=
  if Qle_bool 0 (u p) then (if Qle_bool 0 (u q) then 0 else uc (cut_at p q) q)
  else (if Qle_bool 0 (u q) then uc p (cut_at p q) else uc p q).
Fixpoint sumE (c : qv -> qv -> Q) (p : qv) (l : list qv) : Q := match l with [] => 0 | q :: l => c p q + sumE c q l end.

Lemma cA_cB : forall p q, cA p q + cB p q == uc p q.
Proof.
  intros p q. unfold cA, cB.
  assert (uc p (cut_at p q) + uc (cut_at p q) q == uc p q) as E.
  { unfold uc, t, u, cut_at. rewrite !coord_lerp. generalize ((x - coord axis p) / (x - coord axis p - (x - coord axis q))). intros s.
    generalize (coord axis p) (coord axis q) (coord b p) (coord b q). intros. ring. }
  destruct (Qle_bool 0 (u p)), (Qle_bool 0 (u q)); rewrite <- ?E; ring.
Qed.
Lemma sum_cA_cB : forall l p, sumE cA p l + sumE cB p l == S p l.
Proof.
  induction l as [|q l IH]; intros p; cbn [sumE S]; [ring|]. rewrite <- (IH q), <- (cA_cB p q). ring.
Qed.

Definition invA (p L : qv) : Prop := (0 <= u p -> u L == u p /\ t L == t p) /\ (u p < 0 -> u L == 0).
Definition invB (p L : qv) : Prop := (u p < 0 -> u L == u p /\ t L == t p) /\ (0 <= u p -> u L == 0).

Lemma last_app_ne : forall {A} (l k : list A) d, k <> [] -> last (l ++ k) d = last k d.
Proof.
  intros A l k d H. induction l as [|a l IH]; [reflexivity|]. cbn [app]. destruct (l ++ k) eqn:E; [apply app_eq_nil in E; tauto|].
  cbn [last]. destruct l0; exact IH.
Qed.
Lemma last_cons : forall {A} (a : A) l d, last (a :: l) d = last l a.
Proof. intros A a l. revert a. induction l as [|c l IH]; intros a d; [reflexivity|]. change (last (a :: c :: l) d) with (last (c :: l) d). rewrite !IH. reflexivity. Qed.
Lemma last_app : forall {A} (l k : list A) d, last (l ++ k) d = last k (last l d).
Proof.
  intros A l k d. revert d. induction l as [|a l IH]; intros d; [reflexivity|]. cbn [app]. rewrite !last_cons. apply IH.
Qed.

Ltac qb := repeat match goal with
  | |- context [Qle_bool ?a ?c] => let E := fresh in destruct (Qle_bool a c) eqn:E; apply Qleb_spec in E
  end.

Lemma areaA : forall l p L, invA p L ->
  S L (fst (split numQ axis x p l)) == sumE cA p l /\ invA (last l p) (last (fst (split numQ axis x p l)) L).
Proof.
  induction l as [|q l IH]; intros p L HI.
  - cbn. split; [ring|exact HI].
  - cbn [split fst sumE]. rewrite S_app, last_app, last_cons.
    assert (S L (fst (emit numQ axis x p q)) == cA p q /\ invA q (last (fst (emit numQ axis x p q)) L)) as [E1 E2].
    { unfold invA in *. destruct HI as [I1 I2]. destruct (emit_step p q) as [A B|A B|A B|A B|A B|A B]; cbn [fst S last]; unfold cA; qb; try (exfalso; lra).
      - destruct (I1 A) as [I3 I4]. split; [unfold uc; rewrite I3, I4; ring|]. split; intros; [split; reflexivity|lra].
      - destruct (I1 A) as [I3 I4]. split; [unfold uc; rewrite I3, I4; ring|]. split; intros; [split; reflexivity|lra].
      - split; [ring|]. split; intros; [lra|]. apply I2, A.
      - destruct (I1 A) as [I3 I4]. split; [unfold uc; rewrite I3, I4; ring|].
        split; intros; [lra|]. apply u_cut. left. auto.
      - pose proof (u_cut p q ltac:(right; lra)) as U. specialize (I2 A). split; [unfold uc at 1; rewrite I2, U; ring|].
        split; intros; [split; reflexivity|lra].
      - pose proof (u_cut p q ltac:(right; lra)) as U. specialize (I2 A). split; [unfold uc; rewrite I2, U, B; ring|].
        split; intros; [|lra]. split; [rewrite U, B; reflexivity|]. unfold t. apply cut_touch; assumption. }
    destruct (IH q _ E2) as [E3 E4]. split; [rewrite E1, E3; reflexivity|exact E4].
Qed.
Lemma areaB : forall l p L, invB p L ->
  S L (snd (split numQ axis x p l)) == sumE cB p l /\ invB (last l p) (last (snd (split numQ axis x p l)) L).
Proof.
  induction l as [|q l IH]; intros p L HI.
  - cbn. split; [ring|exact HI].
  - cbn [split snd sumE]. rewrite S_app, last_app, last_cons.
    assert (S L (snd (emit numQ axis x p q)) == cB p q /\ invB q (last (snd (emit numQ axis x p q)) L)) as [E1 E2].
    { unfold invB in *. destruct HI as [I1 I2]. destruct (emit_step p q) as [A B|A B|A B|A B|A B|A B]; cbn [snd S last]; unfold cB; qb; try (exfalso; lra).
      - split; [ring|]. split; intros; [lra|]. apply I2, A.
      - specialize (I2 A). split; [unfold uc; rewrite I2, B; ring|]. split; intros; lra.
      - destruct (I1 A) as [I3 I4]. split; [unfold uc; rewrite I3, I4; ring|]. split; intros; [split; reflexivity|lra].
      - pose proof (u_cut p q ltac:(left; lra)) as U. specialize (I2 A). split; [unfold uc at 1; rewrite I2, U; ring|].
        split; intros; [split; reflexivity|lra].
      - pose proof (u_cut p q ltac:(right; lra)) as U. destruct (I1 A) as [I3 I4]. split; [unfold uc; rewrite I3, I4; ring|].
        split; intros; [lra|exact U].
      - pose proof (u_cut p q ltac:(right; lra)) as U. destruct (I1 A) as [I3 I4]. split; [unfold uc; rewrite I3, I4; ring|].
        split; intros; [lra|exact U]. }
    destruct (IH q _ E2) as [E3 E4]. split; [rewrite E1, E3; reflexivity|exact E4].
Qed.

Definition closed (E : list qv) : Q := match E with [] => 0 | p :: _ => S (last E p) E end.
Lemma u_mid : u (x, x, x) == 0.
Proof. unfold u, coord. destruct (axis =? 0)%Z; [cbn; ring|]. destruct (axis =? 1)%Z; cbn; ring. Qed.
Lemma last_any : forall {A} (l : list A) d d', l <> [] -> last l d = last l d'.
Proof. intros A l d d' H. destruct l as [|a l]; [congruence|]. now rewrite !last_cons. Qed.

Lemma closedA : forall P p, P <> [] -> closed (fst (split numQ axis x (last P p) P)) == sumE cA (last P p) P.
Proof.
  intros P p HP. set (p0 := last P p).
  assert (exists L, invA p0 L) as (L0 & H0).
  { destruct (Qlt_le_dec (u p0) 0) as [N|N].
    - exists (x, x, x). split; intros; [lra|apply u_mid].
    - exists p0. split; intros; [split; reflexivity|lra]. }
  destruct (areaA P p0 L0 H0) as [E1 E2].
  assert (last P p0 = p0) as Ep by (unfold p0; apply last_any; exact HP). rewrite Ep in E2.
  destruct (fst (split numQ axis x p0 P)) as [|a A] eqn:EA; [exact E1|].
  unfold closed. rewrite (last_any (a :: A) L0 a) in E2 by discriminate.
  destruct (areaA P p0 _ E2) as [E3 _]. rewrite EA in E3. exact E3.
Qed.
Lemma closedB : forall P p, P <> [] -> closed (snd (split numQ axis x (last P p) P)) == sumE cB (last P p) P.
Proof.
  intros P p HP. set (p0 := last P p).
  assert (exists L, invB p0 L) as (L0 & H0).
  { destruct (Qlt_le_dec (u p0) 0) as [N|N].
    - exists p0. split; intros; [split; reflexivity|lra].
    - exists (x, x, x). split; intros; [lra|apply u_mid]. }
  destruct (areaB P p0 L0 H0) as [E1 E2].
  assert (last P p0 = p0) as Ep by (unfold p0; apply last_any; exact HP). rewrite Ep in E2.
  destruct (snd (split numQ axis x p0 P)) as [|a A] eqn:EA; [exact E1|].
  unfold closed. rewrite (last_any (a :: A) L0 a) in E2 by discriminate.
  destruct (areaB P p0 _ E2) as [E3 _]. rewrite EA in E3. exact E3.
Qed.

Lemma qarea_closed : forall E, qarea axis b E == - closed E.
Proof.
  assert (forall E L, fold_right Qplus 0 (map (fun e => qcross axis b (fst e) (snd e)) (edges_from L E)) == x * (t (last E L) - t L) - S L E) as G.
  { induction E as [|q E IH]; intros L; [cbn; ring|]. cbn [edges_from map fold_right S fst snd]. rewrite IH, last_cons.
    unfold qcross, uc, u, t. ring. }
  intros E. unfold qarea, edges, closed. destruct E as [|a E]; [reflexivity|]. rewrite G.
  rewrite (last_any (a :: E) (last (a :: E) a) a) by discriminate. ring.
Qed.

Lemma divide_area : forall P p, P <> [] ->
  qarea axis b (fst (split numQ axis x (last P p) P)) + qarea axis b (snd (split numQ axis x (last P p) P)) == qarea axis b P.
Proof.
  intros P p HP. rewrite !qarea_closed, closedA, closedB by assumption.
  assert (closed P == S (last P p) P) as -> by (destruct P as [|a P]; [congruence|]; unfold closed; rewrite !last_cons; reflexivity).
  rewrite <- (sum_cA_cB P (last P p)). ring.
Qed.

(** ** Sides, edges, vertices *)
Lemma split_in : forall l p r, (In r (fst (split numQ axis x p l)) -> exists e, In e (edges_from p l) /\ In r (fst (emit numQ axis x (fst e) (snd e)))) /\
  (In r (snd (split numQ axis x p l)) -> exists e, In e (edges_from p l) /\ In r (snd (emit numQ axis x (fst e) (snd e)))).
Proof.
  induction l as [|q l IH]; intros p r; [cbn; tauto|]. cbn [split fst snd edges_from]. destruct (IH q r) as [I1 I2].
  split; intros H; apply in_app_iff in H; destruct H as [H|H].
  - exists (p, q). split; [left; reflexivity|exact H].
  - destruct (I1 H) as (e & E1 & E2). exists e. split; [right; exact E1|exact E2].
  - exists (p, q). split; [left; reflexivity|exact H].
  - destruct (I2 H) as (e & E1 & E2). exists e. split; [right; exact E1|exact E2].
Qed.
Lemma on_edge_cut : forall p q, crossing p q -> on_edge p q (cut_at p q).
Proof.
  intros p q H. exists (u p / (u p - u q)). split; [apply s_range, H|]. intros k. unfold cut_at. rewrite coord_lerp. ring.
Qed.
Lemma on_edge_end : forall p q, on_edge p q q.
Proof. intros p q. exists 1. split; [lra|]. intros k. ring. Qed.
Lemma emit_fst : forall p q r, In r (fst (emit numQ axis x p q)) -> 0 <= u r /\ on_edge p q r.
Proof.
  intros p q r H. destruct (emit_step p q) as [A B|A B|A B|A B|A B|A B]; cbn [fst] in H.
  - destruct H as [<-|[]]. split; [lra|apply on_edge_end].
  - destruct H as [<-|[]]. split; [lra|apply on_edge_end].
  - destruct H.
  - assert (crossing p q) as C by (left; lra). destruct H as [<-|[]]. split; [rewrite u_cut by exact C; lra|apply on_edge_cut, C].
  - assert (crossing p q) as C by (right; lra). destruct H as [<-|[<-|[]]]; (split; [|apply on_edge_cut, C || apply on_edge_end]); [rewrite u_cut by exact C; lra|lra].
  - assert (crossing p q) as C by (right; lra). destruct H as [<-|[]]. split; [rewrite u_cut by exact C; lra|apply on_edge_cut, C].
Qed.
Lemma emit_snd : forall p q r, In r (snd (emit numQ axis x p q)) -> u r <= 0 /\ on_edge p q r.
Proof.
  intros p q r H. destruct (emit_step p q) as [A B|A B|A B|A B|A B|A B]; cbn [snd] in H.
  - destruct H.
  - destruct H as [<-|[]]. split; [lra|apply on_edge_end].
  - destruct H as [<-|[]]. split; [lra|apply on_edge_end].
  - assert (crossing p q) as C by (left; lra). destruct H as [<-|[<-|[]]]; (split; [|apply on_edge_cut, C || apply on_edge_end]); [rewrite u_cut by exact C; lra|lra].
  - assert (crossing p q) as C by (right; lra). destruct H as [<-|[]]. split; [rewrite u_cut by exact C; lra|apply on_edge_cut, C].
  - assert (crossing p q) as C by (right; lra). destruct H as [<-|[]]. split; [rewrite u_cut by exact C; lra|apply on_edge_cut, C].
Qed.
Lemma split_keeps : forall l p r, In r l -> (0 < u r -> In r (fst (split numQ axis x p l))) /\ (u r < 0 -> In r (snd (split numQ axis x p l))).
Proof.
  induction l as [|q l IH]; intros p r H; [destruct H|]. cbn [split fst snd]. destruct H as [->|H].
  - split; intros Hu; apply in_app_iff; left; destruct (emit_step p r) as [A B|A B|A B|A B|A B|A B]; cbn [fst snd]; try lra; cbn; tauto.
  - destruct (IH q r H) as [I1 I2]. split; intros Hu; apply in_app_iff; right; auto.
Qed.

(** ** Numbers of vertices *)
Definition inside (p : qv) : bool := Qle_bool (coord axis p) x.
Definition nleave (p : qv) (l : list qv) : nat := length (filter (fun e => inside (fst e) && negb (inside (snd e))) (edges_from p l)).
Definition nenter (p : qv) (l : list qv) : nat := length (filter (fun e => negb (inside (fst e)) && inside (snd e)) (edges_from p l)).
Lemma inside_spec : forall p, (inside p = true <-> 0 <= u p) /\ (inside p = false <-> u p < 0).
Proof.
  intros p. unfold inside, u. destruct (Qleb_spec (coord axis p) x) as [A B]. rewrite A, B. split; split; intros; lra.
Qed.
Lemma inside_balance : forall l p, (nenter p l + Nat.b2n (inside p) = nleave p l + Nat.b2n (inside (last l p)))%nat.
Proof.
  induction l as [|q l IH]; intros p; [reflexivity|]. specialize (IH q). rewrite last_cons. unfold nenter, nleave in *. cbn [edges_from filter fst snd].
  destruct (inside p), (inside q); cbn [andb negb length Nat.b2n] in *; lia.
Qed.
Lemma split_count : forall l p, (length (fst (split numQ axis x p l)) <= length l + nenter p l)%nat /\ (length (snd (split numQ axis x p l)) <= length l + nleave p l)%nat.
Proof.
  induction l as [|q l IH]; intros p; [cbn; lia|]. cbn [split fst snd]. rewrite !app_length. destruct (IH q) as [I1 I2].
  unfold nenter, nleave in *. cbn [edges_from filter fst snd length].
  destruct (inside_spec p) as [P1 P2], (inside_spec q) as [Q1 Q2].
  destruct (emit_step p q) as [A B|A B|A B|A B|A B|A B]; cbn [fst snd length];
    [rewrite (proj2 P1), (proj2 Q1) by lra|rewrite (proj2 P1), (proj2 Q1) by lra|rewrite (proj2 P2), (proj2 Q2) by lra|
     rewrite (proj2 P1), (proj2 Q2) by lra|rewrite (proj2 P2), (proj2 Q1) by lra|rewrite (proj2 P2), (proj2 Q1) by lra]; cbn [andb negb length]; lia.
Qed.
Lemma divide_count : forall P p, P <> [] ->
  (length (fst (split numQ axis x (last P p) P)) <= length P + leaves axis x P)%nat /\ (length (snd (split numQ axis x (last P p) P)) <= length P + leaves axis x P)%nat.
Proof.
  intros P p HP. assert (leaves axis x P = nleave (last P p) P) as E.
  { unfold leaves, nleave, edges. destruct P as [|a P]; [congruence|]. rewrite !last_cons. reflexivity. }
  rewrite E. pose proof (split_count P (last P p)). pose proof (inside_balance P (last P p)) as Bl.
  assert (last P (last P p) = last P p) as E2 by (apply last_any; exact HP). unfold qv in *. rewrite E2 in Bl. lia.
Qed.
End Exact.
