(** Monadic folds, and the row-major double loop [for y { for x { ... } }] over a grid. *)
From Coq Require Import ZArith List Bool Lia FinFun.
From Verif.Base Require Import Res GoNum.
Import ListNotations.
Open Scope Z_scope.

(** A [for range] loop over a list with a mutable state. *)
Fixpoint foldM {S A} (f : S -> A -> res S) (l : list A) (s : S) : res S :=
  match l with
  | [] => Ok s
  | a :: t => let* s' := f s a in foldM f t s'
  end.

(** The cells [(x, y)] of a [w * h] grid in the order of
    [for y := 0; y < h; y++ { for x := 0; x < w; x++ {...} }]. *)
Definition cells (w h : Z) : list (Z * Z) :=
  flat_map (fun y => map (fun x => (x, y)) (zseq (Z.to_nat w))) (zseq (Z.to_nat h)).

Definition sweep {S} (w h : Z) (body : S -> Z -> Z -> res S) (s : S) : res S :=
  foldM (fun s xy => body s (fst xy) (snd xy)) (cells w h) s.

Lemma foldM_app : forall {S A} (f : S -> A -> res S) l k s,
  foldM f (l ++ k) s = let* s' := foldM f l s in foldM f k s'.
Proof.
  induction l as [|a l IH]; intros k s; cbn [foldM app bind]; auto.
  destruct (f s a); cbn [bind]; auto.
Qed.

Lemma in_zseq : forall n z, In z (zseq n) <-> 0 <= z < Z.of_nat n.
Proof.
  intros n z. unfold zseq. rewrite in_map_iff. split.
  - intros (k & <- & H). apply in_seq in H. lia.
  - intros H. exists (Z.to_nat z). split; [lia|]. apply in_seq. lia.
Qed.

Lemma zseq_length : forall n, length (zseq n) = n.
Proof. intros. unfold zseq. now rewrite map_length, seq_length. Qed.

Lemma zseq_S : forall n, zseq (S n) = zseq n ++ [Z.of_nat n].
Proof. intros. unfold zseq. rewrite seq_S, map_app. reflexivity. Qed.

Lemma in_cells : forall w h x y, In (x, y) (cells w h) <-> 0 <= x < w /\ 0 <= y < h.
Proof.
  intros w h x y. unfold cells. rewrite in_flat_map. split.
  - intros (y' & Hy & H). apply in_map_iff in H. destruct H as (x' & E & Hx).
    inversion E; subst. apply in_zseq in Hx, Hy. lia.
  - intros [Hx Hy]. exists y. split; [apply in_zseq; lia|].
    apply in_map_iff. exists x. split; auto. apply in_zseq. lia.
Qed.

Definition cidx (w x y : Z) : Z := x + y * w.

Lemma cidx_range : forall w h x y, 0 <= x < w -> 0 <= y < h -> 0 <= cidx w x y < w * h.
Proof. intros. unfold cidx. nia. Qed.

Lemma cidx_inj : forall w x y x' y', 0 <= x < w -> 0 <= x' < w ->
  cidx w x y = cidx w x' y' -> x = x' /\ y = y'.
Proof. intros. unfold cidx in *. assert (y = y') by (destruct (Z.lt_trichotomy y y') as [|[|]]; nia). subst. lia. Qed.

Lemma cidx_surj : forall w h i, 0 <= w -> 0 <= i < w * h ->
  exists x y, 0 <= x < w /\ 0 <= y < h /\ cidx w x y = i.
Proof.
  intros w h i Hw Hi. assert (0 < w) by (destruct (Z.eq_dec w 0); [subst|]; lia).
  exists (i mod w), (i / w). unfold cidx.
  pose proof (Z.mod_pos_bound i w). pose proof (Z.div_mod i w).
  split; [lia|]. split; [|lia]. split; [apply Z.div_pos; lia|].
  apply Z.div_lt_upper_bound; lia.
Qed.

Lemma NoDup_zseq : forall n, NoDup (zseq n).
Proof.
  intros n. unfold zseq. apply FinFun.Injective_map_NoDup; [|apply seq_NoDup].
  intros a b. lia.
Qed.

Lemma NoDup_cells : forall w h, NoDup (cells w h).
Proof.
  intros w h. unfold cells.
  generalize (NoDup_zseq (Z.to_nat h)). generalize (zseq (Z.to_nat h)) as ys.
  induction ys as [|y ys IH]; intros Hn; [constructor|].
  inversion Hn; subst. cbn [flat_map].
  assert (forall l k : list (Z * Z), NoDup l -> NoDup k -> (forall a, In a l -> ~ In a k) -> NoDup (l ++ k)) as Happ.
  { induction l as [|a l IHl]; intros k Hl Hk Hd; auto. inversion Hl; subst. constructor.
    - rewrite in_app_iff. intros [?|?]; auto. apply (Hd a); auto. now left.
    - apply IHl; auto. intros b Hb. apply Hd. now right. }
  apply Happ; auto.
  - apply FinFun.Injective_map_NoDup; [|apply NoDup_zseq]. intros a b E. now inversion E.
  - intros [x y'] Hi Hi'. apply in_map_iff in Hi. destruct Hi as (x0 & E & _). inversion E; subst.
    apply in_flat_map in Hi'. destruct Hi' as (y0 & Hy0 & Hx0). apply in_map_iff in Hx0.
    destruct Hx0 as (x1 & E1 & _). inversion E1; subst. auto.
Qed.

(** The indices visited by the double loop are [0, 1, ..., w*h-1]. *)
Lemma zseq_app : forall a b, zseq (a + b) = zseq a ++ map (fun i => Z.of_nat a + i) (zseq b).
Proof.
  intros a b. unfold zseq. rewrite seq_app, map_app. f_equal. simpl.
  rewrite map_map.
  replace (seq a b) with (map (fun k => (a + k)%nat) (seq 0 b)).
  - rewrite map_map. apply map_ext. intros. lia.
  - clear. revert a. induction b as [|b IH]; intros a; auto.
    simpl. f_equal; [lia|]. rewrite <- seq_shift, map_map.
    rewrite <- (IH (S a)). apply map_ext. intros. lia.
Qed.

Lemma cells_idx : forall w h, 0 <= w -> 0 <= h ->
  map (fun xy => cidx w (fst xy) (snd xy)) (cells w h) = zseq (Z.to_nat (w * h)).
Proof.
  intros w h Hw Hh. unfold cells.
  assert (forall n, map (fun xy => cidx w (fst xy) (snd xy))
     (flat_map (fun y => map (fun x => (x, y)) (zseq (Z.to_nat w))) (zseq n)) = zseq (n * Z.to_nat w)) as G.
  { induction n as [|n IH]; [reflexivity|].
    rewrite zseq_S, flat_map_app, map_app, IH. cbn [flat_map]. rewrite app_nil_r, map_map.
    replace (S n * Z.to_nat w)%nat with (n * Z.to_nat w + Z.to_nat w)%nat by lia.
    rewrite zseq_app. f_equal. apply map_ext. intros x. cbn [fst snd]. unfold cidx.
    rewrite Nat2Z.inj_mul, Z2Nat.id by lia. lia. }
  rewrite G. f_equal. nia.
Qed.

(** A sweep whose body replaces the current cell's entry by a function of that entry,
    the function depending on the rest of the state only through an invariant part. *)
Lemma sweep_pointwise : forall {A} w h (body : list A -> Z -> Z -> res (list A))
    (P : list A -> Prop) (F : Z -> Z -> A -> A) st,
  0 <= w -> 0 <= h -> zlen st = w * h -> P st ->
  (forall s x y a, 0 <= x < w -> 0 <= y < h -> zlen s = w * h -> P s ->
     get s (cidx w x y) = Ok a ->
     body s x y = Ok (upd s (Z.to_nat (cidx w x y)) (F x y a)) /\
     P (upd s (Z.to_nat (cidx w x y)) (F x y a))) ->
  exists st', sweep w h body st = Ok st' /\ zlen st' = w * h /\ P st' /\
    forall x y a, 0 <= x < w -> 0 <= y < h -> get st (cidx w x y) = Ok a ->
      get st' (cidx w x y) = Ok (F x y a).
Proof.
  intros A w h body P F st Hw Hh Hl HP Hb.
  assert (forall l s, NoDup l -> (forall x y, In (x, y) l -> 0 <= x < w /\ 0 <= y < h) ->
    zlen s = w * h -> P s ->
    exists s', foldM (fun s xy => body s (fst xy) (snd xy)) l s = Ok s' /\ zlen s' = w * h /\ P s' /\
    forall x y a, 0 <= x < w -> 0 <= y < h -> get s (cidx w x y) = Ok a ->
      (In (x, y) l -> get s' (cidx w x y) = Ok (F x y a)) /\
      (~ In (x, y) l -> get s' (cidx w x y) = Ok a)) as G.
  { induction l as [|[x0 y0] l IH]; intros s Hnd Hin Hs HPs.
    - exists s. cbn [foldM]. repeat split; auto. contradiction.
    - inversion Hnd; subst. destruct (Hin x0 y0) as [Hx0 Hy0]; [now left|].
      pose proof (cidx_range w h x0 y0 Hx0 Hy0) as Hc.
      destruct (get_in_range s (cidx w x0 y0)) as [a0 Ea0]; [lia|].
      destruct (Hb s x0 y0 a0 Hx0 Hy0 Hs HPs Ea0) as [Eb HP'].
      cbn [foldM fst snd]. rewrite Eb. cbn [bind].
      destruct (IH (upd s (Z.to_nat (cidx w x0 y0)) (F x0 y0 a0))) as (s' & E & Hs' & HPs' & Hsp); auto.
      + intros x y Hi. apply Hin. now right.
      + now rewrite zlen_upd.
      + exists s'. do 3 (split; [assumption|]). intros x y a Hx Hy Hg.
        pose proof (cidx_range w h x y Hx Hy) as Hc'. split; intros Hi.
        * destruct Hi as [E0|Hi].
          -- inversion E0; subst x0 y0. rewrite Ea0 in Hg. inversion Hg; subst a0.
             destruct (Hsp x y (F x y a)) as [_ Hno]; auto.
             rewrite get_upd, Z.eqb_refl by lia. destruct (Z.ltb_spec (cidx w x y) (zlen s)); [reflexivity|lia].
          -- destruct (Hsp x y a) as [Hyes _]; auto.
             rewrite get_upd by lia. destruct (Z.eqb_spec (cidx w x y) (cidx w x0 y0)) as [E0|]; auto.
             apply cidx_inj in E0; auto. destruct E0; subst. contradiction.
        * destruct (Hsp x y a) as [_ Hno]; auto.
          -- rewrite get_upd by lia. destruct (Z.eqb_spec (cidx w x y) (cidx w x0 y0)) as [E0|]; auto.
             apply cidx_inj in E0; auto. destruct E0; subst. exfalso. apply Hi. now left.
          -- apply Hno. intros Hi'. apply Hi. now right. }
  destruct (G (cells w h) st (NoDup_cells w h)) as (s' & E & Hs' & HP' & Hsp); auto.
  - intros x y. apply in_cells.
  - exists s'. repeat split; auto. intros x y a Hx Hy Hg.
    apply (Hsp x y a Hx Hy Hg). apply in_cells. auto.
Qed.

(** Invariant rule for a fold, the invariant seeing the part of the list already done. *)
Lemma foldM_inv : forall {S A} (f : S -> A -> res S) (I : list A -> S -> Prop) l s,
  I [] s ->
  (forall pre a post s, l = pre ++ a :: post -> I pre s -> exists s', f s a = Ok s' /\ I (pre ++ [a]) s') ->
  exists s', foldM f l s = Ok s' /\ I l s'.
Proof.
  intros S A f I l s H0 Hs.
  assert (forall post pre s, l = pre ++ post -> I pre s -> exists s', foldM f post s = Ok s' /\ I l s') as G.
  { induction post as [|a post IH]; intros pre s1 E Hi.
    - exists s1. rewrite app_nil_r in E. subst. auto.
    - destruct (Hs pre a post s1 E Hi) as (s2 & E2 & Hi2). cbn [foldM]. rewrite E2. cbn [bind].
      apply (IH (pre ++ [a])); auto. rewrite <- app_assoc. exact E. }
  apply (G l []); auto.
Qed.

Lemma zseq_split : forall n pre a post, zseq n = pre ++ a :: post -> a = zlen pre /\ (length pre < n)%nat.
Proof.
  intros n pre a post E.
  assert (nth_error (zseq n) (length pre) = Some a) as H.
  { rewrite E, nth_error_app2, Nat.sub_diag by lia. reflexivity. }
  assert (length pre < n)%nat as L.
  { rewrite <- (zseq_length n). apply nth_error_Some. congruence. }
  split; [|assumption]. unfold zseq in H. rewrite nth_error_map in H.
  rewrite (nth_error_nth' _ 0%nat) in H by now rewrite seq_length.
  rewrite seq_nth in H by assumption. cbn in H. unfold zlen. congruence.
Qed.

Lemma cells_split : forall w h pre x y post, 0 <= w -> 0 <= h -> cells w h = pre ++ (x, y) :: post ->
  cidx w x y = zlen pre /\ 0 <= x < w /\ 0 <= y < h.
Proof.
  intros w h pre x y post Hw Hh E. split.
  - pose proof (cells_idx w h Hw Hh) as C. rewrite E, map_app in C. cbn [map fst snd] in C.
    symmetry in C. apply zseq_split in C. destruct C as [C _]. unfold zlen in *. now rewrite map_length in C.
  - apply in_cells. rewrite E. apply in_or_app. right. now left.
Qed.
Lemma cells_length : forall w h, 0 <= w -> 0 <= h -> zlen (cells w h) = w * h.
Proof.
  intros w h Hw Hh. pose proof (f_equal (@length Z) (cells_idx w h Hw Hh)) as E.
  rewrite map_length, zseq_length in E. unfold zlen. rewrite E. nia.
Qed.

(** The same for a fold known to end normally. *)
Lemma foldM_ok_inv : forall {S A} (f : S -> A -> res S) (I : list A -> S -> Prop) l s s',
  foldM f l s = Ok s' -> I [] s ->
  (forall pre a post s s', l = pre ++ a :: post -> I pre s -> f s a = Ok s' -> I (pre ++ [a]) s') ->
  I l s'.
Proof.
  intros S A f I l s s' E H0 Hs.
  assert (forall post pre s, l = pre ++ post -> I pre s -> foldM f post s = Ok s' -> I l s') as G.
  { induction post as [|a post IH]; intros pre s1 El Hi Ef; cbn [foldM] in Ef.
    - rewrite app_nil_r in El. inversion Ef. subst. assumption.
    - apply bind_ok in Ef. destruct Ef as (s2 & E2 & Ef). apply (IH (pre ++ [a]) s2); auto.
      + rewrite <- app_assoc. exact El.
      + eapply Hs; eassumption. }
  apply (G l [] s); auto.
Qed.
Lemma foldM_ok_pres : forall {S A} (f : S -> A -> res S) (I : S -> Prop) l s s',
  foldM f l s = Ok s' -> I s -> (forall a s s', In a l -> I s -> f s a = Ok s' -> I s') -> I s'.
Proof.
  intros S A f I l s s' E H0 Hs. apply (foldM_ok_inv f (fun _ => I) l s s' E H0).
  intros pre a post s1 s2 El Hi Ef. eapply Hs; eauto. rewrite El. apply in_app_iff. right. left. reflexivity.
Qed.
