(** The table of edges of the Delaunay triangulation. *)
From Coq Require Import ZArith List Bool Lia.
From Verif.Base Require Import Res GoNum F32 Num Grid.
From Verif.Model Require Import Geom Delaunay.
From Verif.Spec Require Import DelaunaySpec.
From Verif.Proofs Require Import DelaunayPick.
Import ListNotations.
Open Scope Z_scope.

Lemma NoDup_app_intro : forall {A} (l k : list A), NoDup l -> NoDup k -> (forall a, In a l -> ~ In a k) -> NoDup (l ++ k).
Proof.
  intros A l k Hl Hk H. induction Hl as [|x l Hx Hl IH]; [exact Hk|]. cbn. constructor.
  - intros Hi. apply in_app_or in Hi as [Hi|Hi]; [contradiction|]. apply (H x); [now left|exact Hi].
  - apply IH. intros a Ha. apply H. now right.
Qed.
Lemma NoDup_app_inv : forall {A} (l k : list A), NoDup (l ++ k) -> NoDup k.
Proof. intros A l k. induction l as [|x l IH]; cbn; intros H; [exact H|]. apply NoDup_cons_iff in H as [_ H]. auto. Qed.
Lemma firstn_In_aux : forall {A} k (l : list A) x, In x (firstn k l) -> In x l.
Proof. intros A k l x H. rewrite <- (firstn_skipn k l). apply in_or_app. now left. Qed.
Lemma sides_app : forall E F, sides (E ++ F) = sides E ++ sides F.
Proof. intros. unfold sides. apply flat_map_app. Qed.
Lemma dirs_app : forall E F, dirs (E ++ F) = dirs E ++ dirs F.
Proof. intros. unfold dirs. now rewrite sides_app, map_app. Qed.
Lemma in_sides : forall E a b f, In (a, b, f) (sides E) <->
  (exists r, In (a, b, f, r) E) \/ (exists l, In (b, a, l, f) E).
Proof.
  intros E a b f. unfold sides. rewrite in_flat_map. split.
  - intros ([[[s t] l] r] & Hi & [H|[H|[]]]); injection H as -> -> ->; eauto.
  - intros [[r H]|[l H]]; eexists; (split; [exact H|]); cbn; auto.
Qed.
Lemma in_dirs : forall E a b, In (a, b) (dirs E) <-> exists f, In (a, b, f) (sides E).
Proof.
  intros. unfold dirs. rewrite in_map_iff. split.
  - intros ([[x y] f] & H & Hi). cbn in H. injection H as -> ->. eauto.
  - intros [f H]. exists (a, b, f). auto.
Qed.
Lemma dirs_sym : forall E a b, In (a, b) (dirs E) -> In (b, a) (dirs E).
Proof.
  intros E a b H. apply in_dirs in H as [f H]. apply in_sides in H. apply in_dirs.
  destruct H as [[r H]|[l H]]; [exists r|exists l]; apply in_sides; eauto.
Qed.
Lemma dirs_cons : forall s t l r E, dirs ((s, t, l, r) :: E) = (s, t) :: (t, s) :: dirs E.
Proof. reflexivity. Qed.
Lemma sides_fun : forall E a b f g, NoDup (dirs E) -> In (a, b, f) (sides E) -> In (a, b, g) (sides E) -> f = g.
Proof.
  intros E a b f g. unfold dirs. induction (sides E) as [|[[x y] h] l IH]; cbn [map]; intros N H1 H2; [easy|].
  apply NoDup_cons_iff in N as [N1 N2]. cbn [fst] in N1.
  assert (K : forall k, In (a, b, k) l -> In (a, b) (map fst l)) by (intros k Hk; apply in_map_iff; exists (a, b, k); auto).
  destruct H1 as [H1|H1], H2 as [H2|H2].
  - congruence.
  - injection H1 as -> -> ->. elim N1. eauto.
  - injection H2 as -> -> ->. elim N1. eauto.
  - auto.
Qed.

(** * updateLeftFace *)
Lemma ulf_ends : forall s t f e, let '(a, b, _, _) := e in exists l r, updateLeftFace s t f e = (a, b, l, r).
Proof.
  intros s t f [[[a b] l] r]. cbn [updateLeftFace].
  destruct (_ && _ && _); [eauto|]. destruct (_ && _ && _); eauto.
Qed.
Lemma ulf_dirs : forall s t f E, dirs (map (updateLeftFace s t f) E) = dirs E.
Proof.
  intros s t f E. induction E as [|[[[a b] l] r] E IH]; [reflexivity|]. cbn [map].
  destruct (ulf_ends s t f (a, b, l, r)) as (l' & r' & ->). now rewrite !dirs_cons, IH.
Qed.
Lemma ulf_id : forall s t f E, ~ In (s, t) (dirs E) -> map (updateLeftFace s t f) E = E.
Proof.
  intros s t f E. induction E as [|[[[a b] l] r] E IH]; intros H; [reflexivity|]. cbn [map]. rewrite dirs_cons in H.
  rewrite IH by (intros H'; apply H; right; right; exact H'). f_equal. cbn [updateLeftFace].
  destruct ((a =? s) && (b =? t)) eqn:C1.
  { apply andb_true_iff in C1 as [C1 C2]. apply Z.eqb_eq in C1, C2. subst. elim H. now left. }
  destruct ((b =? s) && (a =? t)) eqn:C2; [|reflexivity].
  apply andb_true_iff in C2 as [C2 C3]. apply Z.eqb_eq in C2, C3. subst. elim H. right. now left.
Qed.
(** Writing one edge is writing all the edges: no other edge has these ends. *)
Lemma ulf_upd : forall s t f E i e, NoDup (dirs E) -> nth_error E i = Some e -> In (s, t) (dirs [e]) ->
  upd E i (updateLeftFace s t f e) = map (updateLeftFace s t f) E.
Proof.
  intros s t f E. induction E as [|[[[a b] l] r] E IH]; intros i e N Hi He; [destruct i; discriminate|].
  rewrite dirs_cons in N. apply NoDup_cons_iff in N as [N1 N]. apply NoDup_cons_iff in N as [N2 N].
  destruct i as [|i]; cbn [nth_error upd map] in *.
  - injection Hi as <-. rewrite ulf_id; [reflexivity|]. intros H. cbn in He.
    destruct He as [He|[He|[]]]; injection He as -> ->; [apply N1; now right|contradiction].
  - rewrite (IH i e) by assumption. f_equal. assert (Hs : In (s, t) (dirs E)).
    { apply nth_error_In in Hi. destruct e as [[[x y] l'] r']. apply in_dirs. cbn in He.
      destruct He as [He|[He|[]]]; injection He as -> ->; [exists l'|exists r']; apply in_sides; eauto. }
    symmetry. cbn [updateLeftFace].
    destruct ((a =? s) && (b =? t)) eqn:C1.
    { apply andb_true_iff in C1 as [C1 C2]. apply Z.eqb_eq in C1, C2. subst. elim N1. now right. }
    destruct ((b =? s) && (a =? t)) eqn:C2; [|reflexivity].
    apply andb_true_iff in C2 as [C2 C3]. apply Z.eqb_eq in C2, C3. subst. contradiction.
Qed.
Lemma ulf_in : forall s t f e a b l r, updateLeftFace s t f e = (a, b, l, r) ->
  exists l0 r0, e = (a, b, l0, r0) /\
    (l = l0 \/ l0 = -1 /\ l = f /\ a = s /\ b = t) /\ (r = r0 \/ r0 = -1 /\ r = f /\ b = s /\ a = t).
Proof.
  intros s t f [[[a0 b0] l0] r0] a b l r H. cbn [updateLeftFace] in H.
  destruct ((a0 =? s) && (b0 =? t) && (l0 =? EV_UNDEF)) eqn:C1.
  { apply andb_true_iff in C1 as [C1 C2]. apply andb_true_iff in C1 as [C0 C1]. apply Z.eqb_eq in C0, C1, C2.
    injection H as <- <- <- <-. exists l0, r0. unfold EV_UNDEF in *. auto 12. }
  destruct ((b0 =? s) && (a0 =? t) && (r0 =? EV_UNDEF)) eqn:C2.
  { apply andb_true_iff in C2 as [C3 C4]. apply andb_true_iff in C3 as [C5 C3]. apply Z.eqb_eq in C3, C4, C5.
    injection H as <- <- <- <-. exists l0, r0. unfold EV_UNDEF in *. auto 12. }
  injection H as <- <- <- <-. exists l0, r0. auto.
Qed.
Lemma ulf_set : forall s t f a b l r, a <> b -> exists l' r', updateLeftFace s t f (a, b, l, r) = (a, b, l', r') /\
  (a = s -> b = t -> l = -1 -> l' = f) /\ (b = s -> a = t -> r = -1 -> r' = f) /\
  (l <> -1 -> l' = l) /\ (r <> -1 -> r' = r).
Proof.
  intros s t f a b l r Hab. cbn [updateLeftFace]. unfold EV_UNDEF.
  destruct (Z.eqb_spec a s), (Z.eqb_spec b t), (Z.eqb_spec l (-1)), (Z.eqb_spec b s), (Z.eqb_spec a t), (Z.eqb_spec r (-1)); cbn [andb];
    do 2 eexists; (split; [reflexivity|]); repeat split; intros; subst; congruence.
Qed.

Definition open (e : edge) : Prop := let '(_, _, l, r) := e in l = -1 \/ r = -1.

(** * What one operation does to the table *)
Record grow (n mx f : Z) (A : Z * Z -> Prop) (E E' : list edge) : Prop := {
  g_nodup : NoDup (dirs E');
  g_len : zlen E <= zlen E' <= mx;
  g_dirs : forall p, In p (dirs E) -> In p (dirs E');
  g_range : forall a b, In (a, b) (dirs E') -> 0 <= a < n /\ 0 <= b < n;
  g_new : forall a b g, In (a, b, g) (sides E') -> In (a, b, g) (sides E) \/ g = -1 \/ (A (a, b) /\ g = f);
  g_old : forall a b g, In (a, b, g) (sides E) -> g <> -1 -> In (a, b, g) (sides E');
  g_nth : forall k a b l r, nth_error E k = Some (a, b, l, r) ->
    exists l' r', nth_error E' k = Some (a, b, l', r') /\ (l <> -1 -> l' = l) /\ (r <> -1 -> r' = r);
  g_closed : forall k, (k <= length E)%nat -> Forall (fun e => ~ open e) (firstn k E) -> Forall (fun e => ~ open e) (firstn k E')
}.

Lemma g_edge : forall n mx f A E E', grow n mx f A E E' ->
  forall a b l r, In (a, b, l, r) E -> exists l' r', In (a, b, l', r') E' /\ (l <> -1 -> l' = l).
Proof.
  intros n mx f A E E' G a b l r Hi. apply In_nth_error in Hi as [k Hi].
  destruct (g_nth _ _ _ _ _ _ G k a b l r Hi) as (l' & r' & Hk & Hl & _). exists l', r'. split; [now apply nth_error_In in Hk|exact Hl].
Qed.
Lemma grow_refl : forall n mx f A E, NoDup (dirs E) -> zlen E <= mx ->
  (forall a b, In (a, b) (dirs E) -> 0 <= a < n /\ 0 <= b < n) -> grow n mx f A E E.
Proof. intros. split; auto; try lia. intros k a b l r Hi. exists l, r. auto. Qed.

Lemma grow_trans : forall n mx f A E E1 E2, grow n mx f A E E1 -> grow n mx f A E1 E2 -> grow n mx f A E E2.
Proof.
  intros n mx f A E E1 E2 G H. destruct G, H. split; auto; try lia.
  - intros a b g Hi. destruct (g_new1 a b g Hi) as [H|[H|H]]; auto.
  - intros k a b l r Hi. destruct (g_nth0 k a b l r Hi) as (l1 & r1 & Hi1 & Hl1 & Hr1).
    destruct (g_nth1 k a b l1 r1 Hi1) as (l2 & r2 & Hi2 & Hl2 & Hr2). exists l2, r2. split; [exact Hi2|]. split.
    + intros Hl. rewrite <- (Hl1 Hl). apply Hl2. rewrite (Hl1 Hl). exact Hl.
    + intros Hr. rewrite <- (Hr1 Hr). apply Hr2. rewrite (Hr1 Hr). exact Hr.
  - intros k Hk Hc. apply g_closed1; [unfold zlen in *; lia|]. auto.
Qed.

Lemma grow_fill : forall n mx f (A : Z * Z -> Prop) E s t, NoDup (dirs E) -> zlen E <= mx ->
  (forall a b, In (a, b) (dirs E) -> 0 <= a < n /\ 0 <= b < n) -> A (s, t) -> f <> -1 ->
  grow n mx f A E (map (updateLeftFace s t f) E).
Proof.
  intros n mx f A E s t N L R HA Hf.
  assert (Nab : forall a b l r, In (a, b, l, r) E -> a <> b).
  { clear -N. induction E as [|[[[x y] l'] r'] E IH]; [easy|]; intros a b l r [H|H].
    - injection H as -> -> -> ->. rewrite dirs_cons in N. apply NoDup_cons_iff in N as [N _]. intros ->. apply N. now left.
    - rewrite dirs_cons in N. apply NoDup_cons_iff in N as [_ N]. apply NoDup_cons_iff in N as [_ N]. eapply IH; eauto. }
  split.
  - now rewrite ulf_dirs.
  - unfold zlen in *. rewrite map_length. lia.
  - intros p. now rewrite ulf_dirs.
  - intros a b. rewrite ulf_dirs. apply R.
  - intros a b g H. apply in_sides in H as [[r H]|[l H]]; apply in_map_iff in H as (e & He & Hi);
      apply ulf_in in He as (l0 & r0 & -> & H1 & H2).
    + destruct H1 as [->|(-> & -> & -> & ->)]; [left; apply in_sides; eauto|auto].
    + destruct H2 as [->|(-> & -> & -> & ->)]; [left; apply in_sides; eauto|auto].
  - intros a b g H Hg. apply in_sides in H as [[r H]|[l H]]; apply in_sides.
    + left. destruct (ulf_set s t f a b g r (Nab _ _ _ _ H)) as (l' & r' & Eu & _ & _ & Hl & _). exists r'.
      apply in_map_iff. exists (a, b, g, r). split; [|exact H]. rewrite Eu. now rewrite (Hl Hg).
    + right. destruct (ulf_set s t f b a l g (Nab _ _ _ _ H)) as (l' & r' & Eu & _ & _ & _ & Hr). exists l'.
      apply in_map_iff. exists (b, a, l, g). split; [|exact H]. rewrite Eu. now rewrite (Hr Hg).
  - intros k a b l r H. destruct (ulf_set s t f a b l r (Nab _ _ _ _ (nth_error_In _ _ H))) as (l' & r' & Eu & _ & _ & Hl & Hr).
    exists l', r'. split; [|split; [exact Hl|exact Hr]]. rewrite nth_error_map, H. cbn [option_map]. now rewrite Eu.
  - intros k _ Hc. rewrite firstn_map. rewrite Forall_forall in *. intros e He. apply in_map_iff in He as ([[[a b] l] r] & <- & Hi).
    specialize (Hc _ Hi). cbn [open] in Hc.
    destruct (ulf_set s t f a b l r) as (l' & r' & -> & _ & _ & Hl & Hr).
    { eapply Nab. apply (firstn_In_aux k). exact Hi. }
    cbn [open]. rewrite Hl, Hr by tauto. exact Hc.
Qed.

Lemma fill_has : forall f E s t, NoDup (dirs E) -> In (s, t, -1) (sides E) ->
  In (s, t, f) (sides (map (updateLeftFace s t f) E)).
Proof.
  intros f E s t N H. apply in_sides. apply in_sides in H as H'.
  assert (Hst : s <> t).
  { intros ->. clear H. destruct H' as [[r H]|[r H]]; apply in_split in H as (l1 & l2 & ->); rewrite dirs_app, dirs_cons in N;
      apply NoDup_app_inv in N; rewrite NoDup_cons_iff in N; destruct N as [N _]; apply N; now left. }
  destruct H' as [[r H']|[l H']].
  - left. destruct (ulf_set s t f s t (-1) r Hst) as (l' & r' & Eu & Hl & _). exists r'. apply in_map_iff. exists (s, t, -1, r).
    split; [|exact H']. rewrite Eu. now rewrite Hl.
  - right. destruct (ulf_set s t f t s l (-1) (not_eq_sym Hst)) as (l' & r' & Eu & _ & Hr & _). exists l'. apply in_map_iff. exists (t, s, l, -1).
    split; [|exact H']. rewrite Eu. now rewrite Hr.
Qed.

(** * findEdge and addEdge *)
Lemma findEdge_from : forall s t E i, 0 <= i ->
  (findEdgeFrom E i s t = -1 /\ ~ In (s, t) (dirs E)) \/
  (exists k e, findEdgeFrom E i s t = i + Z.of_nat k /\ nth_error E k = Some e /\ In (s, t) (dirs [e])).
Proof.
  intros s t E. induction E as [|[[[a b] l] r] E IH]; intros i Hi; [left; auto|]. cbn [findEdgeFrom].
  destruct (((a =? s) && (b =? t)) || ((a =? t) && (b =? s))) eqn:C.
  - right. exists O, (a, b, l, r). split; [lia|]. split; [reflexivity|]. cbn.
    apply orb_true_iff in C as [C|C]; apply andb_true_iff in C as [C1 C2]; apply Z.eqb_eq in C1, C2; subst; auto.
  - destruct (IH (i + 1)) as [(E1 & N1)|(k & e & E1 & E2 & E3)]; [lia| |].
    + left. split; [exact E1|]. rewrite dirs_cons. intros [H|[H|H]]; [| |contradiction]; injection H as -> ->;
        rewrite !Z.eqb_refl in C; cbn [andb orb] in C; [discriminate|]. now rewrite orb_true_r in C.
    + right. exists (S k), e. rewrite E1. split; [lia|]. auto.
Qed.
Lemma findEdge_cases : forall s t E,
  (findEdge E s t = -1 /\ ~ In (s, t) (dirs E)) \/
  (exists k e, findEdge E s t = Z.of_nat k /\ nth_error E k = Some e /\ In (s, t) (dirs [e])).
Proof. intros s t E. destruct (findEdge_from s t E 0) as [H|(k & e & H)]; [lia|left; exact H|right; exists k, e; exact H]. Qed.

Lemma grow_add : forall n mx f (A : Z * Z -> Prop) E s t l r, NoDup (dirs E) -> zlen E < mx ->
  (forall a b, In (a, b) (dirs E) -> 0 <= a < n /\ 0 <= b < n) -> 0 <= s < n -> 0 <= t < n -> s <> t -> ~ In (s, t) (dirs E) ->
  (l = -1 \/ A (s, t) /\ l = f) -> (r = -1 \/ A (t, s) /\ r = f) ->
  grow n mx f A E (E ++ [(s, t, l, r)]).
Proof.
  intros n mx f A E s t l r N L R Rs Rt Hst Hn Hl Hr.
  assert (Hn' : ~ In (t, s) (dirs E)) by (intros H; apply Hn; now apply dirs_sym).
  assert (D : dirs (E ++ [(s, t, l, r)]) = dirs E ++ [(s, t); (t, s)]) by (rewrite dirs_app; reflexivity).
  split.
  - rewrite D. apply NoDup_app_intro.
    + exact N.
    + repeat constructor; cbn; intuition congruence.
    + intros x Hx [<-|[<-|[]]]; contradiction.
  - rewrite zlen_snoc. lia.
  - intros p Hp. rewrite D. apply in_or_app. now left.
  - intros a b Hi. rewrite D in Hi. apply in_app_or in Hi as [Hi|[Hi|[Hi|[]]]]; [now apply R| |]; injection Hi as <- <-; auto.
  - intros a b g Hi. rewrite sides_app in Hi. apply in_app_or in Hi as [Hi|Hi]; [now left|]. cbn in Hi.
    destruct Hi as [Hi|[Hi|[]]]; injection Hi as <- <- <-; right; assumption.
  - intros a b g Hi _. rewrite sides_app. apply in_or_app. now left.
  - intros k a b l0 r0 Hi. exists l0, r0. split; [|auto]. rewrite nth_error_app1; [exact Hi|]. apply nth_error_Some. congruence.
  - intros k Hk Hc. rewrite firstn_app. replace (k - length E)%nat with O by lia. cbn [firstn]. now rewrite app_nil_r.
Qed.

Lemma linkSide_ok : forall n mx f (A : Z * Z -> Prop) E s t, NoDup (dirs E) -> zlen E <= mx ->
  (forall a b, In (a, b) (dirs E) -> 0 <= a < n /\ 0 <= b < n) -> 0 <= s < n -> 0 <= t < n -> s <> t -> A (s, t) -> f <> -1 ->
  exists E', linkSide E mx s t f = Ok E' /\ grow n mx f A E E' /\ (zlen E' < mx -> In (s, t) (dirs E')).
Proof.
  intros n mx f A E s t N L R Rs Rt Hst HA Hf. unfold linkSide.
  destruct (findEdge_cases s t E) as [(Ef & Hn)|(k & e & Ef & Ek & He)]; rewrite Ef.
  - change (-1 =? EV_UNDEF) with true. cbv iota. unfold addEdge. destruct (Z.leb_spec mx (zlen E)) as [Hm|Hm].
    + exists E. split; [reflexivity|]. split; [now apply grow_refl|lia].
    + rewrite Ef. change (-1 =? EV_UNDEF) with true. cbv iota. eexists. split; [reflexivity|]. split.
      * apply grow_add; auto.
      * intros _. rewrite dirs_app. apply in_or_app. right. now left.
  - destruct (Z.eqb_spec (Z.of_nat k) EV_UNDEF) as [H|_]; [unfold EV_UNDEF in H; lia|].
    assert (Lk : (k < length E)%nat) by (apply nth_error_Some; congruence).
    assert (G : get E (Z.of_nat k) = Ok e) by (apply get_ok; split; [unfold zlen; lia|now rewrite Nat2Z.id]).
    rewrite G. cbn [bind]. exists (map (updateLeftFace s t f) E). split; [|split].
    + rewrite set_in_range by (unfold zlen; lia). f_equal. rewrite Nat2Z.id. now apply ulf_upd.
    + now apply grow_fill.
    + intros _. rewrite ulf_dirs. apply nth_error_In in Ek. destruct e as [[[x y] l'] r']. apply in_dirs.
      cbn in He. destruct He as [He|[He|[]]]; injection He as -> ->; [exists l'|exists r']; apply in_sides; eauto.
Qed.
