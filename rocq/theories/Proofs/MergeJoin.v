(** Merging regions (C49). *)
From Coq Require Import ZArith List Bool Lia Relations.
From Verif.Base Require Import Res GoNum Grid.
From Verif.Model Require Import Heightfield Dirs Compact Erode Region RegionMerge.
From Verif.Spec Require Import HeightfieldSpec CompactSpec ErodeSpec RegionSpec.
From Verif.Proofs Require Import ErodeProofs ErodeDist RegionBase RegionRow MergeBase MergeCollect MergeFilter.
Import ListNotations.
Open Scope Z_scope.

Lemma filter_lt : forall {T} (f g : T -> bool) l x, (forall a, In a l -> g a = true -> f a = true) -> In x l -> f x = true -> g x = false ->
  zlen (filter g l) + 1 <= zlen (filter f l).
Proof.
  intros T f g l. induction l as [|a l IH]; intros x H Hx Fx Gx; [destruct Hx|]. cbn [filter].
  assert (zlen (filter g l) <= zlen (filter f l)) as LE.
  { clear -H. induction l as [|b l IH]; [cbn; lia|]. cbn [filter]. assert (zlen (filter g l) <= zlen (filter f l)).
    { apply IH. intros c Hc. apply H. destruct Hc; [now left|right; now right]. }
    destruct (g b) eqn:E; [rewrite (H b (or_intror (or_introl eq_refl)) E)|destruct (f b)]; rewrite ?zlen_cons; lia. }
  destruct Hx as [->|Hx].
  - rewrite Fx, Gx, zlen_cons. lia.
  - assert (zlen (filter g l) + 1 <= zlen (filter f l)) as Q by (apply (IH x); auto; intros b Hb; apply H; now right).
    destruct (g a) eqn:E; [rewrite (H a (or_introl eq_refl) E)|destruct (f a)]; rewrite ?zlen_cons; lia.
Qed.

Section Join.
Variable chf : CompactHeightfield.
Variable src : list Z.
Variable nreg : Z.
Notation N := (chf_spanCount chf).
Notation A := (A chf).
Notation s i := (dv src i).
Hypothesis Hn : 1 <= nreg <= 32768.
Hypothesis Hv : forall i, 0 <= i < N -> 0 <= s i < nreg \/ 32768 <= s i < 65536.
Hypothesis Hat : forall x y i, span_at chf x y i -> 0 <= i < N.
(** the table after filtering *)
Variable R1 : list Rgn.

Notation id R k := (rID (rg R k)).
(** The group of a span. *)
Definition cls (R : list Rgn) (p : Z) : Z := if isBorder (s p) then 0 else id R (s p).
(** No region has two spans in one cell. *)
Definition apart : Prop := forall x y p q, span_at chf x y p -> span_at chf x y q -> s p = s q -> 0 < s p < nreg -> p = q.

Record joined (R : list Rgn) : Prop := {
  j_len : zlen R = nreg;
  j_id : forall k, 0 <= k < nreg -> id R k = 0 \/ (0 < id R k < nreg /\ id R (id R k) = id R k);
  j_id0 : id R 0 = 0;
  j_cnt : forall k, 0 <= k < nreg -> id R k <> k -> rCount (rg R k) = 0;
  j_area : forall p, 0 <= p < N -> cls R p <> 0 -> A p = rArea (rg R (cls R p));
  j_conr : forall k c, 0 <= k < nreg -> id R k <> 0 -> In c (rConns (rg R k)) -> isBorder c = false -> 0 <= c < nreg /\ (id R c = c \/ id R c = 0);
  j_con : forall k c, 0 <= k < nreg -> id R k <> 0 -> In c (rConns (rg R k)) -> isBorder c = false -> id R c <> 0 ->
    exists p q, step chf p q /\ cls R p = id R k /\ cls R q = id R c;
  j_floor : forall x y p q, span_at chf x y p -> span_at chf x y q -> p <> q -> cls R p <> 0 -> cls R q <> 0 -> cls R p <> cls R q ->
    In (cls R q) (rFloors (rg R (cls R p)));
  j_conn : forall p q, 0 <= p < N -> 0 <= q < N -> cls R p = cls R q -> cls R p <> 0 -> conn chf (fun i => 0 <= i < N /\ cls R i <> 0) (cls R) p q;
  j_over : apart -> forall x y p q, span_at chf x y p -> span_at chf x y q -> cls R p = cls R q -> cls R p <> 0 -> p = q;
  j_zero : forall k, 0 <= k < nreg -> (id R k = 0 <-> id R1 k = 0) }.

Definition reps (R : list Rgn) : Z := zlen (filter (fun k => (0 <? k) && (id R k =? k)) (zseq (Z.to_nat nreg))).

Lemma cls_range : forall R p, joined R -> 0 <= p < N -> cls R p <> 0 -> 0 < cls R p < nreg /\ id R (cls R p) = cls R p.
Proof.
  intros R p HJ Hp H. unfold cls in *. destruct (isBorder (s p)) eqn:E; [congruence|].
  assert (0 <= s p < nreg) as B. { destruct (Hv p Hp) as [|B]; [assumption|]. rewrite isBorder_hi in E by exact B. discriminate. }
  destruct (j_id _ HJ (s p) B) as [|X]; [contradiction|exact X].
Qed.

Lemma bestMerge_ok : forall R i, joined R -> 0 <= i < nreg -> id R i = i -> i <> 0 -> exists sm t, bestMerge R (rg R i) = Ok (sm, t) /\
  (t = i \/ (In t (rConns (rg R i)) /\ isBorder t = false /\ 0 < t < nreg /\ id R t = t /\
     canMergeWithRegion (rg R i) (rg R t) = true /\ canMergeWithRegion (rg R t) (rg R i) = true)).
Proof.
  intros R i HJ Bi Ei I0. unfold bestMerge. rewrite Ei.
  destruct (foldM_inv (fun st c => if isBorder c then Ok st else let* m := get R c in if skipID (rID m) || rOverlap m then Ok st
      else if (rCount m <? fst st) && canMergeWithRegion (rg R i) m && canMergeWithRegion m (rg R i) then Ok (rCount m, rID m) else Ok st)
    (fun _ st => snd st = i \/ (In (snd st) (rConns (rg R i)) /\ isBorder (snd st) = false /\ 0 < snd st < nreg /\ id R (snd st) = snd st /\
     canMergeWithRegion (rg R i) (rg R (snd st)) = true /\ canMergeWithRegion (rg R (snd st)) (rg R i) = true)) (rConns (rg R i)) (268435455, i)) as (st & E & H).
  - now left.
  - intros pre c post st El HS. assert (In c (rConns (rg R i))) as Hc by (rewrite El; apply in_app_iff; right; now left).
    destruct (isBorder c) eqn:EB; [exists st; auto|]. destruct (j_conr _ HJ i c Bi) as [Bc Hid]; [congruence|exact Hc|exact EB|].
    rewrite get_rg by (rewrite (j_len _ HJ); exact Bc). cbn [bind]. destruct (skipID (id R c) || rOverlap (rg R c)) eqn:ES; [exists st; auto|].
    apply orb_false_iff in ES. destruct ES as [ES _]. destruct Hid as [Hid|Hid]; [|rewrite Hid in ES; discriminate].
    destruct ((rCount (rg R c) <? fst st) && canMergeWithRegion (rg R i) (rg R c) && canMergeWithRegion (rg R c) (rg R i)) eqn:EM; [|exists st; auto].
    apply andb_true_iff in EM. destruct EM as [EM M2]. apply andb_true_iff in EM. destruct EM as [_ M1].
    eexists. split; [reflexivity|]. cbn [snd]. rewrite Hid. right. split; [exact Hc|]. split; [exact EB|]. split.
    { destruct (Z.eq_dec c 0) as [->|]; [rewrite (j_id0 _ HJ) in ES; discriminate|lia]. }
    split; [exact Hid|]. auto.
  - destruct st as [sm t]. exists sm, t. split; [exact E|exact H].
Qed.

Lemma canMerge_inv : forall a b, canMergeWithRegion a b = true -> rArea a = rArea b /\ ~ In (rID b) (rFloors a).
Proof.
  intros a b. unfold canMergeWithRegion. destruct (Z.eqb_spec (rArea a) (rArea b)) as [E|]; cbn [negb]; [|discriminate].
  destruct (countZ (rID b) (rConns a) >? 1); [discriminate|]. intros H. apply negb_true_iff in H. split; [exact E|]. intros Q. apply hasZ_in in Q. congruence.
Qed.

Definition ren (i t c : Z) : Z := if c =? i then t else c.
Definition fixed (i t : Z) (a b : Rgn) : Prop :=
  if rID a =? 0 then b = a
  else rID b = ren i t (rID a) /\ rArea b = rArea a /\ rCount b = rCount a /\ rOverlap b = rOverlap a /\ rFloors b = replaceZ i t (rFloors a) /\
    incl (rConns b) (replaceZ i t (rConns a)).
Lemma fixup_ok : forall R i t, zlen R = nreg -> (forall k, 0 <= k < nreg -> 0 <= id R k < nreg) ->
  exists R', foldM (fixupOne i t) (zseq (Z.to_nat nreg)) R = Ok R' /\ zlen R' = nreg /\ forall k, 0 <= k < nreg -> fixed i t (rg R k) (rg R' k).
Proof.
  intros R i t L B.
  destruct (loop_each (fixupOne i t) (fun _ a b => 0 <= rID a < nreg -> fixed i t a b) nreg (zseq (Z.to_nat nreg)) R) as (R' & E & L' & H & _).
  - apply NoDup_zseq.
  - intros j Hj. apply in_zseq in Hj. lia.
  - exact L.
  - intros R2 j Hj L2. apply in_zseq in Hj. unfold fixupOne. rewrite get_rg by lia. cbn [bind]. destruct (skipID (id R2 j)) eqn:ES.
    + exists (rg R2 j). split; [f_equal; symmetry; apply upd_self; assert (get R2 j = Ok (rg R2 j)) as G by (apply get_rg; lia); apply get_ok in G; apply G|].
      intros Bj. unfold fixed. destruct (Z.eqb_spec (id R2 j) 0); [reflexivity|]. rewrite skipID_false in ES by lia. discriminate.
    + set (r := if id R2 j =? i then withID t (rg R2 j) else rg R2 j). destruct (replaceNeighbour_ok i t r) as (conns & Er & HI). rewrite Er. cbn [bind].
      rewrite set_rg by lia. eexists. split; [reflexivity|]. intros Bj. unfold fixed. destruct (Z.eqb_spec (id R2 j) 0) as [E0|_]; [rewrite E0 in ES; discriminate|].
      unfold ren. unfold r in *. destruct (Z.eqb_spec (id R2 j) i); repeat split; exact HI.
  - exists R'. split; [exact E|]. split; [exact L'|]. intros k Hk. apply H; [apply in_zseq; lia|now apply B].
Qed.

Lemma merge_joined : forall R i t a' R', joined R -> 0 < i < nreg -> id R i = i -> 0 < t < nreg -> id R t = t -> t <> i ->
  In t (rConns (rg R i)) -> isBorder t = false -> canMergeWithRegion (rg R i) (rg R t) = true -> canMergeWithRegion (rg R t) (rg R i) = true ->
  rID a' = t -> rArea a' = rArea (rg R t) -> incl (rConns a') (rConns (rg R t) ++ rConns (rg R i)) ->
  (forall v, In v (rFloors a') <-> In v (rFloors (rg R t)) \/ In v (rFloors (rg R i))) ->
  zlen R' = nreg ->
  (forall k, 0 <= k < nreg -> fixed i t (if k =? i then withConns [] (withCount 0 (rg R i)) else if k =? t then a' else rg R k) (rg R' k)) ->
  joined R' /\ reps R' + 1 <= reps R.
Proof.
  intros R i t a' R' HJ Bi Ei Bt Et NE Hc EB M1 M2 A1 A2 A3 A4 L' F.
  apply canMerge_inv in M1, M2. destruct M1 as [MA M1], M2 as [_ M2]. rewrite Et in M1. rewrite Ei in M2.
  assert (forall k, 0 <= k < nreg -> id R' k = ren i t (id R k)) as NID.
  { intros k Hk. pose proof (F k Hk) as Fk. unfold fixed in Fk. destruct (Z.eqb_spec k i) as [->|Ni].
    - cbn [rID withConns withCount] in Fk. rewrite Ei in Fk |- *. destruct (Z.eqb_spec i 0); [lia|]. apply Fk.
    - destruct (Z.eqb_spec k t) as [->|Nt].
      + rewrite A1 in Fk. destruct (Z.eqb_spec t 0); [lia|]. rewrite Et. apply Fk.
      + destruct (Z.eqb_spec (id R k) 0) as [E|]; [rewrite Fk, E; unfold ren; destruct (Z.eqb_spec 0 i); [lia|reflexivity]|apply Fk]. }
  assert (forall k, 0 <= k < nreg -> rArea (rg R' k) = rArea (rg R k)) as NAR.
  { intros k Hk. pose proof (F k Hk) as Fk. unfold fixed in Fk. destruct (Z.eqb_spec k i) as [->|Ni].
    - cbn [rID rArea withConns withCount] in Fk. rewrite Ei in Fk. destruct (Z.eqb_spec i 0); [lia|]. apply Fk.
    - destruct (Z.eqb_spec k t) as [->|Nt].
      + rewrite A1, A2 in Fk. destruct (Z.eqb_spec t 0); [lia|]. apply Fk.
      + destruct (Z.eqb_spec (id R k) 0) as [E|]; [now rewrite Fk|apply Fk]. }
  assert (forall p, 0 <= p < N -> cls R' p = ren i t (cls R p)) as NCL.
  { intros p Hp. unfold cls. destruct (isBorder (s p)) eqn:E; [unfold ren; destruct (Z.eqb_spec 0 i); [lia|reflexivity]|].
    apply NID. destruct (Hv p Hp) as [|B]; [assumption|]. rewrite isBorder_hi in E by exact B. discriminate. }
  assert (forall c, ren i t c = 0 <-> c = 0) as R0Z. { intros c. unfold ren. destruct (Z.eqb_spec c i); lia. }
  assert (forall c, ren i t (ren i t c) = ren i t c) as RR. { intros c. unfold ren. destruct (Z.eqb_spec c i); [destruct (Z.eqb_spec t i); [lia|reflexivity]|]. destruct (Z.eqb_spec c i); [contradiction|reflexivity]. }
  (* connections *)
  assert (forall k c', 0 <= k < nreg -> id R' k <> 0 -> In c' (rConns (rg R' k)) -> exists k0 c, 0 <= k0 < nreg /\ id R k0 <> 0 /\ ren i t (id R k0) = id R' k /\
      In c (rConns (rg R k0)) /\ c' = ren i t c) as NCON.
  { intros k c' Hk K0 Hc'. pose proof (F k Hk) as Fk. unfold fixed in Fk. rewrite NID in K0 by exact Hk. rewrite R0Z in K0. destruct (Z.eqb_spec k i) as [->|Ni].
    - cbn [rID rConns withConns withCount] in Fk. rewrite Ei in Fk. destruct (Z.eqb_spec i 0); [lia|]. destruct Fk as (_ & _ & _ & _ & _ & I). apply I in Hc'. destruct Hc'.
    - destruct (Z.eqb_spec k t) as [->|Nt].
      + rewrite A1 in Fk. destruct (Z.eqb_spec t 0); [lia|]. destruct Fk as (_ & _ & _ & _ & _ & I). apply I in Hc'. apply in_replaceZ in Hc'. destruct Hc' as (c & Hcc & ->).
        apply A3 in Hcc. apply in_app_iff in Hcc. destruct Hcc as [Hcc|Hcc].
        * exists t, c. split; [lia|]. split; [lia|]. split; [symmetry; now apply NID|]. auto.
        * exists i, c. split; [lia|]. split; [lia|]. split; [|auto]. rewrite NID by lia. rewrite Ei, Et. unfold ren. rewrite Z.eqb_refl. destruct (Z.eqb_spec t i); [contradiction|reflexivity].
      + destruct (Z.eqb_spec (id R k) 0) as [E|E]; [contradiction|]. destruct Fk as (_ & _ & _ & _ & _ & I). apply I in Hc'. apply in_replaceZ in Hc'. destruct Hc' as (c & Hcc & ->).
        exists k, c. split; [lia|]. split; [exact E|]. split; [symmetry; now apply NID|]. auto. }
  (* floors *)
  assert (forall k v, 0 <= k < nreg -> id R k = k -> k <> 0 -> In v (rFloors (rg R k)) -> In (ren i t v) (rFloors (rg R' (ren i t k)))) as NFL.
  { intros k v Hk EK K0 Hvk. assert (0 <= ren i t k < nreg) as Br by (unfold ren; destruct (k =? i); lia). pose proof (F _ Br) as Fk. unfold fixed in Fk.
    assert (ren i t k <> i) as Ni by (unfold ren; destruct (Z.eqb_spec k i); lia). destruct (Z.eqb_spec (ren i t k) i) as [|_]; [contradiction|].
    assert (In (ren i t v) (replaceZ i t (rFloors (if ren i t k =? t then a' else rg R (ren i t k))))) as Q.
    { apply in_replaceZ. exists v. split; [|reflexivity]. unfold ren. destruct (Z.eqb_spec k i) as [->|].
      - rewrite Z.eqb_refl. apply A4. now right.
      - destruct (Z.eqb_spec k t) as [->|]; [apply A4; now left|exact Hvk]. }
    destruct (Z.eqb_spec (ren i t k) t) as [Et'|Nt'].
    - rewrite A1 in Fk. destruct (Z.eqb_spec t 0); [lia|]. destruct Fk as (_ & _ & _ & _ & -> & _). exact Q.
    - assert (ren i t k = k) as Ek by (unfold ren in *; destruct (Z.eqb_spec k i); [contradiction|reflexivity]). rewrite Ek in *. rewrite EK in Fk. destruct (Z.eqb_spec k 0); [contradiction|].
      destruct Fk as (_ & _ & _ & _ & -> & _). exact Q. }
  assert (forall p q, cls R p <> cls R q -> ren i t (cls R p) = ren i t (cls R q) -> (cls R p = i /\ cls R q = t) \/ (cls R p = t /\ cls R q = i)) as SPLIT.
  { intros p q Nq E. unfold ren in E. destruct (Z.eqb_spec (cls R p) i), (Z.eqb_spec (cls R q) i); try lia. }
  split.
  - split.
    + exact L'.
    + intros k Hk. rewrite NID by exact Hk. destruct (j_id _ HJ k Hk) as [E|[B E]]; [left; now apply R0Z|right].
      assert (0 < ren i t (id R k) < nreg) as Br by (unfold ren; destruct (id R k =? i); lia). split; [exact Br|]. rewrite NID by lia.
      unfold ren at 2 3. destruct (Z.eqb_spec (id R k) i) as [EE|]; [rewrite Et; unfold ren; destruct (Z.eqb_spec t i); [contradiction|reflexivity]|].
      rewrite E. unfold ren. destruct (Z.eqb_spec (id R k) i); [contradiction|reflexivity].
    + rewrite NID by lia. apply R0Z. apply (j_id0 _ HJ).
    + intros k Hk. rewrite NID by exact Hk. intros Nk. pose proof (F k Hk) as Fk. unfold fixed in Fk. destruct (Z.eqb_spec k i) as [->|Ni].
      * cbn [rID rCount withConns withCount] in Fk. rewrite Ei in Fk. destruct (Z.eqb_spec i 0); [lia|]. apply Fk.
      * destruct (Z.eqb_spec k t) as [->|Nt]; [exfalso; apply Nk; rewrite Et; unfold ren; destruct (Z.eqb_spec t i); [contradiction|reflexivity]|].
        assert (id R k <> k) as Q. { intros Q. apply Nk. rewrite Q. unfold ren. destruct (Z.eqb_spec k i); [contradiction|reflexivity]. }
        pose proof (j_cnt _ HJ k Hk Q) as C. destruct (Z.eqb_spec (id R k) 0) as [E|]; [now rewrite Fk|]. destruct Fk as (_ & _ & -> & _). exact C.
    + intros p Hp. rewrite NCL by exact Hp. rewrite R0Z. intros H. destruct (cls_range R p HJ Hp H) as [Bp _].
      rewrite NAR by (unfold ren; destruct (cls R p =? i); lia). rewrite (j_area _ HJ p Hp H). unfold ren. destruct (Z.eqb_spec (cls R p) i) as [->|]; [exact MA|reflexivity].
    + intros k c' Hk K0 Hc' EB'. destruct (NCON k c' Hk K0 Hc') as (k0 & c & Bk0 & K00 & _ & Hcc & ->).
      assert (isBorder c = false) as EBc. { unfold ren in EB'. destruct (Z.eqb_spec c i) as [Q|]; [rewrite Q; apply isBorder_lo; lia|exact EB']. }
      destruct (j_conr _ HJ k0 c Bk0 K00 Hcc EBc) as [Bc Hid]. unfold ren at 1 2 3 4 5. destruct (Z.eqb_spec c i) as [->|Nc].
      * split; [lia|]. left. rewrite NID by lia. rewrite Et. unfold ren. destruct (Z.eqb_spec t i); [contradiction|reflexivity].
      * split; [exact Bc|]. rewrite NID by exact Bc. destruct Hid as [->| ->]; [left; unfold ren; destruct (Z.eqb_spec c i); [contradiction|reflexivity]|right; now apply R0Z].
    + intros k c' Hk K0 Hc' EB' C0'. destruct (NCON k c' Hk K0 Hc') as (k0 & c & Bk0 & K00 & Ek & Hcc & ->).
      assert (isBorder c = false) as EBc. { unfold ren in EB'. destruct (Z.eqb_spec c i) as [Q|]; [rewrite Q; apply isBorder_lo; lia|exact EB']. }
      destruct (j_conr _ HJ k0 c Bk0 K00 Hcc EBc) as [Bc Hid].
      assert (id R c <> 0 /\ id R' (ren i t c) = ren i t (id R c)) as [Ic Ir].
      { destruct (Z.eq_dec c i) as [Q|Nc].
        - subst c. rewrite Ei. unfold ren. rewrite Z.eqb_refl. split; [lia|]. rewrite NID by lia. rewrite Et. unfold ren. destruct (Z.eqb_spec t i); [contradiction|reflexivity].
        - assert (ren i t c = c) as Ec by (unfold ren; destruct (Z.eqb_spec c i); [contradiction|reflexivity]). rewrite Ec in C0' |- *.
          split; [|now apply NID]. rewrite NID in C0' by exact Bc. now rewrite R0Z in C0'. }
      destruct (j_con _ HJ k0 c Bk0 K00 Hcc EBc Ic) as (p & q & St & Cp & Cq). exists p, q. split; [exact St|].
      assert (0 <= p < N /\ 0 <= q < N) as [Hp Hq]. { destruct St as (x & y & d & x' & y' & Sp & _ & _ & Sq). eauto. }
      rewrite !NCL by assumption. rewrite Cp, Cq, Ir. auto.
    + intros x y p q Sp Sq Npq. rewrite !NCL by eauto. rewrite !R0Z. intros P0 Q0 Nc. destruct (cls_range R p HJ) as [Bp Ep]; [eauto|exact P0|].
      apply NFL; [lia|exact Ep|lia|]. apply (j_floor _ HJ x y p q); auto. congruence.
    + intros p q Hp Hq. rewrite !NCL by assumption. rewrite R0Z. intros E P0.
      assert (forall a b, conn chf (fun i => 0 <= i < N /\ cls R i <> 0) (cls R) a b -> conn chf (fun i0 => 0 <= i0 < N /\ cls R' i0 <> 0) (cls R') a b) as MONO.
      { intros a b. apply conn_mono.
        - intros k [X Y]. split; [exact X|]. rewrite NCL by exact X. now rewrite R0Z.
        - intros k l [X _] [Y _] Q. rewrite !NCL by assumption. now rewrite Q. }
      destruct (Z.eq_dec (cls R p) (cls R q)) as [EE|NN]; [apply MONO; now apply (j_conn _ HJ)|].
      destruct (j_con _ HJ i t) as (a & b & St & Ca & Cb); [lia|lia|exact Hc|exact EB|lia|]. rewrite Ei in Ca. rewrite Et in Cb.
      assert (0 <= a < N /\ 0 <= b < N) as [Ba Bb]. { destruct St as (x & y & d & x' & y' & Sa & _ & _ & Sb). eauto. }
      assert (conn chf (fun i0 => 0 <= i0 < N /\ cls R' i0 <> 0) (cls R') a b) as AB.
      { apply rst_step. rewrite !NCL by assumption. rewrite !R0Z, Ca, Cb. split; [lia|]. split; [lia|]. split.
        - split; [|destruct St as (x & y & d & x' & y' & Sa & Hd & HL & _); exists x, y, d, x', y'; auto].
          rewrite (j_area _ HJ a Ba), (j_area _ HJ b Bb) by lia. rewrite Ca, Cb. exact MA.
        - unfold ren. rewrite Z.eqb_refl. destruct (Z.eqb_spec t i); [contradiction|reflexivity]. }
      destruct (SPLIT p q NN E) as [[Cp Cq]|[Cp Cq]].
      * apply rst_trans with a; [apply MONO; apply (j_conn _ HJ); auto; lia|]. apply rst_trans with b; [exact AB|]. apply MONO. apply (j_conn _ HJ); auto; lia.
      * apply rst_trans with b; [apply MONO; apply (j_conn _ HJ); auto; lia|]. apply rst_trans with a; [apply rst_sym; exact AB|]. apply MONO. apply (j_conn _ HJ); auto; lia.
    + intros HA x y p q Sp Sq. rewrite !NCL by eauto. rewrite R0Z. intros E P0.
      destruct (Z.eq_dec (cls R p) (cls R q)) as [EE|NN]; [now apply (j_over _ HJ HA x y)|].
      destruct (Z.eq_dec p q) as [|Npq]; [assumption|]. exfalso. destruct (SPLIT p q NN E) as [[Cp Cq]|[Cp Cq]].
      * pose proof (j_floor _ HJ x y p q Sp Sq Npq) as Q. rewrite Cp, Cq in Q. apply M1. apply Q; lia.
      * pose proof (j_floor _ HJ x y p q Sp Sq Npq) as Q. rewrite Cp, Cq in Q. apply M2. apply Q; lia.
    + intros k Hk. rewrite NID by exact Hk. rewrite R0Z. now apply (j_zero _ HJ).
  - unfold reps. apply filter_lt with (x := i).
    + intros k Hk. apply in_zseq in Hk. rewrite NID by lia. intros H. apply andb_true_iff in H. destruct H as [H1 H2]. apply Z.eqb_eq in H2. apply andb_true_iff. split; [exact H1|].
      apply Z.eqb_eq. unfold ren in H2. destruct (Z.eqb_spec (id R k) i); congruence.
    + apply in_zseq. lia.
    + rewrite Ei, Z.eqb_refl. destruct (Z.ltb_spec 0 i); [reflexivity|lia].
    + rewrite NID by lia. rewrite Ei. unfold ren. rewrite Z.eqb_refl. destruct (Z.eqb_spec t i); [contradiction|]. apply andb_false_r.
Qed.

Lemma mergeOne_ok : forall ms R mc i, joined R -> 0 <= i < nreg -> exists R' mc', mergeOne ms nreg (R, mc) i = Ok (R', mc') /\ joined R' /\
  mc <= mc' /\ reps R' + (mc' - mc) <= reps R.
Proof.
  intros ms R mc i HJ Bi. pose proof (j_len _ HJ) as LR.
  assert (exists R' mc', Ok (R, mc) = Ok (R', mc') /\ joined R' /\ mc <= mc' /\ reps R' + (mc' - mc) <= reps R) as STAY.
  { exists R, mc. split; [reflexivity|]. split; [exact HJ|]. lia. }
  unfold mergeOne. rewrite get_rg by lia. cbn [bind]. destruct (skipID (id R i) || rOverlap (rg R i) || (rCount (rg R i) =? 0)) eqn:ES; [exact STAY|].
  apply orb_false_iff in ES. destruct ES as [ES EC]. apply orb_false_iff in ES. destruct ES as [ES _]. apply Z.eqb_neq in EC.
  assert (id R i = i) as Ei. { destruct (Z.eq_dec (id R i) i) as [|Q]; [assumption|]. now apply (j_cnt _ HJ i Bi) in Q. }
  assert (0 < i) as I0. { destruct (Z.eq_dec i 0) as [->|]; [|lia]. rewrite Ei in ES. discriminate. }
  destruct ((rCount (rg R i) >? ms) && isConnectedToBorder (rg R i)); [exact STAY|].
  destruct (bestMerge_ok R i HJ Bi Ei) as (sm & t & Eb & Ht); [lia|]. rewrite Eb. cbn [bind]. rewrite Ei.
  destruct (Z.eqb_spec t i) as [|NE]; [exact STAY|]. destruct Ht as [|(Hc & EB & Bt & Et & M1 & M2)]; [contradiction|].
  rewrite get_rg by lia. cbn [bind]. destruct (mergeRegions_ok (rg R t) (rg R i)) as [->|(a' & conns & -> & _ & _ & A1 & A2 & A3 & A4 & _ & _ & A5)]; cbn [bind]; [exact STAY|].
  rewrite set_rg by lia. cbn [bind]. rewrite set_rg by (rewrite zlen_upd; lia). cbn [bind].
  set (R2 := upd (upd R (Z.to_nat t) a') (Z.to_nat i) (withConns [] (withCount 0 (rg R i)))).
  assert (forall k, 0 <= k -> rg R2 k = if k =? i then withConns [] (withCount 0 (rg R i)) else if k =? t then a' else rg R k) as G2.
  { intros k Hk. unfold R2. rewrite rg_upd by (rewrite ?zlen_upd; lia). destruct (k =? i); [reflexivity|]. apply rg_upd; lia. }
  destruct (fixup_ok R2 i t) as (R' & E & L' & F).
  { unfold R2. now rewrite !zlen_upd. }
  { intros k Hk. rewrite G2 by lia. destruct (k =? i); [cbn [rID withConns withCount]; lia|]. destruct (k =? t); [lia|]. destruct (j_id _ HJ k Hk); lia. }
  rewrite E. cbn [bind]. exists R', (mc + 1). split; [reflexivity|].
  destruct (merge_joined R i t a' R' HJ) as [J' RP]; auto; try lia.
  - now rewrite A3.
  - intros k Hk. rewrite <- G2 by lia. now apply F.
  - split; [exact J'|]. lia.
Qed.

Theorem mergeLoop_ok : forall fuel ms R, joined R -> reps R < Z.of_nat fuel -> exists R', mergeLoop fuel ms nreg R = Ok R' /\ joined R'.
Proof.
  induction fuel as [|fuel IH]; intros ms R HJ HF; [unfold reps in HF; pose proof (zlen_nonneg (filter (fun k => (0 <? k) && (id R k =? k)) (zseq (Z.to_nat nreg)))); lia|].
  cbn [mergeLoop].
  destruct (foldM_inv (mergeOne ms nreg) (fun _ st => joined (fst st) /\ 0 <= snd st /\ reps (fst st) + snd st <= reps R) (zseq (Z.to_nat nreg)) (R, 0)) as ([R' mc] & E & J' & P & RP).
  - cbn [fst snd]. split; [exact HJ|]. lia.
  - intros pre i post [R2 mc] El (J2 & P2 & RP2). cbn [fst snd] in *. assert (0 <= i < nreg) as Bi.
    { assert (In i (zseq (Z.to_nat nreg))) as Q by (rewrite El; apply in_app_iff; right; now left). apply in_zseq in Q. lia. }
    destruct (mergeOne_ok ms R2 mc i J2 Bi) as (R3 & mc3 & E3 & J3 & L3 & RP3). exists (R3, mc3). split; [exact E3|]. cbn [fst snd]. split; [exact J3|]. lia.
  - rewrite E. cbn [bind fst snd] in *. destruct (Z.eqb_spec mc 0); [exists R'; auto|]. apply IH; [exact J'|lia].
Qed.
Lemma reps_le : forall R, reps R <= nreg.
Proof. intros R. unfold reps. eapply Z.le_trans; [apply filter_zlen_le|]. unfold zlen. rewrite zseq_length. lia. Qed.
End Join.
