(** getHeightData: the flood (C76). *)
From Coq Require Import ZArith List Bool Lia Relations.
From Verif.Base Require Import Res GoNum Grid.
From Verif.Model Require Import Heightfield Dirs Compact Erode Region HeightSearch HeightData.
From Verif.Spec Require Import HeightfieldSpec CompactSpec ErodeSpec HeightSpec.
From Verif.Proofs Require Import ErodeProofs ErodeDist.
Import ListNotations.
Open Scope Z_scope.

Section Flood.
Variable chf : CompactHeightfield.
Hypothesis wf : chf_wf chf.
Variables (bs : Z) (hp : HeightPatch).
Hypothesis PO : patch_ok chf bs hp.
Notation W := (hpWidth hp).
Notation Ht := (hpHeight hp).
Notation x0 := (hpXmin hp).
Notation y0 := (hpYmin hp).

Definition idx (x y : Z) : Z := (x - x0) + (y - y0) * W.
Lemma idx_range : forall x y, in_patch hp x y -> 0 <= idx x y < W * Ht.
Proof. intros x y [Hx Hy]. unfold idx. nia. Qed.
Lemma idx_inj : forall x y x' y', in_patch hp x y -> in_patch hp x' y' -> idx x y = idx x' y' -> x = x' /\ y = y'.
Proof.
  intros x y x' y' [Hx Hy] [Hx' Hy'] E. unfold idx in E.
  assert (y = y') by nia. split; [nia|assumption].
Qed.
Lemma inPatch_ok : forall x y, inPatch hp (x - x0) (y - y0) = true <-> in_patch hp x y.
Proof. intros x y. unfold inPatch, in_patch. rewrite negb_true_iff, !orb_false_iff, !Z.ltb_ge, !Z.leb_gt. lia. Qed.
Lemma patch_cell : forall x y, in_patch hp x y -> 0 <= x + bs < chf_w chf /\ 0 <= y + bs < chf_h chf.
Proof. intros x y [Hx Hy]. destruct PO. lia. Qed.

Lemma fillPatch_ok : forall v data, W * Ht <= zlen data -> exists d, fillPatch hp v data = Ok d /\ zlen d = zlen data /\
  (forall k, 0 <= k < W * Ht -> dv d k = v) /\ (forall k, W * Ht <= k -> dv d k = dv data k).
Proof.
  intros v data L. unfold fillPatch. pose proof (po_w _ _ _ PO). pose proof (po_h _ _ _ PO). assert (0 <= W * Ht) by nia.
  destruct (foldM_inv (fun d i => set d i v) (fun pre d => zlen d = zlen data /\ (forall k, In k pre -> dv d k = v) /\ (forall k, 0 <= k -> ~ In k pre -> dv d k = dv data k))
    (zseq (Z.to_nat (W * Ht))) data) as (d & E & L' & K1 & K2).
  - split; [reflexivity|]. split; [intros k []|reflexivity].
  - intros pre a post s Ez (Ls & S1 & S2). assert (Ra : 0 <= a < W * Ht).
    { assert (In a (zseq (Z.to_nat (W * Ht)))) as Q by (rewrite Ez; apply in_elt). apply in_zseq in Q. lia. }
    eexists. split; [apply set_in_range; lia|]. split; [now rewrite zlen_upd|]. split.
    + intros k Hk. assert (Rk : 0 <= k).
      { assert (In k (zseq (Z.to_nat (W * Ht)))) as Q by (rewrite Ez; apply in_app_iff in Hk; apply in_app_iff; destruct Hk as [Hk|[<-|[]]]; [now left|right; now left]). apply in_zseq in Q. lia. }
      rewrite dv_upd by lia. destruct (Z.eqb_spec k a); [reflexivity|]. apply S1. apply in_app_iff in Hk. destruct Hk as [Hk|[Hk|[]]]; [exact Hk|lia].
    + intros k Rk Nk. rewrite dv_upd by lia. destruct (Z.eqb_spec k a) as [->|]; [exfalso; apply Nk; apply in_app_iff; right; now left|]. apply S2; [exact Rk|]. intros Q. apply Nk. apply in_app_iff. now left.
  - exists d. split; [exact E|]. split; [exact L'|]. split.
    + intros k Hk. apply K1. apply in_zseq. lia.
    + intros k Hk. apply K2; [lia|]. intros Q. apply in_zseq in Q. lia.
Qed.

(** Cells with value [v]. *)
Definition cnt (v : Z) (d : list Z) : nat := length (filter (fun k => dv d k =? v) (zseq (Z.to_nat (W * Ht)))).
Lemma cnt_le : forall v d, (cnt v d <= Z.to_nat (W * Ht))%nat.
Proof.
  intros v d. unfold cnt. rewrite <- (zseq_length (Z.to_nat (W * Ht))) at 2. generalize (zseq (Z.to_nat (W * Ht))).
  induction l as [|a l IH]; [reflexivity|]. cbn [filter]. destruct (dv d a =? v); cbn [length]; lia.
Qed.
Lemma filter_one : forall (f g : Z -> bool) l k, NoDup l -> In k l -> f k = true -> g k = false -> (forall j, In j l -> j <> k -> f j = g j) ->
  length (filter f l) = S (length (filter g l)).
Proof.
  intros f g l k. induction l as [|a l IH]; intros ND I F G E; [destruct I|]. inversion ND as [|? ? N1 N2]; subst. cbn [filter].
  destruct (Z.eq_dec a k) as [->|Na].
  - rewrite F, G. cbn [length]. f_equal. f_equal. apply filter_ext_in. intros j Hj. apply E; [now right|congruence].
  - destruct I as [->|I]; [congruence|]. rewrite (E a (or_introl eq_refl) Na).
    assert (E' : forall j, In j l -> j <> k -> f j = g j) by (intros j Hj; apply E; now right).
    destruct (g a); cbn [length]; now rewrite IH.
Qed.
Lemma cnt_upd : forall v v' d k, 0 <= k < W * Ht -> W * Ht <= zlen d -> dv d k = v -> v' <> v -> cnt v d = S (cnt v (upd d (Z.to_nat k) v')).
Proof.
  intros v v' d k Hk L E N. unfold cnt. apply filter_one with (k := k).
  - apply NoDup_zseq.
  - apply in_zseq. lia.
  - now apply Z.eqb_eq.
  - rewrite dv_upd by lia. rewrite Z.eqb_refl. now apply Z.eqb_neq.
  - intros j Hj Nj. apply in_zseq in Hj. rewrite dv_upd by lia. destruct (Z.eqb_spec j k); [contradiction|reflexivity].
Qed.

(** ** The flood *)
Definition owner := Z -> Z -> option Z.
Definition ext (o o' : owner) : Prop := forall x y i, o x y = Some i -> o' x y = Some i.
Definition via (o : owner) (p q : Z * Z * Z) : Prop :=
  hop chf bs hp p q /\ in_patch hp (fst (fst p)) (snd (fst p)) /\ o (fst (fst p)) (snd (fst p)) = Some (snd p) /\ o (fst (fst q)) (snd (fst q)) = Some (snd q).
Definition shut (o : owner) (x y i : Z) : Prop := forall x' y' j, hop chf bs hp (x, y, i) (x', y', j) -> o x' y' <> None.

Variable seed : Z * Z * Z -> Prop.
Record finv (o : owner) (data : list Z) (pend : list (Z * Z * Z)) (ex : Z * Z * Z -> Prop) : Prop := {
  f_len : zlen data = zlen (hpData hp);
  f_rest : forall k, W * Ht <= k -> dv data k = dv (hpData hp) k;
  f_value : forall x y, in_patch hp x y -> match o x y with
    | Some i => span_at chf (x + bs) (y + bs) i /\ exists s, get (chf_spans chf) i = Ok s /\ dv data (idx x y) = csY s
    | None => dv data (idx x y) = 65535 end;
  f_seed : forall x y i, seed (x, y, i) -> in_patch hp x y /\ o x y = Some i;
  f_pend : forall x y i, In (x + bs, y + bs, i) pend -> in_patch hp x y /\ o x y = Some i;
  f_shut : forall x y i, in_patch hp x y -> o x y = Some i -> In (x + bs, y + bs, i) pend \/ shut o x y i \/ ex (x, y, i);
  f_reach : forall x y i, in_patch hp x y -> o x y = Some i -> exists p, seed p /\ clos_refl_trans _ (via o) p (x, y, i) }.

Lemma via_ext : forall o o' p q, ext o o' -> clos_refl_trans _ (via o) p q -> clos_refl_trans _ (via o') p q.
Proof.
  intros o o' p q E R. induction R as [p q (V1 & V2 & V3 & V4)| |]; [|apply rt_refl|eapply rt_trans; eauto].
  apply rt_step. split; [exact V1|]. split; [exact V2|]. split; now apply E.
Qed.
Lemma shut_ext : forall o o' x y i, ext o o' -> shut o x y i -> shut o' x y i.
Proof.
  intros o o' x y i E S x' y' j Hh. specialize (S _ _ _ Hh). destruct (o x' y') as [k|] eqn:K; [|congruence]. apply E in K. congruence.
Qed.

Definition give (o : owner) (x y i : Z) : owner := fun a b => if (a =? x) && (b =? y) then Some i else o a b.
Lemma give_eq : forall o x y i, give o x y i x y = Some i.
Proof. intros. unfold give. now rewrite !Z.eqb_refl. Qed.
Lemma give_ne : forall o x y i a b, (a, b) <> (x, y) -> give o x y i a b = o a b.
Proof. intros o x y i a b N. unfold give. destruct (Z.eqb_spec a x), (Z.eqb_spec b y); subst; cbn [andb]; congruence. Qed.

Lemma floodDir_ok : forall o data queue n ex x y i s d, (n <= length queue)%nat -> finv o data (skipn n queue) ex -> in_patch hp x y -> o x y = Some i ->
  get (chf_spans chf) i = Ok s -> (d < 4)%nat ->
  exists o' data' queue', floodDir chf bs hp (x + bs) (y + bs) (csCon s) (data, queue) (Z.of_nat d) = Ok (data', queue') /\ ext o o' /\
    (n <= length queue')%nat /\ finv o' data' (skipn n queue') ex /\ (cnt 65535 data' + length queue' = cnt 65535 data + length queue)%nat /\
    (forall x' y' j, in_patch hp x' y' -> linked chf d (x + bs) (y + bs) i (x' + bs) (y' + bs) j -> o' x' y' <> None).
Proof.
  intros o data queue n ex x y i s d Ln F P Oi Gs Hd. unfold floodDir.
  assert (SA : span_at chf (x + bs) (y + bs) i) by (pose proof (f_value _ _ _ _ F x y P) as V; rewrite Oi in V; apply V).
  destruct (Z.eqb_spec (GetCon (csCon s) (Z.of_nat d)) notConnected) as [Nc|Nc].
  - exists o, data, queue. split; [reflexivity|]. split; [intros a b k Q; exact Q|]. split; [exact Ln|]. split; [exact F|]. split; [reflexivity|].
    intros x' y' j _ (_ & s' & c & Gs' & C & _). rewrite Gs in Gs'. apply Ok_inj in Gs'. subst s'. contradiction.
  - destruct (dirs_ok d Hd) as [-> ->]. cbn [bind].
    destruct (ok_link _ wf _ _ _ d s SA Hd Gs Nc) as (X & Y & j & LK & SJ).
    destruct (LK) as (EX & s' & c & Gs' & _ & C & Ej). rewrite Gs in Gs'. apply Ok_inj in Gs'. subst s'.
    assert (HX : X = x + bs + fst (dir_step d)) by congruence. assert (HY : Y = y + bs + snd (dir_step d)) by congruence.
    replace (x + bs + fst (dir_step d) - x0 - bs) with ((X - bs) - x0) by lia.
    replace (y + bs + snd (dir_step d) - y0 - bs) with ((Y - bs) - y0) by lia.
    rewrite <- HX, <- HY.
    destruct (inPatch hp (X - bs - x0) (Y - bs - y0)) eqn:IP; cbn [negb].
    + apply inPatch_ok in IP.
      change (patchIdx hp (X - bs - x0) (Y - bs - y0)) with (idx (X - bs) (Y - bs)).
      pose proof (idx_range _ _ IP) as RI. assert (RL : 0 <= idx (X - bs) (Y - bs) < zlen data) by (rewrite (f_len _ _ _ _ F); destruct PO; lia).
      rewrite get_dv by exact RL. cbn [bind].
      pose proof (f_value _ _ _ _ F _ _ IP) as V.
      destruct (o (X - bs) (Y - bs)) as [k|] eqn:OK.
      * destruct V as (_ & sk & Gk & ->). pose proof (po_unset _ _ _ PO _ _ Gk).
        destruct (Z.eqb_spec (csY sk) unsetHeight) as [Q|_]; [unfold unsetHeight in Q; lia|]. cbn [negb].
        exists o, data, queue. split; [reflexivity|]. split; [intros a b q Q; exact Q|]. split; [exact Ln|]. split; [exact F|]. split; [reflexivity|].
        intros x' y' j' _ L'. destruct (linked_fun chf _ _ _ _ _ _ _ _ _ _ LK L') as (-> & -> & _).
        replace (x' + bs - bs) with x' in OK by lia. replace (y' + bs - bs) with y' in OK by lia. congruence.
      * rewrite V. unfold unsetHeight. cbn [Z.eqb negb]. rewrite Pos.eqb_refl. cbn [negb].
        unfold cell_at in C. unfold cidx. rewrite C. cbn [bind]. rewrite <- Ej.
        destruct (span_get chf wf _ _ _ SJ) as [sj Gj]. rewrite Gj. cbn [bind]. rewrite set_in_range by exact RL. cbn [bind].
        pose proof (po_unset _ _ _ PO _ _ Gj) as UJ.
        set (o' := give o (X - bs) (Y - bs) j).
        assert (EX' : ext o o').
        { intros a b q Q. unfold o'. destruct (Z.eq_dec a (X - bs)) as [->|]; [destruct (Z.eq_dec b (Y - bs)) as [->|]|]; [congruence| |]; rewrite give_ne by congruence; exact Q. }
        assert (HO : hop chf bs hp (x, y, i) (X - bs, Y - bs, j)).
        { split; [exact IP|]. exists d. split; [exact Hd|]. replace (X - bs + bs) with X by lia. replace (Y - bs + bs) with Y by lia. exact LK. }
        exists o', (upd data (Z.to_nat (idx (X - bs) (Y - bs))) (csY sj)), (queue ++ [(X, Y, j)]).
        split; [reflexivity|]. split; [exact EX'|]. split; [rewrite app_length; lia|]. split; [|split].
        -- rewrite skipn_app. replace (n - length queue)%nat with 0%nat by lia. cbn [skipn]. constructor.
           ++ rewrite zlen_upd. apply F.
           ++ intros k Hk. rewrite dv_upd by lia. destruct (Z.eqb_spec k (idx (X - bs) (Y - bs))); [lia|]. now apply (f_rest _ _ _ _ F).
           ++ intros a b Pa. unfold o'. destruct (Z.eq_dec a (X - bs)) as [Ea|Ea]; [destruct (Z.eq_dec b (Y - bs)) as [Eb|Eb]|].
              ** subst a b. rewrite give_eq. replace (X - bs + bs) with X by lia. replace (Y - bs + bs) with Y by lia. split; [exact SJ|]. exists sj. split; [exact Gj|].
                 rewrite dv_upd by lia. now rewrite Z.eqb_refl.
              ** rewrite give_ne by congruence. rewrite dv_upd by (try lia; pose proof (idx_range _ _ Pa); lia).
                 destruct (Z.eqb_spec (idx a b) (idx (X - bs) (Y - bs))) as [Q|_]; [apply idx_inj in Q; [lia|assumption|assumption]|]. now apply (f_value _ _ _ _ F).
              ** rewrite give_ne by congruence. rewrite dv_upd by (try lia; pose proof (idx_range _ _ Pa); lia).
                 destruct (Z.eqb_spec (idx a b) (idx (X - bs) (Y - bs))) as [Q|_]; [apply idx_inj in Q; [lia|assumption|assumption]|]. now apply (f_value _ _ _ _ F).
           ++ intros a b q Q. apply (f_seed _ _ _ _ F) in Q. destruct Q as [Q1 Q2]. split; [exact Q1|]. now apply EX'.
           ++ intros a b q Q. apply in_app_iff in Q. destruct Q as [Q|[Q|[]]].
              ** apply (f_pend _ _ _ _ F) in Q. destruct Q as [Q1 Q2]. split; [exact Q1|]. now apply EX'.
              ** assert (a = X - bs) by (assert (X = a + bs) by congruence; lia). assert (b = Y - bs) by (assert (Y = b + bs) by congruence; lia). assert (q = j) by congruence. subst a b q.
                 split; [exact IP|]. apply give_eq.
           ++ intros a b q Pa Oa. unfold o' in Oa. destruct (Z.eq_dec a (X - bs)) as [Ea|Ea]; [destruct (Z.eq_dec b (Y - bs)) as [Eb|Eb]|].
              ** subst a b. rewrite give_eq in Oa. assert (q = j) by congruence. subst q. left. apply in_app_iff. right. left. f_equal; f_equal; lia.
              ** rewrite give_ne in Oa by congruence. destruct (f_shut _ _ _ _ F _ _ _ Pa Oa) as [Q|[Q|Q]]; [left; apply in_app_iff; now left|right; left; now apply (shut_ext o)|right; right; exact Q].
              ** rewrite give_ne in Oa by congruence. destruct (f_shut _ _ _ _ F _ _ _ Pa Oa) as [Q|[Q|Q]]; [left; apply in_app_iff; now left|right; left; now apply (shut_ext o)|right; right; exact Q].
           ++ intros a b q Pa Oa. unfold o' in Oa. destruct (Z.eq_dec a (X - bs)) as [Ea|Ea]; [destruct (Z.eq_dec b (Y - bs)) as [Eb|Eb]|].
              ** subst a b. rewrite give_eq in Oa. assert (q = j) by congruence. subst q. destruct (f_reach _ _ _ _ F _ _ _ P Oi) as (p & Sp & Rp).
                 exists p. split; [exact Sp|]. eapply rt_trans; [apply (via_ext o o' _ _ EX' Rp)|]. apply rt_step. split; [exact HO|]. cbn [fst snd]. split; [exact P|]. split; [now apply EX'|apply give_eq].
              ** rewrite give_ne in Oa by congruence. destruct (f_reach _ _ _ _ F _ _ _ Pa Oa) as (p & Sp & Rp). exists p. split; [exact Sp|]. now apply (via_ext o o').
              ** rewrite give_ne in Oa by congruence. destruct (f_reach _ _ _ _ F _ _ _ Pa Oa) as (p & Sp & Rp). exists p. split; [exact Sp|]. now apply (via_ext o o').
        -- rewrite (cnt_upd 65535 (csY sj) data (idx (X - bs) (Y - bs))); [rewrite app_length; cbn [length]; lia|exact RI| |exact V|lia].
           rewrite (f_len _ _ _ _ F). destruct PO; lia.
        -- intros x' y' j' _ L'. destruct (linked_fun chf _ _ _ _ _ _ _ _ _ _ LK L') as (-> & -> & _).
           unfold o'. replace (x' + bs - bs) with x' by lia. replace (y' + bs - bs) with y' by lia. rewrite give_eq. discriminate.
    + exists o, data, queue. split; [reflexivity|]. split; [intros a b q Q; exact Q|]. split; [exact Ln|]. split; [exact F|]. split; [reflexivity|].
      intros x' y' j' P' L'. destruct (linked_fun chf _ _ _ _ _ _ _ _ _ _ LK L') as (-> & -> & _). exfalso.
      replace (x' + bs - bs) with x' in IP by lia. replace (y' + bs - bs) with y' in IP by lia. apply inPatch_ok in P'. congruence.
Qed.

Lemma floodDirs_ok : forall x y i s, get (chf_spans chf) i = Ok s -> in_patch hp x y -> forall ds o data queue n ex, (n <= length queue)%nat -> finv o data (skipn n queue) ex -> o x y = Some i ->
  (forall d, In d ds -> (d < 4)%nat) ->
  exists o' data' queue', foldM (floodDir chf bs hp (x + bs) (y + bs) (csCon s)) (map Z.of_nat ds) (data, queue) = Ok (data', queue') /\ ext o o' /\
    (n <= length queue')%nat /\ finv o' data' (skipn n queue') ex /\ (cnt 65535 data' + length queue' = cnt 65535 data + length queue)%nat /\
    (forall d x' y' j, In d ds -> in_patch hp x' y' -> linked chf d (x + bs) (y + bs) i (x' + bs) (y' + bs) j -> o' x' y' <> None).
Proof.
  intros x y i s Gs P ds. induction ds as [|d ds IH]; intros o data queue n ex Ln F Oi Hd.
  - exists o, data, queue. split; [reflexivity|]. split; [intros a b q Q; exact Q|]. split; [exact Ln|]. split; [exact F|]. split; [reflexivity|]. intros d x' y' j [].
  - destruct (floodDir_ok o data queue n ex x y i s d Ln F P Oi Gs (Hd d (or_introl eq_refl))) as (o1 & d1 & q1 & E1 & X1 & L1 & F1 & C1 & S1).
    destruct (IH o1 d1 q1 n ex L1 F1 (X1 _ _ _ Oi)) as (o2 & d2 & q2 & E2 & X2 & L2 & F2 & C2 & S2); [intros; apply Hd; now right|].
    exists o2, d2, q2. cbn [map foldM]. rewrite E1. cbn [bind]. split; [exact E2|]. split; [intros a b q Q; now apply X2, X1|]. split; [exact L2|]. split; [exact F2|]. split; [lia|].
    intros d' x' y' j [<-|I] P' L'; [|now apply (S2 d' _ _ j)]. specialize (S1 _ _ _ P' L'). destruct (o1 x' y') as [k|] eqn:K; [|congruence]. apply X2 in K. congruence.
Qed.

Lemma finv_weak : forall o data pend (ex ex' : Z * Z * Z -> Prop), (forall x y i, ex (x, y, i) -> in_patch hp x y -> o x y = Some i -> In (x + bs, y + bs, i) pend \/ shut o x y i \/ ex' (x, y, i)) ->
  finv o data pend ex -> finv o data pend ex'.
Proof.
  intros o data pend ex ex' E F. destruct F as [F1 F2 F3 F4 F5 F6 F7]. constructor; try assumption. intros x y i P O. destruct (F6 _ _ _ P O) as [Q|[Q|Q]]; [now left|right; now left|now apply E].
Qed.

Lemma floodLoop_ok : forall fuel o data queue head, 0 <= head < 256 -> (Z.to_nat head <= length queue)%nat ->
  finv o data (skipn (Z.to_nat head) queue) (fun _ => False) -> (length queue - Z.to_nat head + cnt 65535 data < fuel)%nat ->
  exists o' data', floodLoop fuel chf bs hp data queue head = Ok data' /\ ext o o' /\ finv o' data' [] (fun _ => False).
Proof.
  induction fuel as [|fuel IH]; intros o data queue head Hh Lh F M; [lia|]. cbn [floodLoop].
  destruct (Z.ltb_spec head (zlen queue)) as [L|L].
  - destruct (get_in_range queue head) as [[[X Y] i] G]; [lia|]. rewrite G. cbn [bind]. apply get_ok in G as [_ G].
    assert (Sk : skipn (Z.to_nat head) queue = (X, Y, i) :: skipn (S (Z.to_nat head)) queue).
    { clear -G. revert G. generalize (Z.to_nat head) as n. induction queue as [|a q IH]; intros n G; [destruct n; discriminate|]. destruct n as [|n]; [cbn in *; congruence|]. cbn [skipn]. apply IH. exact G. }
    assert (Q0 : exists q1 n1, (if head + 1 >=? RETRACT_SIZE then (skipn (Z.to_nat RETRACT_SIZE) queue, 0) else (queue, head + 1)) = (q1, n1) /\ 0 <= n1 < 256 /\
      (Z.to_nat n1 <= length q1)%nat /\ skipn (Z.to_nat n1) q1 = skipn (S (Z.to_nat head)) queue).
    { unfold RETRACT_SIZE. destruct (Z.geb_spec (head + 1) 256).
      - eexists _, 0. split; [reflexivity|]. split; [lia|]. split; [cbn; lia|]. replace (S (Z.to_nat head)) with (Z.to_nat 256) by lia. reflexivity.
      - eexists _, _. split; [reflexivity|]. split; [lia|]. unfold zlen in L. split; [lia|]. f_equal. lia. }
    destruct Q0 as (q1 & n1 & -> & Hn1 & Ln1 & Sk1).
    set (x := X - bs). set (y := Y - bs). assert (EX : X = x + bs) by (unfold x; lia). assert (EY : Y = y + bs) by (unfold y; lia).
    assert (PI : in_patch hp x y /\ o x y = Some i) by (apply (f_pend _ _ _ _ F); rewrite Sk; left; congruence). destruct PI as [P Oi].
    pose proof (f_value _ _ _ _ F x y P) as V. rewrite Oi in V. destruct V as (SA & s & Gs & _). rewrite Gs. cbn [bind].
    assert (F1 : finv o data (skipn (Z.to_nat n1) q1) (eq (x, y, i))).
    { rewrite Sk1. destruct F as [F1 F2 F3 F4 F5 F6 F7]. constructor; try assumption.
      - intros a b k Q. apply F5. rewrite Sk. now right.
      - intros a b k Pa Oa. destruct (F6 _ _ _ Pa Oa) as [Q|[Q|[]]]; [|right; now left]. rewrite Sk in Q. destruct Q as [Q|Q]; [|now left]. right. right.
        assert (a = x) by (assert (X = a + bs) by congruence; lia). assert (b = y) by (assert (Y = b + bs) by congruence; lia). congruence. }
    rewrite EX, EY.
    destruct (floodDirs_ok x y i s Gs P [0; 1; 2; 3]%nat o data q1 (Z.to_nat n1) _ Ln1 F1 Oi) as (o2 & d2 & q2 & E2 & X2 & L2 & F2 & C2 & S2).
    { cbn. intros d Q. repeat (destruct Q as [<-|Q]; [lia|]). destruct Q. }
    change (map Z.of_nat [0; 1; 2; 3]%nat) with [0; 1; 2; 3] in E2. rewrite E2. cbn [bind].
    destruct (IH o2 d2 q2 n1 Hn1 L2) as (o3 & d3 & E3 & X3 & F3).
    + eapply finv_weak; [|exact F2]. intros a b k Ek Pa Oa. assert (a = x) by congruence. assert (b = y) by congruence. assert (k = i) by congruence. subst a b k.
      right. left. intros x' y' j (P' & d & Hd & L'). apply (S2 d _ _ j); [|exact P'|exact L']. cbn. lia.
    + assert (length q1 - Z.to_nat n1 = length queue - S (Z.to_nat head))%nat by (rewrite <- !skipn_length, Sk1; reflexivity). unfold zlen in L. lia.
    + exists o3, d3. split; [exact E3|]. split; [|exact F3]. intros a b k Q. now apply X3, X2.
  - exists o, data. split; [reflexivity|]. split; [intros a b k Q; exact Q|]. rewrite skipn_all2 in F by (unfold zlen in L; lia). exact F.
Qed.

Lemma finv_heights : forall o data, finv o data [] (fun _ => False) -> heights chf bs hp seed o data.
Proof.
  intros o data [F1 F2 F3 F4 F5 F6 F7]. constructor.
  - intros x y P. exact (F3 x y P).
  - exact F4.
  - intros x y i x' y' j P O Hh. destruct (F6 x y i P O) as [[]|[S|[]]]. now apply (S x' y' j).
  - exact F7.
  - exact F1.
  - exact F2.
Qed.
End Flood.
