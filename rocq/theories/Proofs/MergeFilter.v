(** Removing small groups of regions (C49). *)
From Coq Require Import ZArith List Bool Lia Relations.
From Verif.Base Require Import Res GoNum Grid.
From Verif.Model Require Import Heightfield Dirs Compact Erode Region RegionMerge.
From Verif.Spec Require Import HeightfieldSpec CompactSpec ErodeSpec RegionSpec.
From Verif.Proofs Require Import ErodeProofs ErodeDist RegionBase RegionRow MergeBase MergeCollect.
Import ListNotations.
Open Scope Z_scope.

(** The number of regions that are not visited. *)
Definition unv (R : list Rgn) : Z := zlen (filter (fun r => negb (rVisited r)) R).
Lemma unv_upd_nat : forall R c r, (c < length R)%nat -> rVisited (nth c R r0) = false -> rVisited r = true -> unv (upd R c r) + 1 = unv R.
Proof.
  unfold unv. induction R as [|a R IH]; intros [|c] r Hc Hv Hr; cbn [length nth] in *; try lia; cbn [upd filter].
  - rewrite Hv, Hr. cbn [negb]. rewrite zlen_cons. lia.
  - destruct (negb (rVisited a)); rewrite ?zlen_cons; rewrite <- (IH c r) by (lia || assumption); lia.
Qed.
Lemma unv_upd : forall R c r, 0 <= c < zlen R -> rVisited (rg R c) = false -> rVisited r = true -> unv (upd R (Z.to_nat c) r) + 1 = unv R.
Proof. intros R c r Hc. apply unv_upd_nat. unfold zlen in Hc. lia. Qed.

Lemma NoDup_flat : forall {A B} (f : A -> list B) l, NoDup l -> (forall a, In a l -> NoDup (f a)) ->
  (forall a b x, In a l -> In b l -> In x (f a) -> In x (f b) -> a = b) -> NoDup (flat_map f l).
Proof.
  intros A B f l ND. induction ND as [|a l NI ND IH]; intros H1 H2; cbn [flat_map]; [constructor|]. apply NoDup_app_intro.
  - apply H1. now left.
  - apply IH; [intros; apply H1; now right|]. intros b c x Hb Hc. apply H2; now right.
  - intros x Hx Hy. apply in_flat_map in Hy. destruct Hy as (b & Hb & Hy). apply NI. replace a with b; [exact Hb|].
    apply (H2 b a x); [now right|now left|exact Hy|exact Hx].
Qed.
Lemma flat_in_le : forall {A B} (f : A -> list B) l a, In a l -> zlen (f a) <= zlen (flat_map f l).
Proof.
  intros A B f l a. induction l as [|b l IH]; intros []; cbn [flat_map]; rewrite zlen_app.
  - subst. pose proof (zlen_nonneg (flat_map f l)). lia.
  - specialize (IH H). pose proof (zlen_nonneg (f b)). lia.
Qed.

Lemma skipID_false : forall k, 0 < k < 32768 -> skipID k = false.
Proof. intros k H. unfold skipID. rewrite isBorder_lo by lia. rewrite orb_false_r. apply Z.eqb_neq. lia. Qed.

Lemma NoDup_map_filter : forall {A B} (f : A -> B) g l, NoDup (map f l) -> NoDup (map f (filter g l)).
Proof.
  intros A B f g l H. induction l as [|a l IH]; cbn [map filter] in *; [constructor|]. inversion H; subst. destruct (g a); [|now apply IH].
  cbn [map]. constructor; [|now apply IH]. intros Q. apply H2. apply in_map_iff in Q. destruct Q as (b & E & Q). apply filter_In in Q. apply in_map_iff. exists b. tauto.
Qed.

Section Filter.
Variable chf : CompactHeightfield.
Hypothesis wf : chf_wf chf.
Hypothesis small : chf_spanCount chf < 2 ^ 31.
Variable src : list Z.
Variable nreg : Z.
Notation w := (chf_w chf).
Notation h := (chf_h chf).
Notation N := (chf_spanCount chf).
Notation s i := (dv src i).
Notation O := (order chf (cells w h)).
Hypothesis Hn : 1 <= nreg <= 32768.
Variable R0 : list Rgn.
Hypothesis L0 : zlen R0 = nreg.
Hypothesis ID0 : forall k, 0 <= k < nreg -> rID (rg R0 k) = k /\ rVisited (rg R0 k) = false.
Hypothesis CNT0 : forall k, 0 < k < nreg -> rCount (rg R0 k) = cnt src k O.
Hypothesis CON0 : forall k c, 0 <= k < nreg -> In c (rConns (rg R0 k)) -> 0 <= c < nreg \/ 32768 <= c < 65536.
Variable minArea : Z.

Definition spansOf (k : Z) : list Z := map snd (filter (fun t : triple => s (snd t) =? k) O).
Lemma spansOf_in : forall k p, In p (spansOf k) <-> s p = k /\ In p (map snd O).
Proof.
  intros k p. unfold spansOf. rewrite !in_map_iff. split.
  - intros (t & E & H). apply filter_In in H. destruct H as [H1 H2]. apply Z.eqb_eq in H2. subst p. split; [exact H2|]. exists t. auto.
  - intros (E & t & E2 & H). exists t. split; [exact E2|]. apply filter_In. split; [exact H|]. apply Z.eqb_eq. congruence.
Qed.
Lemma spansOf_len : forall k, zlen (spansOf k) = cnt src k O.
Proof. intros k. unfold spansOf, cnt, zlen. now rewrite map_length. Qed.
Lemma spans_NoDup : forall l, NoDup l -> NoDup (flat_map spansOf l).
Proof using wf Hn.
  intros l H. apply NoDup_flat; [exact H| |].
  - intros k _. apply NoDup_map_filter. apply O_nodup; assumption.
  - intros a b x _ _ Ha Hb. apply spansOf_in in Ha, Hb. destruct Ha, Hb. congruence.
Qed.
Lemma spans_le : forall l, NoDup l -> 0 <= zlen (flat_map spansOf l) <= N.
Proof.
  intros l H. split; [apply zlen_nonneg|]. apply nodup_zlen; [now apply spans_NoDup| |now apply N_nonneg].
  intros i Hi. apply in_flat_map in Hi. destruct Hi as (k & _ & Hi). apply spansOf_in in Hi. destruct Hi as [_ Hi].
  apply in_map_iff in Hi. destruct Hi as ([[x y] j] & <- & Hi). apply (in_O chf nreg Hn) in Hi. cbn [snd]. eapply ok_at; eauto.
Qed.

(** Equal up to Visited. *)
Definition sameV (a b : Rgn) : Prop := rCount a = rCount b /\ rID a = rID b /\ rArea a = rArea b /\ rOverlap a = rOverlap b /\ rConns a = rConns b /\ rFloors a = rFloors b.
Lemma sameV_trans : forall a b c, sameV a b -> sameV b c -> sameV a c.
Proof. intros a b c (A1&A2&A3&A4&A5&A6) (B1&B2&B3&B4&B5&B6). unfold sameV. intuition congruence. Qed.

(** The state of the filter. *)
Record filt (R : list Rgn) : Prop := {
  f_len : zlen R = nreg;
  f_id : forall k, 0 <= k < nreg -> (rID (rg R k) = k /\ rCount (rg R k) = rCount (rg R0 k)) \/
     (rID (rg R k) = 0 /\ rCount (rg R k) = 0 /\ 0 < k /\ cnt src k O < minArea);
  f_same : forall k, 0 <= k < nreg -> rArea (rg R k) = rArea (rg R0 k) /\ rOverlap (rg R k) = rOverlap (rg R0 k) /\
     rConns (rg R k) = rConns (rg R0 k) /\ rFloors (rg R k) = rFloors (rg R0 k) }.
Lemma filt_same : forall R R', filt R -> zlen R' = nreg -> (forall k, 0 <= k < nreg -> sameV (rg R' k) (rg R k)) -> filt R'.
Proof.
  intros R R' [F1 F2 F3] L H. split; [exact L| |].
  - intros k Hk. destruct (H k Hk) as (A1&A2&A3&A4&A5&A6). rewrite A1, A2. now apply F2.
  - intros k Hk. destruct (H k Hk) as (A1&A2&A3&A4&A5&A6). rewrite A3, A4, A5, A6. now apply F3.
Qed.

Section Flood.
Variable Rb : list Rgn.
Hypothesis Fb : filt Rb.
Variable P : Z -> Prop.
Hypothesis HP : forall k c, P k -> 0 <= k < nreg -> In c (rConns (rg R0 k)) -> isBorder c = false -> c <> 0 -> P c.

Record flooding (m : Z) (R : list Rgn) (trace stack : list Z) : Prop := {
  fl_len : zlen R = nreg;
  fl_same : forall k, 0 <= k < nreg -> sameV (rg R k) (rg Rb k);
  fl_nd : NoDup (trace ++ stack);
  fl_in : forall k, In k (trace ++ stack) -> 0 < k < nreg /\ rID (rg Rb k) = k /\ rVisited (rg R k) = true /\ P k;
  fl_vis : forall k, 0 <= k < nreg -> rVisited (rg R k) = true -> rVisited (rg Rb k) = true \/ In k (trace ++ stack);
  fl_m : unv R + zlen stack <= m }.

Lemma floodConn_ok : forall m ri trace cs R stack border, flooding m R trace stack -> P ri -> 0 <= ri < nreg -> incl cs (rConns (rg R0 ri)) ->
  exists R' stack' border', foldM floodConn cs (R, stack, border) = Ok (R', stack', border') /\ flooding m R' trace stack' /\
    incl stack stack' /\ (border' = true -> border = true \/ exists c, In c cs /\ isBorder c = true).
Proof.
  intros m ri trace cs. induction cs as [|c cs IH]; intros R stack border HF Pr Br HI; cbn [foldM].
  { exists R, stack, border. split; [reflexivity|]. split; [exact HF|]. split; [apply incl_refl|]. auto. }
  assert (In c (rConns (rg R0 ri))) as Hc by (apply HI; now left). assert (incl cs (rConns (rg R0 ri))) as HI' by (intros v Hv; apply HI; now right).
  unfold floodConn at 1. destruct (isBorder c) eqn:EB.
  { cbn [bind]. destruct (IH R stack true HF Pr Br HI') as (R' & stack' & b' & E & F' & I' & B'). exists R', stack', b'. split; [exact E|]. split; [exact F'|]. split; [exact I'|].
    intros _. right. exists c. split; [now left|exact EB]. }
  assert (0 <= c < nreg) as Bc. { destruct (CON0 ri c Br Hc) as [|Hb]; [assumption|]. rewrite isBorder_hi in EB by exact Hb. discriminate. }
  pose proof HF as [F1 F2 F3 F4 F5 F6]. rewrite get_rg by lia. cbn [bind].
  assert (forall R2 stack2, flooding m R2 trace stack2 -> incl stack stack2 -> exists R' stack' border', foldM floodConn cs (R2, stack2, border) = Ok (R', stack', border') /\ flooding m R' trace stack' /\
    incl stack stack' /\ (border' = true -> border = true \/ exists c0, In c0 (c :: cs) /\ isBorder c0 = true)) as GO.
  { intros R2 stack2 HF2 I2. destruct (IH R2 stack2 border HF2 Pr Br HI') as (R' & stack' & b' & E & F' & I' & B'). exists R', stack', b'. split; [exact E|]. split; [exact F'|].
    split; [eapply incl_tran; eassumption|]. intros HB. destruct (B' HB) as [|(c0 & X & Y)]; [now left|]. right. exists c0. split; [now right|exact Y]. }
  destruct (rVisited (rg R c)) eqn:EV; [cbn [bind]; now apply GO|]. destruct (skipID (rID (rg R c))) eqn:ES; [cbn [bind]; now apply GO|].
  rewrite set_rg by lia. cbn [bind]. destruct (F2 c Bc) as (S1 & S2 & S3 & S4 & S5 & S6).
  assert (rID (rg Rb c) = c) as EI. { destruct (f_id _ Fb c Bc) as [[X _]|[X _]]; [exact X|]. rewrite S2, X in ES. discriminate. }
  assert (c <> 0) as C0. { intros ->. rewrite S2, EI in ES. discriminate. }
  rewrite S2, EI. apply GO; [|intros v Hv; now right]. assert (~ In c (trace ++ stack)) as NI. { intros Q. destruct (F4 c Q) as (_ & _ & X & _). congruence. }
  split.
  - now rewrite zlen_upd.
  - intros k Hk. rewrite rg_upd by lia. destruct (Z.eqb_spec k c) as [->|]; [|now apply F2]. apply sameV_trans with (rg R c); [repeat split|now apply F2].
  - apply NoDup_Add with (a := c) (l := trace ++ stack); [apply Add_app|]. split; [exact F3|exact NI].
  - intros k Hk. assert (k = c \/ In k (trace ++ stack)) as Hk'. { apply in_app_iff in Hk. rewrite in_app_iff. cbn [In] in Hk. intuition. }
    rewrite rg_upd; [|lia|destruct Hk' as [->|Hk']; [lia|apply F4 in Hk'; lia]].
    destruct (Z.eqb_spec k c) as [->|NE].
    + split; [lia|]. split; [exact EI|]. split; [reflexivity|]. now apply (HP ri c).
    + destruct Hk' as [|Hk']; [contradiction|]. now apply F4.
  - intros k Hk. rewrite rg_upd by lia. destruct (Z.eqb_spec k c) as [->|].
    + intros _. right. apply in_app_iff. right. now left.
    + intros Hk'. destruct (F5 k Hk Hk') as [|Q]; [now left|right]. apply in_app_iff in Q. apply in_app_iff. cbn [In]. intuition.
  - rewrite zlen_cons. pose proof (unv_upd R c (withVisited true (rg R c))) as U. cbn [withVisited rVisited] in U. specialize (U ltac:(lia) EV eq_refl). lia.
Qed.

Lemma flood_ok : forall fuel R stack trace border, flooding (Z.of_nat fuel) R trace stack ->
  exists R' trace' border', flood fuel R stack trace (zlen (flat_map spansOf trace)) border = Ok (R', trace', zlen (flat_map spansOf trace'), border') /\
    (exists m, flooding m R' trace' []) /\ incl (trace ++ stack) trace' /\
    (border' = true -> border = true \/ exists k c, In k trace' /\ In c (rConns (rg R0 k)) /\ isBorder c = true).
Proof.
  induction fuel as [|fuel IH]; intros R stack trace border HF.
  - destruct stack as [|ri stack].
    + cbn [flood]. exists R, trace, border. split; [reflexivity|]. split; [eauto|]. split; [rewrite app_nil_r; apply incl_refl|]. auto.
    + exfalso. pose proof (fl_m _ _ _ _ HF) as M. rewrite zlen_cons in M. pose proof (zlen_nonneg stack). unfold unv in M.
      pose proof (zlen_nonneg (filter (fun r => negb (rVisited r)) R)). lia.
  - destruct stack as [|ri stack].
    { cbn [flood]. exists R, trace, border. split; [reflexivity|]. split; [eauto|]. split; [rewrite app_nil_r; apply incl_refl|]. auto. }
    cbn [flood]. pose proof HF as [F1 F2 F3 F4 F5 F6]. destruct (F4 ri) as (Bi & EI & EV & Pi); [apply in_app_iff; right; now left|].
    rewrite get_rg by lia. cbn [bind]. destruct (F2 ri) as (S1 & S2 & S3 & S4 & S5 & S6); [lia|]. destruct (f_same _ Fb ri) as (_ & _ & SC & _); [lia|].
    assert (flooding (Z.of_nat fuel) R (trace ++ [ri]) stack) as HF'.
    { split; auto; rewrite <- ?app_assoc; cbn [app]; auto. rewrite zlen_cons in F6. lia. }
    destruct (floodConn_ok (Z.of_nat fuel) ri (trace ++ [ri]) (rConns (rg R ri)) R stack border HF' Pi) as (R1 & stack1 & b1 & E1 & HF1 & I1 & HB1); [lia|rewrite S5, SC; apply incl_refl|].
    rewrite E1. cbn [bind].
    assert (rCount (rg R ri) = zlen (spansOf ri)) as EC.
    { rewrite S1, spansOf_len. rewrite <- CNT0 by exact Bi. destruct (f_id _ Fb ri) as [[_ X]|[X _]]; [lia|exact X|]. exfalso. lia. }
    assert (zlen (flat_map spansOf trace) + zlen (spansOf ri) = zlen (flat_map spansOf (trace ++ [ri]))) as ES.
    { rewrite flat_map_app, zlen_app. cbn [flat_map]. rewrite app_nil_r. reflexivity. }
    assert (NoDup (trace ++ [ri])) as ND. { pose proof (fl_nd _ _ _ _ HF') as Q. clear -Q. revert Q. generalize (trace ++ [ri]). induction l as [|a l IHl]; intros Q; [constructor|].
      cbn [app] in Q. inversion Q; subst. constructor; [|now apply IHl]. intros X. apply H1. apply in_app_iff. now left. }
    rewrite EC, ES. rewrite i32_id. 2:{ pose proof (spans_le _ ND). unfold is_i32. change (2 ^ 31) with 2147483648 in small. lia. }
    destruct (IH R1 stack1 (trace ++ [ri]) b1 HF1) as (R' & trace' & b' & E & HM & HI & HB). exists R', trace', b'. split; [exact E|]. split; [exact HM|]. split.
    + intros v Hv. apply HI. apply in_app_iff in Hv. rewrite !in_app_iff. cbn [In] in *. destruct Hv as [Hv|[->|Hv]]; auto.
    + intros Q. destruct (HB Q) as [Q1|Q1]; [|now right]. destruct (HB1 Q1) as [|(c & X & Y)]; [now left|]. right. exists ri, c. split.
      * apply HI. rewrite !in_app_iff. cbn [In]. auto.
      * split; [rewrite <- SC, <- S5; exact X|exact Y].
Qed.
End Flood.

(** A group of regions: no connections out of it or into it, and too few spans. *)
Variable G : Z -> bool.
Definition group : Prop :=
  (forall k c, 0 <= k < nreg -> G k = true -> In c (rConns (rg R0 k)) -> isBorder c = false /\ (c <> 0 -> G c = true)) /\
  (forall k c, 0 <= k < nreg -> G k = false -> In c (rConns (rg R0 k)) -> isBorder c = false -> c <> 0 -> G c = false) /\
  (forall l, NoDup l -> (forall k, In k l -> G k = true) -> zlen (flat_map spansOf l) < minArea).
Definition removed (pre : list Z) (R : list Rgn) : Prop := group -> forall k, 0 < k < nreg -> G k = true -> 0 < cnt src k O ->
  (rVisited (rg R k) = true -> rID (rg R k) = 0) /\ (In k pre -> rID (rg R k) = 0).

Lemma filterOne_ok : forall pre i R, 0 <= i < nreg -> filt R -> removed pre R ->
  exists R', filterOne minArea nreg R i = Ok R' /\ filt R' /\ removed (pre ++ [i]) R'.
Proof.
  intros pre i R Bi HF HR. unfold filterOne. pose proof (f_len _ HF) as LR. rewrite get_rg by lia. cbn [bind].
  destruct (skipID (rID (rg R i)) || (rCount (rg R i) =? 0) || rVisited (rg R i)) eqn:ESK.
  { exists R. split; [reflexivity|]. split; [exact HF|]. intros HG k Hk Gk Ck. destruct (HR HG k Hk Gk Ck) as [H1 H2]. split; [exact H1|]. intros Q. apply in_app_iff in Q.
    destruct Q as [Q|[->|[]]]; [now apply H2|]. destruct (f_id _ HF k Bi) as [[X Y]|[X _]]; [|exact X]. rewrite X, Y, CNT0 in ESK by exact Hk.
    rewrite skipID_false in ESK by lia. destruct (Z.eqb_spec (cnt src k O) 0); [lia|]. cbn [orb] in ESK. now apply H1. }
  apply orb_false_iff in ESK. destruct ESK as [ESK EV]. apply orb_false_iff in ESK. destruct ESK as [ESK EC]. apply Z.eqb_neq in EC.
  assert (rID (rg R i) = i) as EI. { destruct (f_id _ HF i Bi) as [[X _]|[X _]]; [exact X|]. rewrite X in ESK. discriminate. }
  assert (0 < i) as I0. { destruct (Z.eq_dec i 0) as [->|]; [|lia]. rewrite EI in ESK. discriminate. }
  rewrite set_rg by lia. cbn [bind]. set (Rb := upd R (Z.to_nat i) (withVisited true (rg R i))).
  assert (zlen Rb = nreg) as Lb by (unfold Rb; now rewrite zlen_upd).
  assert (forall k, 0 <= k < nreg -> sameV (rg Rb k) (rg R k)) as Sb. { intros k Hk. unfold Rb. rewrite rg_upd by lia. destruct (Z.eqb_spec k i) as [->|]; repeat split. }
  assert (filt Rb) as Fb by (eapply filt_same; eassumption).
  assert (forall k, 0 <= k < nreg -> rVisited (rg Rb k) = true -> rVisited (rg R k) = true \/ k = i) as Vb.
  { intros k Hk. unfold Rb. rewrite rg_upd by lia. destruct (Z.eqb_spec k i); auto. }
  (* the flood, for any closed set of regions *)
  set (P := fun k => group -> G k = G i).
  assert (forall k c, P k -> 0 <= k < nreg -> In c (rConns (rg R0 k)) -> isBorder c = false -> c <> 0 -> P c) as HP.
  { intros k c Pk Bk Hc Nc C0 HG. pose proof (Pk HG) as Ek. destruct HG as (G1 & G2 & _). destruct (G i) eqn:Gi.
    - now apply (G1 k c Bk Ek Hc).
    - now apply (G2 k c Bk Ek Hc). }
  destruct (flood_ok Rb Fb P HP (S (Z.to_nat nreg)) Rb [i] [] false) as (R' & trace & border & EF & (m & FL) & HI & HB).
  { split.
    - exact Lb.
    - intros; repeat split.
    - constructor; [intros []|constructor].
    - intros k [<-|[]]. split; [lia|]. split; [destruct (Sb i Bi) as (_ & -> & _); exact EI|]. split; [unfold Rb; rewrite rg_upd by lia; now rewrite Z.eqb_refl|]. intros _. reflexivity.
    - auto.
    - pose proof (unv_upd R i (withVisited true (rg R i))) as U. cbn [withVisited rVisited] in U. specialize (U ltac:(lia) EV eq_refl). fold Rb in U.
      pose proof (filter_zlen_le (fun r => negb (rVisited r)) R) as Q. fold (unv R) in Q. change (zlen [i]) with 1. lia. }
  change (zlen (flat_map spansOf [])) with 0 in EF. unfold Rb in EF at 1. fold Rb in EF. rewrite EF. cbn [bind]. clear EF.
  pose proof FL as [F1 F2 F3 F4 F5 F6]. rewrite app_nil_r in *.
  assert (filt R') as FR' by (eapply filt_same; [exact Fb|exact F1|exact F2]).
  assert (In i trace) as Ti by (apply HI; now left).
  destruct ((zlen (flat_map spansOf trace) <? minArea) && negb border) eqn:EX.
  - apply andb_true_iff in EX. destruct EX as [EX _]. apply Z.ltb_lt in EX.
    destruct (loop_each (fun regions j => update regions j (fun r => withID 0 (withCount 0 r))) (fun _ a b => b = withID 0 (withCount 0 a)) nreg trace R' F3) as (R'' & E & L'' & H1 & H2).
    { intros j Hj. apply F4 in Hj. lia. }
    { exact F1. }
    { intros R1 j Hj L1. apply F4 in Hj. rewrite update_rg by lia. eexists. split; reflexivity. }
    exists R''. split; [exact E|].
    assert (forall k, 0 <= k < nreg -> In k trace \/ ~ In k trace) as DEC by (intros k _; destruct (in_dec Z.eq_dec k trace); auto).
    split.
    + destruct FR' as [G1 G2 G3]. split; [exact L''| |].
      * intros k Hk. destruct (DEC k Hk) as [Q|Q].
        -- rewrite (H1 k Q). cbn [rID rCount withID withCount]. right. destruct (F4 k Q) as (B & _). split; [reflexivity|]. split; [reflexivity|]. split; [lia|].
           rewrite <- spansOf_len. pose proof (flat_in_le spansOf trace k Q). lia.
        -- rewrite H2 by (lia || exact Q). now apply G2.
      * intros k Hk. destruct (DEC k Hk) as [Q|Q]; [rewrite (H1 k Q)|rewrite H2 by (lia || exact Q)]; now apply G3.
    + intros HG k Hk Gk Ck. destruct (DEC k) as [Q|Q]; [lia| |].
      * rewrite (H1 k Q). auto.
      * rewrite H2 by (lia || exact Q). destruct (F2 k) as (_ & EK & _); [lia|]. destruct (Sb k) as (_ & EK2 & _); [lia|].
        destruct (HR HG k Hk Gk Ck) as [V1 V2]. rewrite EK, EK2. split.
        -- intros X. destruct (F5 k) as [X1|X1]; [lia|exact X| |contradiction]. destruct (Vb k) as [X2| ->]; [lia|exact X1|now apply V1|contradiction].
        -- intros X. apply in_app_iff in X. destruct X as [X|[->|[]]]; [now apply V2|contradiction].
  - exists R'. split; [reflexivity|]. split; [exact FR'|]. intros HG k Hk Gk Ck.
    destruct (G i) eqn:Gi.
    { exfalso. assert (forall k, In k trace -> G k = true) as TG by (intros k' Hk'; destruct (F4 k' Hk') as (_ & _ & _ & X); apply (X HG)).
      pose proof HG as (G1 & G2 & G3). specialize (G3 trace F3 TG). apply andb_false_iff in EX. destruct EX as [EX|EX]; [apply Z.ltb_ge in EX; lia|].
      apply negb_false_iff in EX. destruct (HB EX) as [|(k' & c & X1 & X2 & X3)]; [discriminate|]. destruct (F4 k' X1) as (B & _).
      destruct (G1 k' c) as [Y _]; [lia|now apply TG|exact X2|]. congruence. }
    destruct (F2 k) as (_ & EK & _); [lia|]. destruct (Sb k) as (_ & EK2 & _); [lia|].
    assert (~ In k trace) as Q. { intros Q. destruct (F4 k Q) as (_ & _ & _ & X). specialize (X HG). congruence. }
    destruct (HR HG k Hk Gk Ck) as [V1 V2]. rewrite EK, EK2. split.
    + intros X. destruct (F5 k) as [X1|X1]; [lia|exact X| |contradiction]. destruct (Vb k) as [X2| ->]; [lia|exact X1|now apply V1|contradiction].
    + intros X. apply in_app_iff in X. destruct X as [X|[->|[]]]; [now apply V2|contradiction].
Qed.

Theorem filter_ok : exists R, foldM (filterOne minArea nreg) (zseq (Z.to_nat nreg)) R0 = Ok R /\ filt R /\
  (group -> forall k, 0 < k < nreg -> G k = true -> 0 < cnt src k O -> rID (rg R k) = 0).
Proof.
  destruct (foldM_inv (filterOne minArea nreg) (fun pre R => filt R /\ removed pre R) (zseq (Z.to_nat nreg)) R0) as (R & E & HF & HR).
  - split.
    + split; [exact L0| |intros; repeat split]. intros k Hk. left. split; [now apply ID0|reflexivity].
    + intros _ k Hk _ _. split; [|intros []]. destruct (ID0 k) as [_ ->]; [lia|discriminate].
  - intros pre i post R El [HF HR]. apply filterOne_ok; auto. assert (In i (zseq (Z.to_nat nreg))) as Q by (rewrite El; apply in_app_iff; right; now left). apply in_zseq in Q. lia.
  - exists R. split; [exact E|]. split; [exact HF|]. intros HG k Hk Gk Ck. apply (HR HG k Hk Gk Ck). apply in_zseq. lia.
Qed.
End Filter.
