From Coq Require Import ZArith List Bool Sorted Lia.
From Verif.Base Require Import Res GoNum Grid.
From Verif.Model Require Import Heightfield Filter Dirs.
From Verif.Spec Require Import HeightfieldSpec.
From Verif.Proofs Require Import HeightfieldProofs.
Import ListNotations.
Open Scope Z_scope.

Lemma iMin_min : forall a b, iMin a b = Z.min a b.
Proof. intros. unfold iMin. destruct (Z.ltb_spec a b); lia. Qed.
Lemma iMax_max : forall a b, iMax a b = Z.max a b.
Proof. intros. unfold iMax. rewrite Z.gtb_ltb. destruct (Z.ltb_spec b a); lia. Qed.
Lemma iAbs_abs : forall a, -2147483648 < a < 2147483648 -> iAbs a = Z.abs a.
Proof.
  intros a H. unfold iAbs. destruct (Z.ltb_spec a 0); [|lia]. rewrite i32_id; [lia|].
  unfold is_i32. lia.
Qed.

Definition col_ok (col : column) : Prop := forall s, In s col -> 0 <= smin s <= 65535 /\ 0 <= smax s <= 65535.

Lemma col_ok_cons : forall s col, col_ok (s :: col) -> (0 <= smin s <= 65535 /\ 0 <= smax s <= 65535) /\ col_ok col.
Proof. intros s col H. split; [apply H; now left|]. intros x Hx. apply H. now right. Qed.

(** ** Low hanging obstacles *)
Definition low_step (climb : Z) (prev : option Span) (s : Span) : Span :=
  match prev with
  | Some p => if (sarea s =? 0) && negb (sarea p =? 0) && (Z.abs (smax s - smax p) <=? climb)
              then mkSpan (smin s) (smax s) (sarea p) else s
  | None => s
  end.

Fixpoint low_col (climb : Z) (prev : option Span) (col : column) : column :=
  match col with [] => [] | s :: rest => low_step climb prev s :: low_col climb (Some s) rest end.

Lemma lowHangingCol_spec : forall climb col ps p pa, col_ok col -> col_ok [p] -> col_ok [ps] ->
  smax ps = smax p -> (sarea p <> 0 -> pa = sarea p) ->
  lowHangingCol climb (Some ps) (negb (sarea p =? 0)) pa col = Ok (low_col climb (Some p) col).
Proof.
  intros climb. induction col as [|s col IH]; intros ps p pa Hc Hp Hps Em Ea; [reflexivity|].
  destruct (col_ok_cons _ _ Hc) as [[_ Hs] Hc']. destruct (col_ok_cons _ _ Hp) as [[_ Hp'] _].
  cbn [lowHangingCol low_col]. unfold nullArea. rewrite negb_involutive, Em.
  rewrite iAbs_abs by lia. unfold low_step.
  destruct (Z.eqb_spec (sarea s) 0) as [E|E]; cbn [andb negb bind].
  - destruct (Z.eqb_spec (sarea p) 0) as [E'|E']; cbn [andb negb bind].
    + replace false with (negb (sarea s =? 0)) by (rewrite E; reflexivity).
      rewrite (IH s s (sarea s)); auto.
      * intros x [<-|[]]. apply Hc. now left.
      * intros x [<-|[]]. apply Hc. now left.
    + destruct (Z.leb_spec (Z.abs (smax s - smax p)) climb); cbn [bind].
      * replace false with (negb (sarea s =? 0)) by (rewrite E; reflexivity).
        rewrite (IH (setSpanArea s pa) s).
        -- cbn [bind]. unfold setSpanArea. rewrite Ea by assumption. reflexivity.
        -- assumption.
        -- intros x [<-|[]]. apply Hc. now left.
        -- intros x [<-|[]]. cbn. apply (Hc s). now left.
        -- reflexivity.
        -- intros N. congruence.
      * replace false with (negb (sarea s =? 0)) by (rewrite E; reflexivity).
        rewrite (IH s s (sarea s)); auto.
        -- intros x [<-|[]]. apply Hc. now left.
        -- intros x [<-|[]]. apply Hc. now left.
  - replace true with (negb (sarea s =? 0)) by (apply negb_true_iff, Z.eqb_neq; assumption).
    rewrite (IH s s (sarea s)); auto.
    + intros x [<-|[]]. apply Hc. now left.
    + intros x [<-|[]]. apply Hc. now left.
Qed.

Lemma lowHangingCol_top : forall climb col, col_ok col ->
  lowHangingCol climb None false nullArea col = Ok (low_col climb None col).
Proof.
  intros climb [|s col] Hc; [reflexivity|]. destruct (col_ok_cons _ _ Hc) as [Hs Hc'].
  cbn [lowHangingCol low_col low_step]. rewrite andb_false_r. cbn [bind]. unfold nullArea.
  rewrite (lowHangingCol_spec climb col s s (sarea s)); auto.
  - intros x [<-|[]]. assumption.
  - intros x [<-|[]]. assumption.
Qed.

Definition prev_span (col : column) (i : nat) : option Span :=
  match i with O => None | S j => nth_error col j end.

Lemma low_col_nth : forall climb col prev i s, nth_error col i = Some s ->
  nth_error (low_col climb prev col) i =
  Some (low_step climb (match i with O => prev | S j => nth_error col j end) s).
Proof.
  intros climb. induction col as [|c col IH]; intros prev [|i] s H; cbn in *; try discriminate.
  - congruence.
  - rewrite (IH (Some c) i s H). destruct i; reflexivity.
Qed.
Lemma low_col_length : forall climb col prev, length (low_col climb prev col) = length col.
Proof. intros climb. induction col; intros; cbn; auto. Qed.

(** ** Low ceilings *)
Lemma ceiling_cons : forall c col i, ceiling (c :: col) (S i) = ceiling col i.
Proof. reflexivity. Qed.
Lemma ceilingOf_ceiling : forall s col, ceilingOf col = ceiling (s :: col) 0.
Proof. intros s [|n col]; reflexivity. Qed.

Lemma lowHeightCol_nth : forall wh col i s, nth_error col i = Some s ->
  nth_error (lowHeightCol wh col) i =
  Some (if ceiling col i - smax s <=? wh then mkSpan (smin s) (smax s) 0 else s).
Proof.
  intros wh. induction col as [|c col IH]; intros [|i] s H; cbn [nth_error] in H; try discriminate.
  - cbn [lowHeightCol nth_error]. rewrite (ceilingOf_ceiling c col). inversion H; subst.
    unfold setSpanArea, nullArea. reflexivity.
  - cbn [lowHeightCol nth_error]. now rewrite ceiling_cons, (IH i s H).
Qed.
Lemma lowHeightCol_length : forall wh col, length (lowHeightCol wh col) = length col.
Proof. intros wh. induction col; cbn; auto. Qed.

(** ** Lifting column results to the field *)
Lemma hf_sweep : forall hf (body : list column -> Z -> Z -> res (list column))
    (P : list column -> Prop) (F : Z -> Z -> column -> column),
  hf_shape hf -> P (hf_spans hf) ->
  (forall s x y a, 0 <= x < hf_w hf -> 0 <= y < hf_h hf -> zlen s = hf_w hf * hf_h hf -> P s ->
     get s (cidx (hf_w hf) x y) = Ok a ->
     body s x y = Ok (upd s (Z.to_nat (cidx (hf_w hf) x y)) (F x y a)) /\
     P (upd s (Z.to_nat (cidx (hf_w hf) x y)) (F x y a))) ->
  exists spans, sweep (hf_w hf) (hf_h hf) body (hf_spans hf) = Ok spans /\
    hf_shape (mkHF (hf_w hf) (hf_h hf) spans) /\ P spans /\
    forall x y, in_grid hf x y ->
      col_at (mkHF (hf_w hf) (hf_h hf) spans) x y = F x y (col_at hf x y).
Proof.
  intros hf body P F Hsh HP Hb. pose proof Hsh as (Hw & Hh & Hs & Hl).
  destruct (sweep_pointwise (hf_w hf) (hf_h hf) body P F (hf_spans hf) Hw Hh Hl HP Hb) as (st & E & Hl' & HP' & Hn).
  exists st. split; [assumption|].
  assert (hf_shape (mkHF (hf_w hf) (hf_h hf) st)) as Hsh' by (unfold hf_shape; cbn; auto).
  split; [assumption|]. split; [assumption|]. intros x y G.
  pose proof (col_at_in hf x y Hsh G) as E0.
  assert (in_grid (mkHF (hf_w hf) (hf_h hf) st) x y) as G' by exact G.
  pose proof (col_at_in _ x y Hsh' G') as E1. cbn [hf_w hf_spans] in E1.
  destruct G as [Gx Gy]. rewrite (Hn x y (col_at hf x y) Gx Gy E0) in E1. congruence.
Qed.

(** ** Ledges *)

(** Same extents everywhere: what the ledge filter reads is unaffected by its own writes. *)
Definition same_ext (a b : list column) : Prop := map extents a = map extents b.

Lemma map_upd : forall {A B} (f : A -> B) l n v, map f (upd l n v) = upd (map f l) n (f v).
Proof. induction l as [|x l IH]; intros [|n] v; cbn; auto. f_equal. auto. Qed.

Lemma ledgeSpans_ext : forall wh climb bot top a b st, extents a = extents b ->
  ledgeSpans wh climb bot top a st = ledgeSpans wh climb bot top b st.
Proof.
  intros wh climb bot top. induction a as [|x a IH]; intros [|y b] st E; cbn in E; try discriminate; auto.
  inversion E. cbn [ledgeSpans]. destruct st as [[m1 m2] m3].
  assert (ceilingOf a = ceilingOf b) as ->.
  { destruct a, b; cbn in *; congruence. }
  rewrite H1. apply IH. assumption.
Qed.

Lemma get_ext : forall a b i c, same_ext a b -> get a i = Ok c ->
  exists d, get b i = Ok d /\ extents d = extents c.
Proof.
  intros a b i c E H. apply get_ok in H. destruct H as [Hi H].
  assert (nth_error (map extents b) (Z.to_nat i) = Some (extents c)) as H'.
  { rewrite <- E, nth_error_map, H. reflexivity. }
  rewrite nth_error_map in H'. destruct (nth_error b (Z.to_nat i)) as [d|] eqn:Ed; [|discriminate].
  exists d. split; [apply get_ok; auto|]. cbn in H'. congruence.
Qed.

Lemma ledgeDir_ext : forall wh climb hf a b x y bot top st dir, same_ext a b ->
  ledgeDir wh climb hf a x y bot top st dir = ledgeDir wh climb hf b x y bot top st dir.
Proof.
  intros wh climb hf a b x y bot top [[m1 m2] m3] dir E. unfold ledgeDir.
  destruct (GetDirOffsetX dir) as [ox| | |]; cbn [bind]; auto.
  destruct (GetDirOffsetY dir) as [oy| | |]; cbn [bind]; auto.
  destruct (_ || _); auto.
  destruct (get a (cidx (hf_w hf) (x + ox) (y + oy))) as [c| | |] eqn:Ec.
  - destruct (get_ext a b _ c E Ec) as (d & Ed & Ex). rewrite Ed. cbn [bind].
    assert (ceilingOf c = ceilingOf d) as -> by (destruct c, d; cbn in *; congruence).
    f_equal. apply ledgeSpans_ext. congruence.
  - destruct (get b (cidx (hf_w hf) (x + ox) (y + oy))) as [d| | |] eqn:Ed; auto.
    destruct (get_ext b a _ d (eq_sym E) Ed) as (c & Ec' & _). congruence.
    unfold get in *. destruct (_ <? 0); try discriminate. destruct (nth_error b _); discriminate.
    unfold get in *. destruct (_ <? 0); try discriminate. destruct (nth_error b _); discriminate.
  - unfold get in Ec. destruct (_ <? 0); try discriminate. destruct (nth_error a _); discriminate.
  - unfold get in Ec. destruct (_ <? 0); try discriminate. destruct (nth_error a _); discriminate.
Qed.

Lemma foldM_ext : forall {S A} (f g : S -> A -> res S) l s, (forall s a, f s a = g s a) -> foldM f l s = foldM g l s.
Proof.
  induction l as [|a l IH]; intros s H; cbn [foldM]; auto. rewrite H. destruct (g s a); cbn [bind]; auto.
Qed.

(** Effect of one neighbour column on (minh, asmin, asmax), as fold over its gaps. *)
Fixpoint gaps (col : column) : list (Z * Z) :=
  match col with [] => [] | s :: rest => (smax s, ceilingOf rest) :: gaps rest end.

Lemma in_gaps : forall col f c, In (f, c) (gaps col) <-> gap col f c.
Proof.
  unfold gap. induction col as [|s col IH]; intros f c; cbn [gaps In].
  - split; [contradiction|]. intros (i & x & H & _). destruct i; discriminate.
  - rewrite IH. split.
    + intros [E|(i & x & H & Hf & Hc)].
      * inversion E; subst. exists 0%nat, s. repeat split. apply ceilingOf_ceiling.
      * exists (S i), x. rewrite ceiling_cons. auto.
    + intros ([|i] & x & H & Hf & Hc); cbn in H.
      * left. inversion H; subst. rewrite <- ceilingOf_ceiling. reflexivity.
      * right. exists i, x. rewrite ceiling_cons in Hc. auto.
Qed.

(** Interface of the accumulated state. *)
Record lstate (climb bot : Z) (Drop : Prop) (Acc : Z -> Prop) (st : Z * Z * Z) : Prop := {
  ls_drop : fst (fst st) < - climb <-> Drop;
  ls_min : (snd (fst st) = bot \/ Acc (snd (fst st))) /\ snd (fst st) <= bot /\ forall f, Acc f -> snd (fst st) <= f;
  ls_max : (snd st = bot \/ Acc (snd st)) /\ bot <= snd st /\ forall f, Acc f -> f <= snd st }.

Lemma ledgeSpans_state : forall wh climb bot top col st Drop Acc,
  0 <= climb -> 0 <= bot <= 65535 -> col_ok col ->
  lstate climb bot Drop Acc st ->
  lstate climb bot
    (Drop \/ exists f c, In (f, c) (gaps col) /\ passable wh bot top f c /\ bot - f > climb)
    (fun f => Acc f \/ exists c, In (f, c) (gaps col) /\ passable wh bot top f c /\ Z.abs (f - bot) <= climb)
    (ledgeSpans wh climb bot top col st).
Proof.
  intros wh climb bot top. induction col as [|s col IH]; intros [[mh a0] a1] Drop Acc Hcl Hb Hc HI.
  - cbn [ledgeSpans gaps]. destruct HI as [D [M1 [M2 M3]] [X1 [X2 X3]]]. cbn [fst snd] in *. constructor; cbn [fst snd].
    + rewrite D. split; [auto|]. intros [H|(f & c & [] & _)]. assumption.
    + split; [tauto|]. split; [assumption|]. intros f [H|(c & [] & _)]. auto.
    + split; [tauto|]. split; [assumption|]. intros f [H|(c & [] & _)]. auto.
  - destruct (col_ok_cons _ _ Hc) as [[_ Hs] Hc'].
    cbn [ledgeSpans gaps].
    set (st' := if iMin top (ceilingOf col) - iMax bot (smax s) >? wh then _ else _).
    assert (lstate climb bot
      (Drop \/ (passable wh bot top (smax s) (ceilingOf col) /\ bot - smax s > climb))
      (fun f => Acc f \/ (f = smax s /\ passable wh bot top (smax s) (ceilingOf col) /\ Z.abs (smax s - bot) <= climb)) st') as HI'.
    { destruct HI as [D [M1 [M2 M3]] [X1 [X2 X3]]]. cbn [fst snd] in *. unfold st', passable.
      rewrite iMin_min, iMax_max, Z.gtb_ltb.
      destruct (Z.ltb_spec wh (Z.min top (ceilingOf col) - Z.max bot (smax s))) as [P|P].
      - rewrite iAbs_abs, iMin_min by lia.
        destruct (Z.leb_spec (Z.abs (smax s - bot)) climb) as [A|A].
        + rewrite !Z.gtb_ltb, !u16_id by (unfold is_u16; lia).
          constructor; cbn [fst snd].
          * split.
            -- intros Hm. left. apply D. lia.
            -- intros [H|[_ H]]; [apply D in H; lia|lia].
          * destruct (Z.ltb_spec (smax s) a0) as [L|L].
            -- split; [right; right; lia|]. split; [lia|]. intros f [H|[-> _]]; [specialize (M3 f H); lia|lia].
            -- split; [tauto|]. split; [lia|]. intros f [H|[-> _]]; [specialize (M3 f H); lia|lia].
          * destruct (Z.ltb_spec a1 (smax s)) as [L|L].
            -- split; [right; right; lia|]. split; [lia|]. intros f [H|[-> _]]; [specialize (X3 f H); lia|lia].
            -- split; [tauto|]. split; [lia|]. intros f [H|[-> _]]; [specialize (X3 f H); lia|lia].
        + constructor; cbn [fst snd].
          * split.
            -- intros Hm. destruct (Z.lt_ge_cases mh (- climb)); [left; apply D; lia|right; lia].
            -- intros [H|[_ H]]; [apply D in H; lia|lia].
          * split; [tauto|]. split; [lia|]. intros f [H|[_ [_ H]]]; [auto|lia].
          * split; [tauto|]. split; [lia|]. intros f [H|[_ [_ H]]]; [auto|lia].
      - constructor; cbn [fst snd].
        + rewrite D. split; [auto|]. intros [H|[H _]]; [assumption|lia].
        + split; [tauto|]. split; [lia|]. intros f [H|[_ [H _]]]; [auto|lia].
        + split; [tauto|]. split; [lia|]. intros f [H|[_ [H _]]]; [auto|lia]. }
    specialize (IH st' _ _ Hcl Hb Hc' HI').
    destruct IH as [D [M1 [M2 M3]] [X1 [X2 X3]]]. constructor.
    + rewrite D. clear. cbn [In]. split.
      * intros [[H|[H1 H2]]|(f & c & H)]; [auto| |].
        -- right. exists (smax s), (ceilingOf col). auto.
        -- right. exists f, c. tauto.
      * intros [H|(f & c & [E|H] & H')]; [auto| |].
        -- inversion E; subst. tauto.
        -- right. exists f, c. tauto.
    + split; [|split; [assumption|]].
      * destruct M1 as [M4|[[M4|M4]|(c & M4)]]; [auto|auto| |].
        -- right. right. exists (ceilingOf col). destruct M4 as (E0 & M4'). rewrite E0. cbn. auto.
        -- right. right. exists c. cbn. tauto.
      * intros f [H|(c & [E|H] & H')]; apply M3; [auto| |].
        -- left. right. inversion E; subst. tauto.
        -- right. exists c. tauto.
    + split; [|split; [assumption|]].
      * destruct X1 as [M4|[[M4|M4]|(c & M4)]]; [auto|auto| |].
        -- right. right. exists (ceilingOf col). destruct M4 as (E0 & M4'). rewrite E0. cbn. auto.
        -- right. right. exists c. cbn. tauto.
      * intros f [H|(c & [E|H] & H')]; apply X3; [auto| |].
        -- left. right. inversion E; subst. tauto.
        -- right. exists c. tauto.
Qed.

Lemma lstate_ext : forall climb bot D1 D2 (A1 A2 : Z -> Prop) st,
  (D1 <-> D2) -> (forall f, A1 f <-> A2 f) -> lstate climb bot D1 A1 st -> lstate climb bot D2 A2 st.
Proof.
  intros climb bot D1 D2 A1 A2 st HD HA [D [M1 [M2 M3]] [X1 [X2 X3]]]. constructor.
  - now rewrite D.
  - rewrite <- HA. split; [assumption|]. split; [assumption|]. intros f H. apply M3, HA, H.
  - rewrite <- HA. split; [assumption|]. split; [assumption|]. intros f H. apply X3, HA, H.
Qed.

Definition dropDir wh climb hf x y bot top d : Prop :=
  let nx := x + fst (dir_step d) in
  let ny := y + snd (dir_step d) in
  (~ in_grid hf nx ny /\ bot > 0) \/
  (in_grid hf nx ny /\ bot > 0 /\
     passable wh bot top (- climb) (match col_at hf nx ny with s :: _ => smin s | [] => 65535 end)) \/
  (in_grid hf nx ny /\ exists f ceil, gap (col_at hf nx ny) f ceil /\ passable wh bot top f ceil /\ bot - f > climb).
Definition accDir wh climb hf x y bot top d f : Prop :=
  exists ceil,
    in_grid hf (x + fst (dir_step d)) (y + snd (dir_step d)) /\
    gap (col_at hf (x + fst (dir_step d)) (y + snd (dir_step d))) f ceil /\
    passable wh bot top f ceil /\ Z.abs (f - bot) <= climb.

Lemma ledgeDir_state : forall wh climb hf x y bot top d st D A,
  hf_shape hf -> heights_ok hf -> (d < 4)%nat ->
  0 <= climb <= 1073741824 -> 0 <= bot <= 65535 ->
  lstate climb bot D A st ->
  exists st', ledgeDir wh climb hf (hf_spans hf) x y bot top st (Z.of_nat d) = Ok st' /\
    lstate climb bot (D \/ dropDir wh climb hf x y bot top d) (fun f => A f \/ accDir wh climb hf x y bot top d f) st'.
Proof.
  intros wh climb hf x y bot top d [[mh a0] a1] D A Hsh Hok Hd Hcl Hb HI.
  assert (GetDirOffsetX (Z.of_nat d) = Ok (fst (dir_step d)) /\ GetDirOffsetY (Z.of_nat d) = Ok (snd (dir_step d))) as [Ex Ey].
  { destruct d as [|[|[|[|d]]]]; try lia; split; reflexivity. }
  unfold ledgeDir. rewrite Ex, Ey. cbn [bind].
  unfold dropDir, accDir.
  set (nx := x + fst (dir_step d)). set (ny := y + snd (dir_step d)).
  rewrite (i32_id (- climb)) by (unfold is_i32; lia).
  rewrite !(i32_id (- climb - bot)) by (unfold is_i32; lia).
  rewrite !Z.geb_leb.
  destruct ((nx <? 0) || (ny <? 0) || (hf_w hf <=? nx) || (hf_h hf <=? ny)) eqn:EO.
  - assert (~ in_grid hf nx ny) as NG.
    { rewrite !orb_true_iff, !Z.ltb_lt, !Z.leb_le in EO. unfold in_grid. lia. }
    eexists. split; [reflexivity|]. destruct HI as [HD [M1 [M2 M3]] [X1 [X2 X3]]]. cbn [fst snd] in *.
    rewrite iMin_min. constructor; cbn [fst snd].
    + split.
      * intros H. destruct (Z.lt_ge_cases mh (- climb)); [left; apply HD; lia|right; left; split; [assumption|lia]].
      * intros [H|[H|[H|H]]]; [apply HD in H; lia|lia|tauto|tauto].
    + split; [tauto|]. split; [lia|]. intros f [H|(c & H & _)]; [auto|tauto].
    + split; [tauto|]. split; [lia|]. intros f [H|(c & H & _)]; [auto|tauto].
  - assert (in_grid hf nx ny) as G.
    { rewrite !orb_false_iff, !Z.ltb_ge, !Z.leb_gt in EO. unfold in_grid. lia. }
    rewrite (col_at_in hf nx ny Hsh G). cbn [bind].
    eexists. split; [reflexivity|].
    assert (col_ok (col_at hf nx ny)) as Hc.
    { intros s Hs. specialize (Hok nx ny s Hs). lia. }
    assert (ceilingOf (col_at hf nx ny) = match col_at hf nx ny with s :: _ => smin s | [] => 65535 end) as Ec by reflexivity.
    rewrite <- Ec.
    eapply lstate_ext; [| |apply ledgeSpans_state with
      (Drop := D \/ (bot > 0 /\ passable wh bot top (- climb) (ceilingOf (col_at hf nx ny)))) (Acc := A); try assumption; try lia].
    + split.
      * intros [[H|H]|(f & c & H & H')]; [auto| |].
        -- right. right. left. tauto.
        -- right. right. right. split; [assumption|]. exists f, c. rewrite in_gaps in H. auto.
      * intros [H|[H|[H|(_ & f & c & H & H')]]]; [tauto|tauto|tauto|].
        right. exists f, c. rewrite in_gaps. auto.
    + intros f. split.
      * intros [H|(c & H & H')]; [auto|]. right. exists c. rewrite in_gaps in H. tauto.
      * intros [H|(c & _ & H & H')]; [auto|]. right. exists c. rewrite in_gaps. tauto.
    + destruct HI as [HD [M1 [M2 M3]] [X1 [X2 X3]]]. cbn [fst snd] in *.
      rewrite !iMin_min, iMax_max, Z.gtb_ltb. unfold passable.
      constructor; cbn [fst snd]; auto.
      destruct (Z.ltb_spec wh (Z.min top (ceilingOf (col_at hf nx ny)) - Z.max bot (- climb))) as [P|P].
      * split.
        -- intros H. destruct (Z.lt_ge_cases mh (- climb)); [left; apply HD; lia|right; lia].
        -- intros [H|H]; [apply HD in H; lia|lia].
      * rewrite HD. split; [auto|]. intros [H|H]; [assumption|lia].
Qed.

Lemma ledge_decide : forall wh climb hf x y bot top,
  hf_shape hf -> heights_ok hf -> 0 <= climb <= 1073741824 -> 0 <= bot <= 65535 ->
  exists mh a0 a1,
    foldM (ledgeDir wh climb hf (hf_spans hf) x y bot top) [0; 1; 2; 3] (MAX_HEIGHT, bot, bot) = Ok (mh, a0, a1) /\
    0 <= a0 <= a1 /\ a1 <= 2147549182 /\ (mh < - climb <-> drop wh climb hf x y bot top) /\ (a1 - a0 > climb <-> steep wh climb hf x y bot top)
    /\ a1 <= 65535.
Proof.
  intros wh climb hf x y bot top Hsh Hok Hcl Hb.
  assert (lstate climb bot False (fun _ => False) (MAX_HEIGHT, bot, bot)) as I0.
  { unfold MAX_HEIGHT. constructor; cbn [fst snd].
    - split; [lia|contradiction].
    - split; [auto|]. split; [lia|contradiction].
    - split; [auto|]. split; [lia|contradiction]. }
  destruct (ledgeDir_state wh climb hf x y bot top 0 _ _ _ Hsh Hok ltac:(lia) Hcl Hb I0) as (s1 & E1 & I1).
  destruct (ledgeDir_state wh climb hf x y bot top 1 _ _ _ Hsh Hok ltac:(lia) Hcl Hb I1) as (s2 & E2 & I2).
  destruct (ledgeDir_state wh climb hf x y bot top 2 _ _ _ Hsh Hok ltac:(lia) Hcl Hb I2) as (s3 & E3 & I3).
  destruct (ledgeDir_state wh climb hf x y bot top 3 _ _ _ Hsh Hok ltac:(lia) Hcl Hb I3) as (s4 & E4 & I4).
  change (Z.of_nat 0) with 0 in E1. change (Z.of_nat 1) with 1 in E2.
  change (Z.of_nat 2) with 2 in E3. change (Z.of_nat 3) with 3 in E4.
  cbn [foldM]. rewrite E1; cbn [bind]. rewrite E2; cbn [bind]. rewrite E3; cbn [bind]. rewrite E4; cbn [bind].
  destruct s4 as [[mh a0] a1]. exists mh, a0, a1. split; [reflexivity|].
  assert (lstate climb bot (drop wh climb hf x y bot top) (accessible wh climb hf x y bot top) (mh, a0, a1)) as I.
  { eapply lstate_ext; [| |exact I4].
    - unfold drop. fold (dropDir wh climb hf x y bot top). split.
      + intros [[[[[]|H]|H]|H]|H]; [exists 0%nat|exists 1%nat|exists 2%nat|exists 3%nat]; (split; [lia|assumption]).
      + intros (d & Hd & H). change (dropDir wh climb hf x y bot top d) in H.
        destruct d as [|[|[|[|d]]]]; try lia; tauto.
    - intros f. unfold accessible. split.
      + intros [[[[[]|(c & H)]|(c & H)]|(c & H)]|(c & H)];
          [exists 0%nat, c|exists 1%nat, c|exists 2%nat, c|exists 3%nat, c]; (split; [lia|assumption]).
      + intros (d & c & Hd & H).
        assert (accDir wh climb hf x y bot top d f) as H' by (exists c; exact H).
        destruct d as [|[|[|[|d]]]]; try lia; tauto. }
  assert (forall f, accessible wh climb hf x y bot top f -> 0 <= f <= 65535) as Hacc.
  { intros f (d & c & _ & _ & (i & s & Hi & -> & _) & _). apply nth_error_In in Hi. specialize (Hok _ _ s Hi). lia. }
  destruct I as [D [M1 [M2 M3]] [X1 [X2 X3]]]. cbn [fst snd] in *.
  assert (0 <= a0) by (destruct M1 as [->|H]; [lia|apply Hacc in H; lia]).
  assert (a1 <= 65535) by (destruct X1 as [->|H0]; [lia|apply Hacc in H0; lia]).
  split; [lia|]. split; [lia|]. split; [assumption|]. split; [|assumption]. unfold steep. split.
  - intros Hd. exists a1, a0. auto.
  - intros (f1 & f2 & H1 & H2 & Hd).
    assert (f1 <= a1) by (destruct H1 as [->|H1]; auto).
    assert (a0 <= f2) by (destruct H2 as [->|H2]; auto). lia.
Qed.

(** The decision as a boolean, and the column transformer. *)
Definition ledgeb wh climb hf x y (s : Span) (top : Z) : bool :=
  match foldM (ledgeDir wh climb hf (hf_spans hf) x y (smax s) top) [0; 1; 2; 3] (MAX_HEIGHT, smax s, smax s) with
  | Ok (mh, a0, a1) => (mh <? - climb) || (a1 - a0 >? climb)
  | _ => false
  end.

Lemma ledgeb_spec : forall wh climb hf x y s top, hf_shape hf -> heights_ok hf ->
  0 <= climb <= 1073741824 -> 0 <= smax s <= 65535 ->
  ledgeb wh climb hf x y s top = true <-> drop wh climb hf x y (smax s) top \/ steep wh climb hf x y (smax s) top.
Proof.
  intros wh climb hf x y s top Hsh Hok Hcl Hs.
  destruct (ledge_decide wh climb hf x y (smax s) top Hsh Hok Hcl Hs) as (mh & a0 & a1 & E & _ & _ & D & X & _).
  unfold ledgeb. rewrite E, orb_true_iff, Z.gtb_ltb, !Z.ltb_lt, <- D, <- X. lia.
Qed.

Fixpoint ledge_col wh climb hf x y (col : column) : column :=
  match col with
  | [] => []
  | s :: above =>
      (if negb (sarea s =? 0) && ledgeb wh climb hf x y s (ceilingOf above) then mkSpan (smin s) (smax s) 0 else s)
      :: ledge_col wh climb hf x y above
  end.

Lemma ledge_col_extents : forall wh climb hf x y col, extents (ledge_col wh climb hf x y col) = extents col.
Proof.
  intros wh climb hf x y. induction col as [|s col IH]; [reflexivity|].
  cbn [ledge_col extents map]. unfold extents in IH. rewrite IH. destruct (_ && _); reflexivity.
Qed.

Lemma ledge_col_nth : forall wh climb hf x y col i s, nth_error col i = Some s ->
  nth_error (ledge_col wh climb hf x y col) i =
  Some (if negb (sarea s =? 0) && ledgeb wh climb hf x y s (ceiling col i) then mkSpan (smin s) (smax s) 0 else s).
Proof.
  intros wh climb hf x y. induction col as [|c col IH]; intros [|i] s H; cbn [nth_error] in H; try discriminate.
  - inversion H; subst. cbn [ledge_col nth_error]. now rewrite (ceilingOf_ceiling s col).
  - cbn [ledge_col nth_error]. now rewrite ceiling_cons, (IH i s H).
Qed.
Lemma ledge_col_length : forall wh climb hf x y col, length (ledge_col wh climb hf x y col) = length col.
Proof. intros wh climb hf x y. induction col; cbn; auto. Qed.

Lemma ledgeCol_spec : forall wh climb hf spans x y col, hf_shape hf -> heights_ok hf ->
  0 <= climb <= 1073741824 -> same_ext spans (hf_spans hf) -> col_ok col ->
  ledgeCol wh climb hf spans x y col = Ok (ledge_col wh climb hf x y col).
Proof.
  intros wh climb hf spans x y col Hsh Hok Hcl Hext. induction col as [|s col IH]; intros Hc; [reflexivity|].
  destruct (col_ok_cons _ _ Hc) as [[_ Hs] Hc']. specialize (IH Hc').
  cbn [ledgeCol ledge_col]. rewrite IH. unfold nullArea.
  destruct (Z.eqb_spec (sarea s) 0) as [E|E]; cbn [negb andb bind]; [reflexivity|].
  rewrite (foldM_ext _ (ledgeDir wh climb hf (hf_spans hf) x y (smax s) (ceilingOf col)))
    by (intros; now apply ledgeDir_ext).
  destruct (ledge_decide wh climb hf x y (smax s) (ceilingOf col) Hsh Hok Hcl Hs) as (mh & a0 & a1 & Ef & Ha & _ & _ & _ & Hm).
  unfold ledgeb. rewrite Ef. cbn [bind].
  rewrite (i32_id (- climb)) by (unfold is_i32; lia).
  rewrite (u16_id (a1 - a0)) by (unfold is_u16; lia).
  destruct (mh <? - climb); cbn [orb bind]; [reflexivity|].
  destruct (a1 - a0 >? climb); reflexivity.
Qed.

Lemma FilterLedgeSpans_spec : forall wh climb hf, hf_shape hf -> heights_ok hf ->
  0 <= climb <= 1073741824 ->
  exists hf', FilterLedgeSpans wh climb hf = Ok hf' /\ hf_shape hf' /\ hf_w hf' = hf_w hf /\ hf_h hf' = hf_h hf /\
    forall x y, in_grid hf x y -> col_at hf' x y = ledge_col wh climb hf x y (col_at hf x y).
Proof.
  intros wh climb hf Hsh Hok Hcl.
  destruct (hf_sweep hf (fun spans x y =>
      let* col := get spans (cidx (hf_w hf) x y) in
      let* col' := ledgeCol wh climb hf spans x y col in
      set spans (cidx (hf_w hf) x y) col')
    (fun spans => same_ext spans (hf_spans hf)) (fun x y c => ledge_col wh climb hf x y c) Hsh) as (spans & E & Hsh' & _ & Hcol).
  - reflexivity.
  - intros s x y a Hx Hy Hl Hext Hg. rewrite Hg. cbn [bind].
    destruct (get_ext _ _ _ _ Hext Hg) as (d & Hd & Hde).
    rewrite (col_at_in hf x y Hsh (conj Hx Hy)) in Hd.
    assert (col_ok a) as Hca.
    { intros c Hc. assert (In (smin c, smax c) (extents d)) as Hin.
      { rewrite Hde. apply in_map_iff. exists c. auto. }
      apply in_map_iff in Hin. destruct Hin as (c' & Ec & Hc'). inversion Hd; subst d.
      specialize (Hok x y c' Hc'). inversion Ec. lia. }
    rewrite ledgeCol_spec by assumption. cbn [bind].
    pose proof (cidx_range _ _ _ _ Hx Hy).
    rewrite set_in_range by lia. split; [reflexivity|].
    unfold same_ext in *. rewrite map_upd, Hext. apply upd_self. rewrite ledge_col_extents, <- Hext.
    rewrite nth_error_map. apply get_ok in Hg. destruct Hg as [_ ->]. reflexivity.
  - exists (mkHF (hf_w hf) (hf_h hf) spans). unfold FilterLedgeSpans. rewrite E. cbn [bind].
    split; [reflexivity|]. split; [assumption|]. auto.
Qed.

Lemma FilterLowHanging_spec : forall climb hf, hf_shape hf -> heights_ok hf ->
  exists hf', FilterLowHangingWalkableObstacles climb hf = Ok hf' /\ hf_shape hf' /\ hf_w hf' = hf_w hf /\ hf_h hf' = hf_h hf /\
    forall x y, in_grid hf x y -> col_at hf' x y = low_col climb None (col_at hf x y).
Proof.
  intros climb hf Hsh Hok.
  destruct (hf_sweep hf (fun spans x y =>
      let* col := get spans (cidx (hf_w hf) x y) in
      let* col' := lowHangingCol climb None false nullArea col in
      set spans (cidx (hf_w hf) x y) col')
    (fun spans => Forall col_ok spans) (fun x y c => low_col climb None c) Hsh) as (spans & E & Hsh' & _ & Hcol).
  - apply Forall_forall. intros c Hc. apply In_nth_error in Hc. destruct Hc as [n Hn].
    destruct Hsh as (Hw & Hh & Hs & Hl).
    assert (n < length (hf_spans hf))%nat by (apply nth_error_Some; congruence).
    destruct (cidx_surj (hf_w hf) (hf_h hf) (Z.of_nat n)) as (x & y & Hx & Hy & Exy); [assumption|unfold zlen in Hl; lia|].
    intros s Hin. specialize (Hok x y s).
    pose proof (col_at_in hf x y (conj Hw (conj Hh (conj Hs Hl))) (conj Hx Hy)) as Eg.
    rewrite Exy in Eg. apply get_ok in Eg. destruct Eg as [_ Eg]. rewrite Nat2Z.id in Eg.
    rewrite Hn in Eg. inversion Eg as [Ec]. rewrite <- Ec in Hok. specialize (Hok Hin). lia.
  - intros s x y a Hx Hy Hl HF Hg. rewrite Hg. cbn [bind].
    assert (col_ok a) as Hca.
    { apply get_ok in Hg. destruct Hg as [_ Hg]. apply nth_error_In in Hg. eapply Forall_forall in HF; eauto. }
    rewrite lowHangingCol_top by assumption. cbn [bind].
    pose proof (cidx_range _ _ _ _ Hx Hy).
    rewrite set_in_range by lia. split; [reflexivity|].
    apply Forall_forall. intros c Hc. apply In_nth_error in Hc. destruct Hc as [n Hn].
    rewrite nth_error_upd in Hn. destruct (Nat.eqb n _).
    + destruct (nth_error s _) eqn:En; [|discriminate]. inversion Hn; subst c.
      intros z Hz. apply In_nth_error in Hz. destruct Hz as [i Hi].
      assert (i < length a)%nat as Li.
      { rewrite <- (low_col_length climb a None). apply nth_error_Some. congruence. }
      destruct (nth_error_in_range a i Li) as [s0 Hs0].
      rewrite (low_col_nth climb a None i s0 Hs0) in Hi. inversion Hi; subst z.
      apply nth_error_In in Hs0. specialize (Hca s0 Hs0).
      unfold low_step. destruct (match i with O => None | S j => nth_error a j end); [|assumption].
      destruct (_ && _ && _); assumption.
    + apply nth_error_In in Hn. eapply Forall_forall in HF; eauto.
  - exists (mkHF (hf_w hf) (hf_h hf) spans). unfold FilterLowHangingWalkableObstacles. rewrite E. cbn [bind].
    split; [reflexivity|]. split; [assumption|]. auto.
Qed.

Lemma FilterLowHeight_spec : forall wh hf, hf_shape hf ->
  exists hf', FilterWalkableLowHeightSpans wh hf = Ok hf' /\ hf_shape hf' /\ hf_w hf' = hf_w hf /\ hf_h hf' = hf_h hf /\
    forall x y, in_grid hf x y -> col_at hf' x y = lowHeightCol wh (col_at hf x y).
Proof.
  intros wh hf Hsh.
  destruct (hf_sweep hf (fun spans x y =>
      let* col := get spans (cidx (hf_w hf) x y) in
      set spans (cidx (hf_w hf) x y) (lowHeightCol wh col))
    (fun spans => True) (fun x y c => lowHeightCol wh c) Hsh I) as (spans & E & Hsh' & _ & Hcol).
  - intros s x y a Hx Hy Hl _ Hg. rewrite Hg. cbn [bind].
    pose proof (cidx_range _ _ _ _ Hx Hy).
    rewrite set_in_range by lia. auto.
  - exists (mkHF (hf_w hf) (hf_h hf) spans). unfold FilterWalkableLowHeightSpans. rewrite E. cbn [bind].
    split; [reflexivity|]. split; [assumption|]. auto.
Qed.
