(** BuildContours as a whole (C69, C70). *)
From Coq Require Import ZArith List Bool Lia Arith.
From Verif.Base Require Import Res GoNum Bits Grid F32.
From Verif.Model Require Import Heightfield Dirs Compact Erode Region ContourGeom Contour.
From Verif.Spec Require Import HeightfieldSpec CompactSpec ErodeSpec RegionSpec ContourSpec TraceSpec.
From Verif.Proofs Require Import ErodeProofs ErodeDist RegionBase TraceStep TraceVert TraceWalk TraceAll SimplifyEnd.
Import ListNotations.
Open Scope Z_scope.

Lemma shift_border : forall bs v, shiftVert bs v = without_border bs v.
Proof.
  intros bs [x y z r]. unfold shiftVert, without_border. cbn [vX vY vZ vR]. destruct (Z.ltb_spec 0 bs); f_equal; lia.
Qed.
Lemma in_concat_snoc : forall {A} (ls : list (list A)) l a, In a (concat (ls ++ [l])) <-> In a (concat ls) \/ In a l.
Proof. intros A ls l a. rewrite concat_app. cbn [concat]. rewrite app_nil_r, in_app_iff. tauto. Qed.
Lemma filter_NoDup : forall {A} (f : A -> bool) l, NoDup l -> NoDup (filter f l).
Proof. intros A f l H. now apply NoDup_filter. Qed.

Section CHF.
Variable chf : CompactHeightfield.
Hypothesis wf : chf_wf chf.
Hypothesis mut : mutual chf.
Hypothesis R16 : regions16 chf.
Hypothesis OA : one_area chf.
Hypothesis AM : forall r, 0 < r < 32768 -> short_outlines chf r.
Variable F : list Z.
Hypothesis FF : flagged chf F [].
Notation N := (chf_spanCount chf).
Notation outline := (outline chf).
Notation valid := (valid chf).
Notation flagged := (flagged chf).
Notation bit := (bit F).
Notation nxt := (nxt chf F).
Notation run := (run chf F).
Notation it := (it chf F).
Notation alone := (fun e => lone chf (eX e) (eY e) (eI e)).
Variables (bs : Z) (maxError : f32) (maxEdgeLen buildFlags : Z).

Definition whole (vis : list Edge) : Prop :=
  (forall a, In a vis -> valid a) /\ (forall a, In a vis -> In (nxt a) vis) /\ (forall a, valid a -> In (nxt a) vis -> In a vis).
Definition Inv (pre : list triple) (st : list Z * list Contour * Traces) : Prop :=
  let '(G, conts, tr) := st in
  exists vis loops, flagged G vis /\ whole vis /\ Forall2 (walk_of chf) loops tr /\ NoDup (concat loops) /\
    (forall e, In e (concat loops) <-> In e vis /\ outline e /\ ~ alone e) /\
    stored chf bs maxError maxEdgeLen buildFlags tr conts /\ zlen conts <= zlen pre /\
    (forall x y i d, In (x, y, i) pre -> outline (mkEdge x y i d) -> (forall d', (d' < d)%nat -> ~ outline (mkEdge x y i d')) -> In (mkEdge x y i d) vis).

Lemma whole_run : forall vis p e, whole vis -> valid e -> (0 < p)%nat -> it p e = e -> whole (vis ++ run p e).
Proof.
  intros vis p e (A & B & C) V P E. split; [|split].
  - intros a I. apply in_app_iff in I. destruct I as [I|I]; [auto|]. apply in_run in I. destruct I as (j & _ & ->). now apply it_valid.
  - intros a I. apply in_app_iff in I. apply in_app_iff. destruct I as [I|I]; [auto|right]. now apply run_fwd.
  - intros a VA I. apply in_app_iff in I. apply in_app_iff. destruct I as [I|I]; [auto|right]. now apply (run_back chf wf mut R16 F FF).
Qed.
Lemma flags15 : forall f, 0 <= f < 16 -> (forall d, (d < 4)%nat -> Z.testbit f (Z.of_nat d) = true) -> f = 15.
Proof.
  intros f H T. apply Z.bits_inj'. intros n Hn. destruct (Z_lt_dec n 4).
  - specialize (T (Z.to_nat n) ltac:(lia)). rewrite Z2Nat.id in T by lia. rewrite T. assert (n = 0 \/ n = 1 \/ n = 2 \/ n = 3) as [->|[->|[->| ->]]] by lia; reflexivity.
  - rewrite (testbit_high 4 f), (testbit_high 4 15); lia || reflexivity.
Qed.
Lemma flags0 : forall f, 0 <= f < 16 -> (forall d, (d < 4)%nat -> Z.testbit f (Z.of_nat d) = false) -> f = 0.
Proof.
  intros f H T. apply Z.bits_inj'. intros n Hn. rewrite Z.bits_0. destruct (Z_lt_dec n 4).
  - specialize (T (Z.to_nat n) ltac:(lia)). rewrite Z2Nat.id in T by lia. exact T.
  - apply (testbit_high 4); lia.
Qed.
Lemma lone_run : forall x y i, span_at chf x y i -> proper_region chf i -> lone chf x y i ->
  it 4 (mkEdge x y i 0) = mkEdge x y i 0 /\ (forall a, In a (run 4 (mkEdge x y i 0)) <-> exists d, (d < 4)%nat /\ a = mkEdge x y i d).
Proof.
  intros x y i A P LO. assert (OE : forall d, (d < 4)%nat -> nxt (mkEdge x y i d) = mkEdge x y i (Nat.modulo (d + 1) 4)).
  { intros d D. apply (nxt_edge chf F FF (mkEdge x y i d)). split; [exact A|]. split; [exact D|]. split; [exact P|]. now apply LO. }
  pose proof (OE 0%nat ltac:(lia)) as O0. pose proof (OE 1%nat ltac:(lia)) as O1. pose proof (OE 2%nat ltac:(lia)) as O2. pose proof (OE 3%nat ltac:(lia)) as O3.
  cbn [Nat.add Nat.modulo Nat.divmod fst snd Nat.sub] in O0, O1, O2, O3. cbn [TraceStep.it TraceStep.run]. rewrite O0, O1, O2, O3.
  split; [reflexivity|]. intros a. cbn [In]. split.
  - intros [<-|[<-|[<-|[<-|[]]]]]; eexists; (split; [|reflexivity]); lia.
  - intros (d & D & ->). destruct d as [|[|[|[|d]]]]; try lia; auto.
Qed.

Lemma two_of_loop : forall loop verts, closed_outline chf loop -> Forall2 (point_of chf) loop verts -> two_places verts.
Proof.
  intros loop verts (NE & OL & NX) F2. destruct loop as [|e l]; [contradiction|]. assert (HK : (Nat.modulo (0 + 1) (length (e :: l)) < length (e :: l))%nat) by (apply Nat.mod_upper_bound; discriminate).
  destruct (nth_error (e :: l) (Nat.modulo (0 + 1) (length (e :: l)))) as [e'|] eqn:E'; [|apply nth_error_None in E'; lia].
  destruct (NX 0%nat e e' eq_refl E') as (_ & M & _).
  assert (PT : forall a, In a (e :: l) -> exists v, In v verts /\ point_of chf a v).
  { clear - F2. revert verts F2. generalize (e :: l). induction l0 as [|b l0 IH]; intros vs F2 a I; [destruct I|]. inversion F2; subst. destruct I as [<-|I]; [exists y; split; [now left|assumption]|].
    destruct (IH _ H3 a I) as (v & I' & P). exists v. split; [now right|exact P]. }
  destruct (PT e) as (v & Iv & (Pv & _)); [now left|]. destruct (PT e') as (v' & Iv' & (Pv' & _)); [eapply nth_error_In; eauto|].
  exists v, v'. split; [exact Iv|]. split; [exact Iv'|]. unfold place. rewrite Pv, Pv', M. intros Q. symmetry in Q. exact (edge_moves e' Q).
Qed.

Lemma one_ok : forall M pre x y i post st, AS chf = pre ++ (x, y, i) :: post -> zlen pre < M -> Inv pre st ->
  exists st', contourOne chf bs M maxError maxEdgeLen buildFlags x y st i = Ok st' /\ Inv (pre ++ [(x, y, i)]) st'.
Proof.
  intros M pre x y i post [[G conts] tr] EA HM (vis & loops & FL & W & WK & ND & IN & ST & LC & FI).
  assert (A : span_at chf x y i) by (apply in_O; rewrite EA; apply in_elt). pose proof (span_range chf wf _ _ _ A) as R.
  pose proof FL as (LG & HG). destruct (HG _ _ _ A) as (BG & WG). unfold contourOne. rewrite get_dv by lia. cbn [bind].
  assert (GROW : zlen conts <= zlen (pre ++ [(x, y, i)]) /\ forall c : Contour, zlen (conts ++ [c]) <= zlen (pre ++ [(x, y, i)])).
  { unfold zlen, triple in *. rewrite !app_length. cbn [length]. split; [|intros c; rewrite app_length; cbn [length]]; lia. }
  destruct (Z.eqb_spec (dv G i) 0) as [Z0|NZ]; cbn [orb].
  { rewrite set_in_range by lia. cbn [bind]. rewrite <- Z0, upd_same by lia. eexists. split; [reflexivity|]. exists vis, loops.
    do 6 (split; [assumption|]). split; [exact (proj1 GROW)|]. intros x' y' i' d I OD FD. apply in_app_iff in I. destruct I as [I|[I|[]]]; [auto|]. injection I as -> -> ->.
    destruct (in_dec edge_eq_dec (mkEdge x' y' i' d) vis) as [Q|Q]; [exact Q|exfalso]. assert (T : Z.testbit (dv G i') (Z.of_nat d) = true) by (apply WG; [apply OD|auto]).
    rewrite Z0, Z.bits_0 in T. discriminate. }
  destruct (Z.eqb_spec (dv G i) 15) as [E15|N15]; cbn [orb].
  { rewrite set_in_range by lia. cbn [bind]. eexists. split; [reflexivity|].
    assert (ALL : forall d, (d < 4)%nat -> outline (mkEdge x y i d) /\ ~ In (mkEdge x y i d) vis).
    { intros d D. apply (WG d D). rewrite E15. destruct d as [|[|[|[|d]]]]; try lia; reflexivity. }
    assert (P : proper_region chf i) by (destruct (ALL 0%nat) as ((_ & _ & P & _) & _); [lia|exact P]).
    assert (LO : lone chf x y i) by (intros d D; destruct (ALL d D) as ((_ & _ & _ & Q) & _); exact Q).
    destruct (lone_run x y i A P LO) as (E4 & I4). assert (V0 : valid (mkEdge x y i 0)) by (apply outline_valid, ALL; lia).
    exists (vis ++ run 4 (mkEdge x y i 0)), loops. split.
    { split; [now rewrite zlen_upd|]. intros x' y' i' S. pose proof (span_range chf wf _ _ _ S) as R'. rewrite dv_upd by lia. destruct (HG x' y' i' S) as (B & WB). destruct (Z.eqb_spec i' i) as [->|NE].
      - split; [lia|]. intros d D. rewrite Z.bits_0. split; [discriminate|]. intros (_ & Q). destruct (ok_unique _ wf _ _ _ _ _ S A) as [-> ->]. destruct Q. apply in_app_iff. right. apply I4. exists d. auto.
      - split; [exact B|]. intros d D. rewrite (WB d D), in_app_iff. split; intros (X & Y); (split; [exact X|]); intros Q; apply Y; [|auto]. destruct Q as [Q|Q]; [exact Q|]. apply I4 in Q. destruct Q as (d' & _ & Q). injection Q. congruence. }
    split; [apply whole_run; auto; lia|]. split; [assumption|]. split; [assumption|]. split.
    { intros e. rewrite (IN e), in_app_iff. split; [tauto|]. intros ([Q|Q] & OE & NL); [auto|]. apply I4 in Q. destruct Q as (d & _ & ->). destruct (NL LO). }
    split; [assumption|]. split; [exact (proj1 GROW)|]. intros x' y' i' d I OD FD. apply in_app_iff. apply in_app_iff in I. destruct I as [I|[I|[]]]; [left; auto|right]. injection I as -> -> ->. apply I4. exists d. split; [apply OD|reflexivity]. }
  assert (EX : exists d, (d < 4)%nat /\ Z.testbit (dv G i) (Z.of_nat d) = true).
  { destruct (firstDir_ok (dv G i)) as (d & _ & D & T & _); [lia|]. exists d. auto. }
  destruct EX as (d1 & D1 & T1). pose proof (proj1 (proj1 (WG d1 D1) T1)) as OD1. pose proof OD1 as (_ & _ & P & _). cbn [eI] in P.
  destruct (span_get chf wf _ _ _ A) as [s S]. rewrite S. cbn [bind]. rewrite (proj2 (proper_dec chf R16 x y i s A S) P).
  rewrite (area_get chf wf i R). cbn [bind]. destruct P as (r & HR & BR).
  destruct (walk_ok chf wf mut R16 OA F FF x y i G vis r FL A ltac:(lia) HR (AM r BR) (proj2 (proj2 W))) as (G' & pts & p & d & EW & D & P0 & EP & NDR & NV & OE & FIRST & FL' & F2).
  rewrite EW. cbn [bind]. set (e := mkEdge x y i d) in *. destruct (loop_closed chf wf R16 F FF p e OE P0 EP) as (CL & l & HD).
  destruct (simpl_exists pts maxError maxEdgeLen buildFlags (two_of_loop _ _ CL F2)) as (k0 & k1 & ks & out & ES & _). rewrite ES. cbn [bind].
  destruct (degenerate_ok out) as (out' & ED & TH). rewrite ED. cbn [bind].
  assert (RES : result_of maxError maxEdgeLen buildFlags (i, pts, Closed) out') by (exists out; auto).
  assert (NLE : ~ lone chf x y i).
  { intros LO. destruct (lone_run x y i A (ex_intro _ r (conj HR BR)) LO) as (E4 & I4).
    assert (NVI : forall d', (d' < 4)%nat -> ~ In (mkEdge x y i d') vis).
    { intros d' D' Q. pose proof (proj1 (proj2 W)) as FW. apply (NV e); [apply in_run; exists 0%nat; split; [lia|reflexivity]|].
      assert (STEP : forall k, In (it k (mkEdge x y i d')) vis). { induction k as [|k IH]; [exact Q|]. cbn [TraceStep.it]. rewrite it_nxt. now apply FW. }
      assert (V' : valid (mkEdge x y i d')) by (split; [exact A|split; [exact D'|exists r; auto]]).
      assert (REACH : exists k, it k (mkEdge x y i d') = e).
      { assert (OEd : forall d, (d < 4)%nat -> nxt (mkEdge x y i d) = mkEdge x y i (Nat.modulo (d + 1) 4)).
        { intros q Dq. apply (nxt_edge chf F FF (mkEdge x y i q)). split; [exact A|]. split; [exact Dq|]. split; [exists r; auto|]. now apply LO. }
        assert (IT : forall k q, (q < 4)%nat -> it k (mkEdge x y i q) = mkEdge x y i (Nat.modulo (q + k) 4)).
        { induction k as [|k IH]; intros q Dq; cbn [TraceStep.it]; [rewrite Nat.add_0_r, Nat.mod_small by lia; reflexivity|]. rewrite OEd by exact Dq. rewrite IH by apply mod4.
          f_equal. rewrite Nat.add_mod_idemp_l by lia. f_equal. lia. }
        exists (d + 4 - d')%nat. rewrite IT by exact D'. unfold e. f_equal. replace (d' + (d + 4 - d'))%nat with (d + 1 * 4)%nat by lia. rewrite Nat.mod_add by lia. apply Nat.mod_small. exact D. }
      destruct REACH as (k & <-). apply STEP. }
    apply N15. apply flags15; [exact BG|]. intros d' D'. apply (WG d' D'). split; [|now apply NVI]. split; [exact A|]. split; [exact D'|]. split; [exists r; auto|]. now apply LO. }
  assert (NLR : forall a, In a (run p e) -> ~ alone a).
  { intros a I LO. apply in_run in I. destruct I as (j & J & ->). pose proof (proj1 (it_valid chf wf R16 F FF j e (outline_valid _ _ OE))) as VJ.
    destruct (lone_same chf wf R16 F FF (p - j) (it j e) VJ LO) as (X & Y & I). rewrite <- it_add in X, Y, I. replace (j + (p - j))%nat with p in X, Y, I by lia. rewrite EP in X, Y, I.
    apply NLE. rewrite <- X, <- Y, <- I in LO. exact LO. }
  assert (NDL : NoDup (concat (loops ++ [filter bit (run p e)]))).
  { rewrite concat_app. cbn [concat]. rewrite app_nil_r. apply NoDup_app_intro; [exact ND|now apply filter_NoDup|]. intros a I1 I2. apply IN in I1. apply filter_In in I2. exact (NV a (proj1 I2) (proj1 I1)). }
  assert (INL : forall a, In a (concat (loops ++ [filter bit (run p e)])) <-> In a (vis ++ run p e) /\ outline a /\ ~ alone a).
  { intros a. rewrite in_concat_snoc, IN, in_app_iff, filter_In. split.
    - intros [Q|[I B]]; [tauto|]. split; [auto|]. split; [|now apply NLR]. apply in_run in I. destruct I as (j & _ & ->). apply (bit_outline chf F FF); [now apply it_valid, outline_valid|exact B].
    - intros ([Q|Q] & O' & L'); [left; auto|right]. split; [exact Q|]. apply (bit_outline chf F FF); [now apply outline_valid|exact O']. }
  assert (WK' : Forall2 (walk_of chf) (loops ++ [filter bit (run p e)]) (tr ++ [(i, pts, Closed)])).
  { apply Forall2_app; [exact WK|]. constructor; [|constructor]. split; [exact CL|]. split; [exact F2|]. split; [reflexivity|]. exists e. rewrite HD. auto. }
  assert (FI' : forall x' y' i' d', In (x', y', i') (pre ++ [(x, y, i)]) -> outline (mkEdge x' y' i' d') -> (forall q, (q < d')%nat -> ~ outline (mkEdge x' y' i' q)) -> In (mkEdge x' y' i' d') (vis ++ run p e)).
  { intros x' y' i' d' I OD FD. apply in_app_iff. apply in_app_iff in I. destruct I as [I|[I|[]]]; [left; auto|]. injection I as <- <- <-.
    destruct (lt_eq_lt_dec d' d) as [[Q|Q]|Q].
    - left. now apply FIRST.
    - right. subst d'. apply in_run. exists 0%nat. split; [lia|reflexivity].
    - destruct (FD d Q OE). }
  pose proof (whole_run vis p e W (outline_valid _ _ OE) P0 EP) as W'.
  destruct (Z.leb_spec 3 (zlen out')) as [L3|L3].
  - destruct (Z.leb_spec M (zlen conts)) as [Q|_]; [unfold zlen, triple in *; lia|]. eexists. split; [reflexivity|]. exists (vis ++ run p e), (loops ++ [filter bit (run p e)]).
    do 5 (split; [assumption|]). split; [|split; [apply GROW|exact FI']].
    eapply stored_add; [exact ST|exact RES|unfold zlen in L3; lia|]. unfold contour_for. cbn [ctVerts ctRVerts ctReg ctArea fst snd].
    split; [apply map_ext; apply shift_border|]. split; [apply map_ext; apply shift_border|]. split; [exists s; auto|apply area_get; assumption].
  - eexists. split; [reflexivity|]. exists (vis ++ run p e), (loops ++ [filter bit (run p e)]). do 5 (split; [assumption|]). split; [|split; [exact (proj1 GROW)|exact FI']].
    eapply stored_skip; [exact ST|exact RES|unfold zlen in L3; lia].
Qed.

Lemma whole_all : forall vis, whole vis ->
  (forall x y i d, outline (mkEdge x y i d) -> (forall d', (d' < d)%nat -> ~ outline (mkEdge x y i d')) -> In (mkEdge x y i d) vis) ->
  forall e, outline e -> In e vis.
Proof.
  intros vis (V & FW & _) H e OE. pose proof (outline_valid _ _ OE) as VE. destruct OE as (A & D & (r & HR & BR) & G0). assert (OE : outline e) by (repeat split; try assumption; try apply A; exists r; auto).
  destruct (period chf wf mut R16 F FF r e OE HR (AM r BR)) as (p & P & E & _). destruct (has_start chf wf mut R16 F FF p e OE ltac:(lia) E) as (a & I & OAa & FA).
  apply in_run in I. destruct I as (j & J & ->). set (b := it j e) in *. assert (IB : In b vis) by (rewrite <- (Edge_eq b); apply H; [rewrite Edge_eq; exact OAa|exact FA]).
  assert (E2 : it (p - j) b = e). { unfold b. rewrite <- it_add. replace (j + (p - j))%nat with p by lia. exact E. }
  rewrite <- E2. clear E2. induction (p - j)%nat as [|k IH]; [exact IB|]. cbn [TraceStep.it]. rewrite it_nxt. now apply FW.
Qed.

Lemma all_ok : forall M, zlen (AS chf) < M -> exists G conts tr loops,
  foldM (fun st (t : triple) => contourOne chf bs M maxError maxEdgeLen buildFlags (fst (fst t)) (snd (fst t)) st (snd t)) (AS chf) (F, [], []) = Ok (G, conts, tr) /\
  Forall2 (walk_of chf) loops tr /\ NoDup (concat loops) /\ (forall e, In e (concat loops) <-> outline e /\ ~ alone e) /\
  stored chf bs maxError maxEdgeLen buildFlags tr conts.
Proof.
  intros M HM. destruct (foldM_inv (fun st (t : triple) => contourOne chf bs M maxError maxEdgeLen buildFlags (fst (fst t)) (snd (fst t)) st (snd t)) Inv (AS chf) (F, [], [])) as ([[G conts] tr] & E & I).
  - exists [], []. split; [exact FF|]. split; [split; [intros a []|split; [intros a []|intros a _ []]]|]. split; [constructor|]. split; [constructor|].
    split; [intros e; cbn [concat In]; tauto|]. split; [constructor|]. split; [unfold zlen; cbn; lia|]. intros x y i d [].
  - intros pre [[x y] i] post st EA I. cbn [fst snd]. eapply one_ok; eauto. rewrite EA in HM. unfold zlen, triple in *. rewrite app_length in HM. cbn [length] in HM. lia.
  - destruct I as (vis & loops & FL & W & WK & ND & IN & ST & _ & FI). exists G, conts, tr, loops. split; [exact E|]. split; [exact WK|]. split; [exact ND|]. split; [|exact ST].
    intros e. rewrite IN. split; [tauto|]. intros (OE & NL). split; [|auto]. apply (whole_all vis W); [|exact OE]. intros x y i d OD FD. apply FI; [|exact OD|exact FD]. apply in_O. apply OD.
Qed.

(** With a limit the result is the same or a panic. *)
Lemma one_limit : forall M m t st G conts tr, contourOne chf bs M maxError maxEdgeLen buildFlags (fst (fst t)) (snd (fst t)) st (snd t) = Ok (G, conts, tr) ->
  zlen (snd (fst st)) <= m ->
  zlen (snd (fst st)) <= zlen conts /\
  contourOne chf bs m maxError maxEdgeLen buildFlags (fst (fst t)) (snd (fst t)) st (snd t) = if zlen conts <=? m then Ok (G, conts, tr) else Panic.
Proof.
  intros M m [[x y] i] [[G0 c0] tr0] G conts tr E LM. cbn [fst snd] in *. unfold contourOne in *. destruct (get G0 i) as [f| | |]; try discriminate. cbn [bind] in *.
  destruct ((f =? 0) || (f =? 15)).
  { destruct (set G0 i 0) as [G1| | |]; try discriminate. cbn [bind] in *. apply Ok_inj in E. injection E as <- <- <-. split; [lia|]. now rewrite (proj2 (Z.leb_le _ _) LM). }
  destruct (get (chf_spans chf) i) as [s| | |]; try discriminate. cbn [bind] in *. destruct ((csReg s =? 0) || isBorder (csReg s)).
  { apply Ok_inj in E. injection E as <- <- <-. split; [lia|]. now rewrite (proj2 (Z.leb_le _ _) LM). }
  destruct (get (chf_areas chf) i) as [a| | |]; try discriminate. cbn [bind] in *. destruct (walkContour2 x y i chf G0) as [[[G1 vs] e]| | |]; try discriminate. cbn [bind] in *.
  destruct (simplifyContour vs maxError maxEdgeLen buildFlags) as [simp| | |]; try discriminate. cbn [bind] in *.
  destruct (removeDegenerateSegments simp) as [simp'| | |]; try discriminate. cbn [bind] in *. destruct (3 <=? zlen simp').
  - destruct (M <=? zlen c0); [discriminate|]. apply Ok_inj in E. injection E as <- <- <-. rewrite zlen_snoc. split; [lia|].
    destruct (Z.leb_spec m (zlen c0)), (Z.leb_spec (zlen c0 + 1) m); try lia; reflexivity.
  - apply Ok_inj in E. injection E as <- <- <-. split; [lia|]. now rewrite (proj2 (Z.leb_le _ _) LM).
Qed.
Lemma all_limit : forall M m l st G conts tr,
  foldM (fun st (t : triple) => contourOne chf bs M maxError maxEdgeLen buildFlags (fst (fst t)) (snd (fst t)) st (snd t)) l st = Ok (G, conts, tr) -> zlen (snd (fst st)) <= m ->
  zlen (snd (fst st)) <= zlen conts /\
  foldM (fun st (t : triple) => contourOne chf bs m maxError maxEdgeLen buildFlags (fst (fst t)) (snd (fst t)) st (snd t)) l st = if zlen conts <=? m then Ok (G, conts, tr) else Panic.
Proof.
  intros M m. induction l as [|t l IH]; intros st G conts tr E LM; cbn [foldM] in *.
  { apply Ok_inj in E. subst st. cbn [fst snd] in *. split; [lia|]. now rewrite (proj2 (Z.leb_le _ _) LM). }
  apply bind_ok in E. destruct E as ([[G1 c1] tr1] & E1 & E). destruct (one_limit M m t st G1 c1 tr1 E1 LM) as [L1 X]. rewrite X.
  destruct (Z.leb_spec (zlen c1) m) as [L2|L2]; cbn [bind].
  - destruct (IH (G1, c1, tr1) G conts tr E L2) as [L3 Y]. cbn [fst snd] in L3. split; [lia|exact Y].
  - assert (L3 : zlen c1 <= zlen conts). { apply (foldM_ok_inv _ (fun _ st => zlen c1 <= zlen (snd (fst st))) l _ _ E); cbn [fst snd]; [lia|].
      intros pre a post s0 [[s1 s2] s3] _ Q E0. destruct (one_limit M (zlen (snd (fst s0))) a s0 _ _ _ E0 ltac:(lia)) as [Q2 _]. cbn [fst snd]. lia. }
    split; [lia|]. destruct (Z.leb_spec (zlen conts) m); [lia|reflexivity].
Qed.
End CHF.

Lemma no_holes : forall conts, countHoles conts = 0.
Proof.
  intros conts. unfold countHoles. replace (filter _ conts) with (@nil Contour); [reflexivity|]. induction conts as [|c l IH]; [reflexivity|]. cbn [filter].
  replace ((if calcAreaOfPolygon2D (ctVerts c) <? 0 then 255 else 1) <? 0) with false; [exact IH|]. destruct (calcAreaOfPolygon2D (ctVerts c) <? 0); reflexivity.
Qed.

Theorem contours_all : forall chf bs maxRegions maxError maxEdgeLen buildFlags, chf_wf chf -> mutual chf -> regions16 chf -> one_area chf ->
  (forall r, 0 < r < 32768 -> short_outlines chf r) ->
  exists loops tr conts, Forall2 (walk_of chf) loops tr /\ NoDup (concat loops) /\
    (forall e, In e (concat loops) <-> outline chf e /\ ~ lone chf (eX e) (eY e) (eI e)) /\
    stored chf bs maxError maxEdgeLen buildFlags tr conts /\
    BuildContours chf bs maxRegions maxError maxEdgeLen buildFlags = if zlen conts <=? Z.max maxRegions 8 then Ok (conts, tr) else Panic.
Proof.
  intros chf bs mr me mel bf wf mut R16 OA AM. destruct (mark_ok chf wf R16) as (F & EF & FF).
  destruct (all_ok chf wf mut R16 OA AM F FF bs me mel bf (zlen (AS chf) + 1) ltac:(lia)) as (G & conts & tr & loops & E & WK & ND & IN & ST).
  exists loops, tr, conts. do 4 (split; [assumption|]). unfold BuildContours. rewrite EF. cbn [bind]. rewrite eachSpan_order by (exact wf || apply rect_cells). fold (AS chf).
  rewrite iMax_max. assert (L0 : zlen (@nil Contour) <= Z.max mr 8) by (unfold zlen; cbn; lia).
  rewrite (proj2 (all_limit chf bs me mel bf _ (Z.max mr 8) _ _ _ _ _ E L0)). destruct (zlen conts <=? Z.max mr 8); [|reflexivity]. cbn [bind]. rewrite no_holes. reflexivity.
Qed.
