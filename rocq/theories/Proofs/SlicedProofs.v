(** Slices of a sliced search can be joined. *)
From Coq Require Import ZArith List Lia Bool.
From Verif.Base Require Import Res GoNum F32 Num Grid.
From Verif.Model Require Import Status Poly PolyRef MeshTypes Geom MeshLinks MeshTiles Node NodeQueue FindPath Raycast StraightPath Sliced.
Import ListNotations.
Open Scope Z_scope.

(** ** The flag "out of nodes" is only collected *)
Definition or_out (o : bool) (s : Search) : Search := mkSearch (sPool s) (sOpen s) (sBest s) (sBestCost s) (o || sOut s).
Definition rmap {A B} (f : A -> B) (r : res A) : res B := bind r (fun a => Ok (f a)).
Lemma rmap_bind : forall {A B C} (f : B -> C) (r : res A) (g : A -> res B), rmap f (bind r g) = bind r (fun a => rmap f (g a)).
Proof. intros A B C f [a| | |] g; reflexivity. Qed.
Lemma bind_rmap : forall {A B C} (f : A -> B) (r : res A) (g : B -> res C), bind (rmap f r) g = bind r (fun a => g (f a)).
Proof. intros A B C f [a| | |] g; reflexivity. Qed.
Lemma bind_ext : forall {A B} (r : res A) (f g : A -> res B), (forall a, f a = g a) -> bind r f = bind r g.
Proof. intros A B [a| | |] f g H; cbn [bind]; auto. Qed.

Ltac step := match goal with |- bind ?r _ = rmap _ (bind ?r _) => rewrite rmap_bind; apply bind_ext; intros ? end.
Lemma relax_out : forall o s b k ref short cost h, relax_sliced (or_out o s) b k ref short cost h = rmap (or_out o) (relax_sliced s b k ref short cost h).
Proof.
  intros. unfold relax_sliced. cbn [or_out sPool sOpen sBest sBestCost sOut]. step. match goal with |- (if ?c then _ else _) = _ => destruct c end; [reflexivity|].
  step. step. step. destruct (F32.flt h (sBestCost s)); reflexivity.
Qed.
Lemma visit_out : forall rf m flt er ep b br bt bp par pk g los o s l,
  visit_sliced rf m flt er ep b br bt bp par pk g los (or_out o s) l = rmap (or_out o) (visit_sliced rf m flt er ep b br bt bp par pk g los s l).
Proof.
  intros. unfold visit_sliced. cbv zeta. destruct ((lRef l =? 0) || (lRef l =? fst par)); [reflexivity|]. step. destruct a as [nt npoly].
  destruct (negb (qPass flt (lRef l) nt npoly)); [reflexivity|]. cbn [or_out sPool]. step. destruct a as [np [k|]].
  2:{ cbn [rmap bind or_out sOpen sBest sBestCost sOut]. unfold or_out. cbn. destruct o; reflexivity. }
  step. step. destruct (negb (nPIdx a =? 0) && (nPIdx a =? nPIdx a0)); [reflexivity|]. step. step. step. step. destruct a4 as [short sc]. step. step. destruct a5 as [cost h].
  change (set_pool (or_out o s) a1) with (or_out o (set_pool s a1)). apply relax_out.
Qed.
Lemma each_out : forall {A} (f : A -> A) (body : A -> Link -> res A) L, (forall s l, body (f s) l = rmap f (body s l)) ->
  forall fuel i s, each_link fuel L body i (f s) = rmap f (each_link fuel L body i s).
Proof.
  intros A f body L H fuel. induction fuel as [|n IH]; intros i s; cbn [each_link]; destruct (i =? nullLink); try reflexivity.
  step. rewrite H. rewrite bind_rmap, rmap_bind. apply bind_ext. intros s'. apply IH.
Qed.
Lemma pop_out : forall o s, pop_best (or_out o s) = rmap (fun x => (or_out o (fst x), snd x)) (pop_best s).
Proof. intros. unfold pop_best. cbn [or_out sPool sOpen sBest sBestCost sOut]. step. destruct a as [q b]. step. reflexivity. Qed.
Lemma step_out : forall rf m r o s, slice_step rf m r (or_out o s) = rmap (fun x => (or_out o (fst x), snd x)) (slice_step rf m r s).
Proof.
  intros. unfold slice_step. rewrite pop_out, bind_rmap, rmap_bind. apply bind_ext. intros [s1 b]. cbn [fst snd]. change (sPool (or_out o s1)) with (sPool s1). step.
  destruct (nID a =? qEndRef r); [reflexivity|]. step. destruct a0 as [[bt bp]|]; [|reflexivity]. step. destruct a0 as [[[par pk] g]|]; [|reflexivity]. step.
  rewrite (each_out (or_out o)) by (intros; apply visit_out). rewrite bind_rmap, rmap_bind. apply bind_ext. intros s2. reflexivity.
Qed.
Lemma loop_out : forall rf m r o n s, slice_loop n rf m r (or_out o s) = rmap (fun x => (or_out o (fst (fst x)), snd (fst x), snd x)) (slice_loop n rf m r s).
Proof.
  intros rf m r o n. induction n as [|n IH]; intros s; cbn [slice_loop]; [reflexivity|]. change (sOpen (or_out o s)) with (sOpen s). destruct (q_empty (sOpen s)); [reflexivity|].
  rewrite step_out, bind_rmap, rmap_bind. apply bind_ext. intros [s1 st]. cbn [fst snd]. destruct st; [|reflexivity|reflexivity].
  rewrite IH, bind_rmap, rmap_bind. apply bind_ext. intros [[s2 i] o2]. reflexivity.
Qed.

(** ** Two runs of the loop *)
Lemma loop_join : forall rf m r n1 n2 s, slice_loop (n1 + n2) rf m r s =
  bind (slice_loop n1 rf m r s) (fun x => let '(s1, i1, o1) := x in
    match o1 with GoOn => bind (slice_loop n2 rf m r s1) (fun y => let '(s2, i2, o2) := y in Ok (s2, i1 + i2, o2)) | _ => Ok (s1, i1, o1) end).
Proof.
  intros rf m r n1. induction n1 as [|n1 IH]; intros n2 s.
  - cbn [plus slice_loop bind]. destruct (slice_loop n2 rf m r s) as [[[s2 i2] o2]| | |]; reflexivity.
  - cbn [plus slice_loop]. destruct (q_empty (sOpen s)) eqn:E.
    + cbn [bind]. destruct n2; cbn [slice_loop]; [reflexivity|]. rewrite E. reflexivity.
    + destruct (slice_step rf m r s) as [[s1 o]| | |]; cbn [bind]; try reflexivity. destruct o; cbn [bind]; try reflexivity.
      rewrite IH. destruct (slice_loop n1 rf m r s1) as [[[s2 i2] o2]| | |]; cbn [bind]; try reflexivity. destruct o2; cbn [bind]; try reflexivity.
      destruct (slice_loop n2 rf m r s2) as [[[s3 i3] o3]| | |]; cbn [bind]; try reflexivity. replace (i2 + 1 + i3) with (i2 + i3 + 1) by lia. reflexivity.
Qed.
(** After [GoOn] with iterations left the open list is empty. *)
Lemma loop_stop : forall rf m r n s s1 i, slice_loop n rf m r s = Ok (s1, i, GoOn) -> q_empty (sOpen s1) = true -> forall k, slice_loop k rf m r s1 = Ok (s1, 0, GoOn).
Proof. intros rf m r n s s1 i _ E k. destruct k; cbn [slice_loop]; [reflexivity|]. rewrite E. reflexivity. Qed.

(** ** Status *)
Lemma out_progress : forall st o, StatusInProgress (with_out st o) = StatusInProgress st.
Proof. intros st [|]; [|reflexivity]. unfold with_out, StatusInProgress. rewrite Z.land_lor_distr_l. change (Z.land OutOfNodes InProgress) with 0. rewrite Z.lor_0_r. reflexivity. Qed.
Lemma ended_progress : forall st, StatusInProgress (Z.lor Success (Z.land st StatusDetailMask)) = false.
Proof.
  intros st. unfold StatusInProgress. rewrite Z.land_lor_distr_l, <- Z.land_assoc. change (Z.land Success InProgress) with 0. change (Z.land StatusDetailMask InProgress) with 0.
  rewrite Z.land_0_r. reflexivity.
Qed.
Lemma with_out_twice : forall st a b, with_out (with_out st a) b = with_out st (a || b).
Proof. intros st [|] [|]; cbn [with_out orb]; try reflexivity. rewrite <- Z.lor_assoc. reflexivity. Qed.

Definition add_done (a b : option Z) : option Z := match a, b with None, _ => b | Some x, None => Some x | Some x, Some y => Some (x + y) end.

Lemma or_out_false : forall s, or_out false s = s.
Proof. intros [a b c d e]. reflexivity. Qed.
Lemma search_eta : forall s, mkSearch (sPool s) (sOpen s) (sBest s) (sBestCost s) (sOut s) = s.
Proof. intros [a b c d e]. reflexivity. Qed.
Lemma or_out_fresh : forall s, s = or_out (sOut s) (mkSearch (sPool s) (sOpen s) (sBest s) (sBestCost s) false).
Proof. intros [a b c d e]. unfold or_out. cbn. rewrite orb_false_r. reflexivity. Qed.

Lemma update_join : forall rf m q k1 k2, 0 <= k1 -> 0 <= k2 ->
  bind (UpdateSlicedFindPath rf m q k1) (fun x => let '(q1, _, d1) := x in
    bind (UpdateSlicedFindPath rf m q1 k2) (fun y => let '(q2, st, d2) := y in Ok (q2, st, add_done d1 d2))) = UpdateSlicedFindPath rf m q (k1 + k2).
Proof.
  intros rf m q k1 k2 H1 H2. unfold UpdateSlicedFindPath at 1 3. destruct (StatusInProgress (qStatus q)) eqn:EP; cbn [negb].
  2:{ cbn [bind]. unfold UpdateSlicedFindPath. rewrite EP. reflexivity. }
  destruct (qReq q) as [r|] eqn:ER; cbn [of_option bind]; [|reflexivity].
  destruct (IsValidPolyRef m (qStartRef r)) as [vs| | |] eqn:EV; cbn [bind]; try reflexivity.
  destruct (if vs then IsValidPolyRef m (qEndRef r) else Ok false) as [ve| | |] eqn:EW; cbn [bind]; try reflexivity.
  destruct (negb vs || negb ve) eqn:EN; [reflexivity|]. rewrite Z2Nat.inj_add by assumption. rewrite loop_join.
  set (s0 := mkSearch (qPool q) (qOpen q) (qBest q) (qBestCost q) false).
  destruct (slice_loop (Z.to_nat k1) rf m r s0) as [[[s1 i1] o1]| | |] eqn:E1; cbn [bind]; try reflexivity.
  set (st1 := with_out (qStatus q) (sOut s1)).
  destruct o1.
  2:{ cbn [bind]. unfold UpdateSlicedFindPath. cbn [qStatus]. rewrite ended_progress. reflexivity. }
  2:{ reflexivity. }
  destruct (q_empty (sOpen s1)) eqn:EE.
  { rewrite (loop_stop _ _ _ _ _ _ _ E1 EE). cbn [bind]. rewrite EE. unfold UpdateSlicedFindPath. cbn [qStatus]. rewrite ended_progress. cbn [negb bind add_done]. rewrite Z.add_0_r. reflexivity. }
  unfold UpdateSlicedFindPath. cbn [qStatus qReq qPool qOpen qBest qBestCost]. unfold st1 at 1. rewrite out_progress, EP. cbn [negb of_option bind].
  rewrite EV. cbn [bind]. rewrite EW. cbn [bind]. rewrite EN.
  replace (slice_loop (Z.to_nat k2) rf m r s1) with (slice_loop (Z.to_nat k2) rf m r (or_out (sOut s1) (mkSearch (sPool s1) (sOpen s1) (sBest s1) (sBestCost s1) false))) by (rewrite <- or_out_fresh; reflexivity).
  rewrite loop_out, bind_rmap.
  destruct (slice_loop (Z.to_nat k2) rf m r _) as [[[s2 i2] o2]| | |]; cbn [bind]; try reflexivity. cbn [fst snd or_out sPool sOpen sBest sBestCost sOut add_done].
  unfold st1. rewrite with_out_twice. reflexivity.
Qed.

(** ** Raycast does not read normal, edge and count *)
Definition alike (h h' : RaycastHit) : Prop := rT h = rT h' /\ rPath h = rPath h' /\ rMaxPath h = rMaxPath h' /\ rCost h = rCost h'.
Definition rsame (x y : res (RaycastHit * Z)) : Prop :=
  match x, y with Ok (h, st), Ok (h', st') => alike h h' /\ st = st' | Panic, Panic => True | Exit, Exit => True | NoFuel, NoFuel => True | _, _ => False end.
Lemma rsame_bind : forall {A} (r : res A) f g, (forall a, rsame (f a) (g a)) -> rsame (bind r f) (bind r g).
Proof. intros A [a| | |] f g H; cbn [bind]; try exact Logic.I. apply H. Qed.
Lemma ray_alike : forall fuel m flt a b opt n st cur tp prev nx pos h h', alike h h' ->
  rsame (ray_loop fuel m flt a b opt h n st cur tp prev nx pos) (ray_loop fuel m flt a b opt h' n st cur tp prev nx pos).
Proof.
  induction fuel as [|f IH]; intros m flt a b opt n st cur tp prev nx pos h h' (A1 & A2 & A3 & A4); cbn [ray_loop].
  - destruct (cur =? 0); [|exact Logic.I]. split; [|reflexivity]. repeat split; assumption.
  - destruct (cur =? 0). { split; [|reflexivity]. repeat split; assumption. }
    destruct tp as [t p]. apply rsame_bind. intros vs. destruct (IntersectSegmentPoly2D numF a b vs) as [sp ok]. destruct (negb ok). { split; [|reflexivity]. repeat split; assumption. }
    cbv zeta. set (g := if fgt (spMax sp) (rT (hit_edge (spSegMax sp) h)) then _ else _). set (g' := if fgt (spMax sp) (rT (hit_edge (spSegMax sp) h')) then _ else _).
    assert (G : alike g g').
    { unfold g, g'. cbn [hit_edge rT]. rewrite A1. destruct (fgt (spMax sp) (rT h')); repeat split; try assumption; reflexivity. }
    clearbody g g'. clear h h' A1 A2 A3 A4. destruct G as (A1 & A2 & A3 & A4). rewrite A2, A3.
    assert (K : forall g g' n st, alike g g' ->
      rsame (if spSegMax sp =? -1 then
               if use_costs opt then let* c := qCost flt pos b prev (cur, Some (t, p)) (cur, Some (t, p)) in Ok (hit_add_cost c (hit_count n (hit_T maxFloat32 g)), st)
               else Ok (hit_count n (hit_T maxFloat32 g), st)
             else let* (nref, nx) := ray_link (link_fuel (tdLinks (tD t))) m flt a b sp t p (pFirstLink p) nx in
               let* (hit, pos) := (if use_costs opt then let* pos' := leave_point a b (rT g) vs (spSegMax sp) in let* c := qCost flt pos pos' prev (cur, Some (t, p)) (nref, Some nx) in Ok (hit_add_cost c g, pos') else Ok (g, pos)) in
               if nref =? 0 then let* nrm := wall_normal vs (spSegMax sp) in Ok (hit_count n (hit_normal nrm hit), st)
               else ray_loop f m flt a b opt hit n st nref nx (cur, Some (t, p)) nx pos)
            (if spSegMax sp =? -1 then
               if use_costs opt then let* c := qCost flt pos b prev (cur, Some (t, p)) (cur, Some (t, p)) in Ok (hit_add_cost c (hit_count n (hit_T maxFloat32 g')), st)
               else Ok (hit_count n (hit_T maxFloat32 g'), st)
             else let* (nref, nx) := ray_link (link_fuel (tdLinks (tD t))) m flt a b sp t p (pFirstLink p) nx in
               let* (hit, pos) := (if use_costs opt then let* pos' := leave_point a b (rT g') vs (spSegMax sp) in let* c := qCost flt pos pos' prev (cur, Some (t, p)) (nref, Some nx) in Ok (hit_add_cost c g', pos') else Ok (g', pos)) in
               if nref =? 0 then let* nrm := wall_normal vs (spSegMax sp) in Ok (hit_count n (hit_normal nrm hit), st)
               else ray_loop f m flt a b opt hit n st nref nx (cur, Some (t, p)) nx pos)).
    { clear g g' n st A1 A2 A3 A4. intros g g' n st (A1 & A2 & A3 & A4). destruct (spSegMax sp =? -1).
      - destruct (use_costs opt); [apply rsame_bind; intros c|]; (split; [|reflexivity]); repeat split; cbn; try assumption; try reflexivity. now rewrite A4.
      - apply rsame_bind. intros [nref nx']. rewrite A1. destruct (use_costs opt); cbn [bind].
        + destruct (leave_point a b (rT g') vs (spSegMax sp)) as [pos'| | |]; cbn [bind]; try exact Logic.I. destruct (qCost flt pos pos' prev (cur, Some (t, p)) (nref, Some nx')) as [c| | |]; cbn [bind]; try exact Logic.I.
          assert (G : alike (hit_add_cost c g) (hit_add_cost c g')) by (repeat split; cbn; try assumption; now rewrite A4).
          destruct (nref =? 0); [|apply IH; exact G]. apply rsame_bind. intros nrm. split; [|reflexivity]. destruct G as (B1 & B2 & B3 & B4). repeat split; assumption.
        + destruct (nref =? 0); [|apply IH; repeat split; assumption]. apply rsame_bind. intros nrm. split; [|reflexivity]. repeat split; assumption. }
    destruct (n <? rMaxPath g').
    + destruct (set (rPath g') n cur) as [path| | |]; cbn [bind]; try exact Logic.I. apply K. repeat split; cbn; try assumption; reflexivity.
    + cbn [bind]. apply K. repeat split; assumption.
Qed.
