From Coq Require Import ZArith List Bool Lia Permutation.
From Verif.Base Require Import Res GoNum F32 Num Grid Bytes.
From Verif.Model Require Import Status Poly PolyRef Bounds Geom MeshTypes MeshLinks MeshTiles BvTree TileQuery.
From Verif.Spec Require Import BvSpec QuerySpec.
From Verif.Proofs Require Import BasicsProofs BvProofs.
Import ListNotations.
Open Scope Z_scope.

(** * Overlap of quantized boxes *)
Lemma overlap3_iff : forall a b c d, OverlapQuantBounds a b c d = true <-> overlaps3 a b c d.
Proof.
  intros [[an0 an1] an2] [[ax0 ax1] ax2] [[bn0 bn1] bn2] [[bx0 bx1] bx2].
  unfold OverlapQuantBounds, overlaps3, le3, c0, c1, c2.
  destruct (Z.gtb_spec an0 bx0), (Z.ltb_spec ax0 bn0); cbn [orb]; try (split; [discriminate|lia]).
  destruct (Z.gtb_spec an1 bx1), (Z.ltb_spec ax1 bn1); cbn [orb]; try (split; [discriminate|lia]).
  destruct (Z.gtb_spec an2 bx2), (Z.ltb_spec ax2 bn2); cbn [orb]; try (split; [discriminate|lia]).
  split; [lia|reflexivity].
Qed.

Lemma enclosed_overlap : forall qmin qmax mn mx it, encloses mn mx it ->
  OverlapQuantBounds qmin qmax mn mx = false -> OverlapQuantBounds qmin qmax (iMin it) (iMax it) = false.
Proof.
  intros qmin qmax mn mx it [A B] F.
  destruct (OverlapQuantBounds qmin qmax (iMin it) (iMax it)) eqn:E; [|reflexivity].
  rewrite <- F. symmetry. apply overlap3_iff. apply overlap3_iff in E.
  unfold overlaps3, le3 in *. lia.
Qed.

Definition ov (qmin qmax : Z * Z * Z) (it : bvItem) : bool := OverlapQuantBounds qmin qmax (iMin it) (iMax it).

Lemma filter_none : forall {A} (f : A -> bool) l, (forall x, In x l -> f x = false) -> filter f l = [].
Proof.
  induction l as [|x l IH]; intros H; [reflexivity|].
  cbn [filter]. rewrite H by (left; reflexivity). apply IH. intros. apply H. right. assumption.
Qed.

(** * Traces: what a query does with a callback is a list of calls and an outcome *)
Lemma run_calls_app : forall {S} (process : S -> MeshTile -> list Z -> Z -> res S) a b s,
  run_calls process (a ++ b) s = let* s := run_calls process a s in run_calls process b s.
Proof. intros. apply foldM_app. Qed.

Lemma bind_assoc : forall {A B C} (x : res A) (f : A -> res B) (g : B -> res C),
  bind (bind x f) g = bind x (fun a => bind (f a) g).
Proof. intros A B C [a| | |] f g; reflexivity. Qed.

Definition Proc (S : Type) := S -> MeshTile -> list Z -> Z -> res S.
Definition okcall (c : Call) : Prop := let '(_, refs, n) := c in 0 <= n <= zlen refs.
Definition okst (n : Z) (refs : list Z) : Prop := 0 <= n < 32 /\ zlen refs = 32.
Definition traced (F : forall S, Proc S -> S -> res S) : Prop :=
  exists calls (o : res unit), Forall okcall calls /\ forall S (process : Proc S) s,
    F S process s = let* s := run_calls process calls s in let* _ := o in Ok s.
Definition traced2 (F : forall S, Proc S -> S -> res (Z * list Z * S)) : Prop :=
  exists calls (o : res (Z * list Z)), Forall okcall calls /\ (forall n refs, o = Ok (n, refs) -> okst n refs) /\
  forall S (process : Proc S) s,
    F S process s = let* s := run_calls process calls s in let* (n, refs) := o in Ok (n, refs, s).

Lemma traced_ret : traced (fun S _ s => Ok s).
Proof. exists [], (Ok tt). split; [constructor|reflexivity]. Qed.
Lemma traced_fail : forall (o : forall S, res S),
  (forall S, o S = Panic) \/ (forall S, o S = Exit) \/ (forall S, o S = NoFuel) -> traced (fun S _ s => o S).
Proof.
  intros o [H|[H|H]]; [exists [], Panic|exists [], Exit|exists [], NoFuel]; (split; [constructor|]); intros; rewrite H; reflexivity.
Qed.
Lemma traced_seq : forall F G, traced F -> traced G ->
  traced (fun S process s => let* s := F S process s in G S process s).
Proof.
  intros F G (ca & oa & Va & Ha) (cb & ob & Vb & Hb). destruct oa as [[]| | |].
  - exists (ca ++ cb), ob. split; [apply Forall_app; auto|]. intros S process s. rewrite Ha, run_calls_app, !bind_assoc.
    destruct (run_calls process ca s) as [s1| | |]; cbn [bind]; try reflexivity. apply Hb.
  - exists ca, Panic. split; [exact Va|]. intros S process s. rewrite Ha. destruct (run_calls process ca s); reflexivity.
  - exists ca, Exit. split; [exact Va|]. intros S process s. rewrite Ha. destruct (run_calls process ca s); reflexivity.
  - exists ca, NoFuel. split; [exact Va|]. intros S process s. rewrite Ha. destruct (run_calls process ca s); reflexivity.
Qed.
Lemma traced_foldM : forall {A} (F : forall S, Proc S -> S -> A -> res S) (l : list A),
  (forall a, traced (fun S process s => F S process s a)) ->
  traced (fun S process s => foldM (F S process) l s).
Proof.
  intros A F l H. induction l as [|a l IH]; [apply traced_ret|].
  cbn [foldM]. exact (traced_seq _ _ (H a) IH).
Qed.
Lemma traced_bind : forall {A} (x : res A) (F : A -> forall S, Proc S -> S -> res S),
  (forall a, traced (F a)) -> traced (fun S process s => let* a := x in F a S process s).
Proof.
  intros A [a| | |] F H; cbn [bind]; [apply H| | |].
  - apply (traced_fail (fun S => Panic)). tauto.
  - apply (traced_fail (fun S => Exit)). tauto.
  - apply (traced_fail (fun S => NoFuel)). tauto.
Qed.

Lemma traced2_ret : forall n refs, okst n refs -> traced2 (fun S _ s => Ok (n, refs, s)).
Proof. intros n refs H. exists [], (Ok (n, refs)). split; [constructor|]. split; [|reflexivity]. intros n' refs' E. apply Ok_inj in E. injection E as <- <-. exact H. Qed.
Lemma traced2_bind : forall {A} (x : res A) (F : A -> forall S, Proc S -> S -> res (Z * list Z * S)),
  (forall a, x = Ok a -> traced2 (F a)) -> traced2 (fun S process s => let* a := x in F a S process s).
Proof.
  intros A [a| | |] F H; cbn [bind]; [apply H; reflexivity| | |].
  - exists [], Panic. split; [constructor|]. split; [discriminate|reflexivity].
  - exists [], Exit. split; [constructor|]. split; [discriminate|reflexivity].
  - exists [], NoFuel. split; [constructor|]. split; [discriminate|reflexivity].
Qed.
Lemma traced2_seq : forall F (G : forall S, Proc S -> Z * list Z * S -> res (Z * list Z * S)),
  traced2 F -> (forall n refs, okst n refs -> traced2 (fun S process s => G S process (n, refs, s))) ->
  traced2 (fun S process s => let* st := F S process s in G S process st).
Proof.
  intros F G (ca & oa & Va & Oa & Ha) H. destruct oa as [[n refs]| | |].
  - destruct (H n refs (Oa n refs eq_refl)) as (cb & ob & Vb & Ob & Hb). exists (ca ++ cb), ob.
    split; [apply Forall_app; auto|]. split; [exact Ob|].
    intros S process s. rewrite Ha, run_calls_app, !bind_assoc.
    destruct (run_calls process ca s) as [s1| | |]; cbn [bind]; try reflexivity. apply Hb.
  - exists ca, Panic. split; [exact Va|]. split; [discriminate|]. intros S process s. rewrite Ha. destruct (run_calls process ca s); reflexivity.
  - exists ca, Exit. split; [exact Va|]. split; [discriminate|]. intros S process s. rewrite Ha. destruct (run_calls process ca s); reflexivity.
  - exists ca, NoFuel. split; [exact Va|]. split; [discriminate|]. intros S process s. rewrite Ha. destruct (run_calls process ca s); reflexivity.
Qed.
Lemma traced2_end : forall F (G : forall S, Proc S -> Z * list Z * S -> res S),
  traced2 F -> (forall n refs, okst n refs -> traced (fun S process s => G S process (n, refs, s))) ->
  traced (fun S process s => let* st := F S process s in G S process st).
Proof.
  intros F G (ca & oa & Va & Oa & Ha) H. destruct oa as [[n refs]| | |].
  - destruct (H n refs (Oa n refs eq_refl)) as (cb & ob & Vb & Hb). exists (ca ++ cb), ob.
    split; [apply Forall_app; auto|].
    intros S process s. rewrite Ha, run_calls_app, !bind_assoc.
    destruct (run_calls process ca s) as [s1| | |]; cbn [bind]; try reflexivity. apply Hb.
  - exists ca, Panic. split; [exact Va|]. intros S process s. rewrite Ha. destruct (run_calls process ca s); reflexivity.
  - exists ca, Exit. split; [exact Va|]. intros S process s. rewrite Ha. destruct (run_calls process ca s); reflexivity.
  - exists ca, NoFuel. split; [exact Va|]. intros S process s. rewrite Ha. destruct (run_calls process ca s); reflexivity.
Qed.

Section Filter.
Variable pass : Z -> MeshTile -> Poly -> bool.

Lemma emit_traced : forall t ref n refs, okst n refs -> traced2 (fun S process s => emit process t (n, refs, s) ref).
Proof.
  intros t ref n refs [Hn Hr]. unfold emit.
  apply (traced2_bind (set refs n ref) (fun refs S process s =>
    if n =? batchSize - 1 then let* s0 := process s t refs batchSize in Ok (0, refs, s0) else Ok (n + 1, refs, s))).
  intros refs' E. pose proof (set_zlen _ _ _ _ E) as Hl.
  destruct (Z.eqb_spec n (batchSize - 1)).
  - exists [(t, refs', batchSize)], (Ok (0, refs')). split; [|split].
    + constructor; [|constructor]. unfold okcall, batchSize. lia.
    + intros n' r' Q. apply Ok_inj in Q. injection Q as <- <-. split; lia.
    + intros S process s. unfold run_calls. cbn [foldM].
      rewrite bind_assoc. destruct (process s t refs' batchSize); reflexivity.
  - apply traced2_ret. unfold batchSize in *. split; lia.
Qed.

Lemma bv_loop_traced : forall fuel t qmin qmax base endIdx idx n refs, okst n refs ->
  traced2 (fun S process s => bv_loop pass process fuel t qmin qmax base endIdx idx (n, refs, s)).
Proof.
  induction fuel as [|f IH]; intros t qmin qmax base endIdx idx n refs K; cbn [bv_loop].
  { exists [], NoFuel. split; [constructor|]. split; [discriminate|reflexivity]. }
  destruct (idx <? endIdx); [|apply traced2_ret; exact K].
  apply (traced2_bind (get (tdBv (tD t)) idx)). intros node _.
  apply (traced2_seq
    (fun S process s =>
       if (0 <=? bI node) && OverlapQuantBounds qmin qmax (bMin node) (bMax node)
       then let* p := get (tdPolys (tD t)) (bI node) in
            if pass (Z.lor base (bI node)) t p then emit process t (n, refs, s) (Z.lor base (bI node)) else Ok (n, refs, s)
       else Ok (n, refs, s))
    (fun S process st => bv_loop pass process f t qmin qmax base endIdx
       (if OverlapQuantBounds qmin qmax (bMin node) (bMax node) || (0 <=? bI node)
        then i32 (idx + 1) else i32 (idx + i32 (- bI node))) st)).
  - destruct ((0 <=? bI node) && OverlapQuantBounds qmin qmax (bMin node) (bMax node)); [|apply traced2_ret; exact K].
    apply (traced2_bind (get (tdPolys (tD t)) (bI node))). intros p _.
    destruct (pass (Z.lor base (bI node)) t p); [apply emit_traced; exact K|apply traced2_ret; exact K].
  - intros n' refs' K'. apply IH. exact K'.
Qed.

Lemma scan_traced : forall t base qmin qmax l n refs, okst n refs ->
  traced2 (fun S process s => foldM (scan_step pass process t base qmin qmax) l (n, refs, s)).
Proof.
  intros t base qmin qmax. induction l as [|i l IH]; intros n refs K; cbn [foldM]; [apply traced2_ret; exact K|].
  apply (traced2_seq (fun S process s => scan_step pass process t base qmin qmax (n, refs, s) i)
                     (fun S process st => foldM (scan_step pass process t base qmin qmax) l st)); [|exact IH].
  unfold scan_step. apply (traced2_bind (get (tdPolys (tD t)) i)). intros p _.
  destruct (Type_ p =? polyTypeOffMeshConnection); [exists [], Exit; split; [constructor|]; split; [discriminate|reflexivity]|].
  destruct (negb (pass (Z.lor base i) t p)); [apply traced2_ret; exact K|].
  apply (traced2_bind (poly_bounds t p) (fun b S process s => let '(bmin, bmax) := b in
    if OverlapBounds qmin qmax bmin bmax then emit process t (n, refs, s) (Z.lor base i) else Ok (n, refs, s))).
  intros [bmin bmax] _. destruct (OverlapBounds qmin qmax bmin bmax); [apply emit_traced; exact K|apply traced2_ret; exact K].
Qed.

Lemma query_traced : forall m it qmin qmax, traced (fun S process s => queryPolygonsInTile pass process m it qmin qmax s).
Proof.
  intros. unfold queryPolygonsInTile.
  apply (traced_bind (tile_of m it)). intros t.
  apply (traced_bind (hdr_of t)). intros h.
  apply (traced_bind (polyRefBase m it)). intros base.
  assert (K : okst 0 (repeat 0 (Z.to_nat batchSize))) by (split; [lia|reflexivity]).
  apply (traced2_end (fun S process s =>
     match tdBv (tD t) with
     | [] => foldM (scan_step pass process t base qmin qmax) (zseq (Z.to_nat (hPolyCount h))) (0, repeat 0 (Z.to_nat batchSize), s)
     | _ :: _ => let '(bmin, bmax) := quant_query h qmin qmax in
        bv_loop pass process (Datatypes.S (length (tdBv (tD t)))) t bmin bmax base (hBvNodeCount h) 0 (0, repeat 0 (Z.to_nat batchSize), s)
     end)
     (fun S process st => let '(n, refs, s) := st in if 0 <? n then process s t refs n else Ok s)).
  - destruct (tdBv (tD t)) eqn:E; [apply scan_traced; exact K|].
    destruct (quant_query h qmin qmax) as [bmin bmax]. apply bv_loop_traced. exact K.
  - intros n refs [Hn Hr]. destruct (0 <? n); [|apply traced_ret].
    exists [(t, refs, n)], (Ok tt). split.
    + constructor; [|constructor]. unfold okcall. lia.
    + intros S process s. unfold run_calls. cbn [foldM].
      destruct (process s t refs n); reflexivity.
Qed.

Definition tiles_query (m : NavMesh) (bmin bmax : fvec) (minx maxx miny maxy : Z) S (process : Proc S) (s : S) : res S :=
  foldM (fun s y => foldM (fun s x => let* neis := TilesAt m x y 32 in
          foldM (fun s j => queryPolygonsInTile pass process m j bmin bmax s) neis s)
          (zrange minx maxx) s) (zrange miny maxy) s.

Lemma tiles_traced : forall m bmin bmax minx maxx miny maxy, traced (tiles_query m bmin bmax minx maxx miny maxy).
Proof.
  intros. unfold tiles_query.
  apply (traced_foldM (fun S process s y => foldM (fun s x => let* neis := TilesAt m x y 32 in
          foldM (fun s j => queryPolygonsInTile pass process m j bmin bmax s) neis s) (zrange minx maxx) s)). intros y.
  apply (traced_foldM (fun S process s x => let* neis := TilesAt m x y 32 in
          foldM (fun s j => queryPolygonsInTile pass process m j bmin bmax s) neis s)). intros x.
  apply (traced_bind (TilesAt m x y 32)). intros neis.
  apply (traced_foldM (fun S process s j => queryPolygonsInTile pass process m j bmin bmax s)).
  intros j. apply query_traced.
Qed.

Lemma query4_traced : forall m center ext,
  exists calls (o : res unit), Forall okcall calls /\ forall S (process : Proc S) s,
    queryPolygons4 pass process m center ext s = let* s := run_calls process calls s in let* _ := o in Ok (Success, s).
Proof.
  intros. unfold queryPolygons4.
  destruct (CalcTileLoc m (vsub numF center ext)) as [minx miny].
  destruct (CalcTileLoc m (vadd numF center ext)) as [maxx maxy].
  match goal with |- context [if ?b then NoFuel else _] => destruct b end.
  { exists [], NoFuel. split; [constructor|reflexivity]. }
  destruct (tiles_traced m (vsub numF center ext) (vadd numF center ext) minx maxx miny maxy) as (calls & o & V & H).
  exists calls, o. split; [exact V|]. intros S process s.
  change ((let* s0 := tiles_query m (vsub numF center ext) (vadd numF center ext) minx maxx miny maxy S process s in Ok (Success, s0))
          = let* s0 := run_calls process calls s in let* _ := o in Ok (Success, s0)).
  rewrite H, !bind_assoc.
  destruct (run_calls process calls s); cbn [bind]; try reflexivity. destruct o; reflexivity.
Qed.

(** * Batching *)
Lemma emit_batches : forall t R n refs, 0 <= n < 32 -> zlen refs = 32 ->
  exists calls n' refs',
    (forall S (process : Proc S) s,
       foldM (emit process t) R (n, refs, s) = let* s := run_calls process calls s in Ok (n', refs', s)) /\
    Forall (fun '(t', a, c) => t' = t /\ c = 32 /\ c <= zlen a) calls /\ 0 <= n' < 32 /\ zlen refs' = 32 /\
    concat (map call_refs calls) ++ firstn (Z.to_nat n') refs' = firstn (Z.to_nat n) refs ++ R.
Proof.
  intros t. induction R as [|r R IH]; intros n refs Hn Hl.
  - exists [], n, refs. split; [reflexivity|]. split; [constructor|]. split; [lia|]. split; [exact Hl|].
    cbn. now rewrite app_nil_r.
  - assert (Es : set refs n r = Ok (upd refs (Z.to_nat n) r)) by (apply set_in_range; lia).
    assert (Lu : zlen (upd refs (Z.to_nat n) r) = 32) by (rewrite zlen_upd; exact Hl).
    assert (Ef : firstn (Z.to_nat (n + 1)) (upd refs (Z.to_nat n) r) = firstn (Z.to_nat n) refs ++ [r]).
    { replace (Z.to_nat (n + 1)) with (Datatypes.S (Z.to_nat n)) by lia.
      rewrite (firstn_snoc _ _ r).
      - rewrite firstn_upd_ge by lia. reflexivity.
      - apply nth_error_upd_eq. unfold zlen in Hl. lia. }
    unfold batchSize in *.
    destruct (Z.eq_dec n 31) as [->|N].
    + destruct (IH 0 (upd refs (Z.to_nat 31) r)) as (calls & n' & refs' & H & Hc & Hn' & Hr & Hq); [lia|exact Lu|].
      exists ((t, upd refs (Z.to_nat 31) r, 32) :: calls), n', refs'.
      split; [|split; [|split; [|split]]]; auto.
      * intros S process s. cbn [foldM]. unfold emit at 1. rewrite Es. cbn [bind].
        change (31 =? batchSize - 1) with true. cbv iota.
        change batchSize with 32. unfold run_calls at 1. cbn [foldM].
        rewrite !bind_assoc. destruct (process s t (upd refs (Z.to_nat 31) r) 32); cbn [bind]; try reflexivity. apply H.
      * constructor; [|exact Hc]. split; [reflexivity|]. split; [reflexivity|]. rewrite Lu. lia.
      * cbn [map concat call_refs]. rewrite <- app_assoc, Hq.
        change (Z.to_nat 32) with (Z.to_nat (31 + 1)). rewrite Ef. cbn [firstn Z.to_nat app].
        now rewrite <- app_assoc.
    + destruct (IH (n + 1) (upd refs (Z.to_nat n) r)) as (calls & n' & refs' & H & Hc & Hn' & Hr & Hq); [lia|exact Lu|].
      exists calls, n', refs'. split; [|split; [|split; [|split]]]; auto.
      * intros S process s. cbn [foldM]. unfold emit at 1. rewrite Es. cbn [bind].
        replace (n =? batchSize - 1) with false by (symmetry; apply Z.eqb_neq; unfold batchSize; lia).
        apply H.
      * rewrite Hq, Ef, <- app_assoc. reflexivity.
Qed.

(** The whole query when its search visits the references R. *)
Definition finish {S} (process : Proc S) (t : MeshTile) (st : Z * list Z * S) : res S :=
  let '(n, refs, s) := st in if 0 <? n then process s t refs n else Ok s.
Lemma finish_batches : forall t R, exists calls,
  (forall S (process : Proc S) s,
     (let* st := foldM (emit process t) R (0, repeat 0 (Z.to_nat batchSize), s) in finish process t st) = run_calls process calls s) /\
  batched t calls /\ concat (map call_refs calls) = R.
Proof.
  intros t R.
  destruct (emit_batches t R 0 (repeat 0 (Z.to_nat batchSize))) as (calls & n & refs & H & Hc & Hn & Hr & Hq); [lia|reflexivity|].
  cbn [Z.to_nat firstn app] in Hq.
  destruct (Z.ltb_spec 0 n).
  - exists (calls ++ [(t, refs, n)]). split; [|split].
    + intros S process s. rewrite H, bind_assoc, run_calls_app.
      destruct (run_calls process calls s); cbn [bind]; try reflexivity.
      unfold finish, run_calls. cbn [foldM]. destruct (Z.ltb_spec 0 n); [|lia].
      destruct (process a t refs n); reflexivity.
    + split.
      * apply Forall_app. split.
        -- eapply Forall_impl; [|exact Hc]. intros [[t' a] c] (A & B & C). split; [exact A|lia].
        -- constructor; [|constructor]. split; [reflexivity|lia].
      * exists calls, [(t, refs, n)]. split; [reflexivity|]. split.
        -- eapply Forall_impl; [|exact Hc]. intros [[t' a] c] (A & B & C). exact B.
        -- right. exists refs, n. split; [reflexivity|lia].
    + rewrite map_app, concat_app. cbn [map concat call_refs]. rewrite app_nil_r. exact Hq.
  - exists calls. split; [|split].
    + intros S process s. rewrite H, bind_assoc.
      destruct (run_calls process calls s); cbn [bind]; try reflexivity.
      unfold finish. destruct (Z.ltb_spec 0 n); [lia|reflexivity].
    + split.
      * eapply Forall_impl; [|exact Hc]. intros [[t' a] c] (A & B & C). split; [exact A|lia].
      * exists calls, []. split; [now rewrite app_nil_r|]. split; [|left; reflexivity].
        eapply Forall_impl; [|exact Hc]. intros [[t' a] c] (A & B & C). exact B.
    + replace n with 0 in Hq by lia. cbn [Z.to_nat firstn] in Hq. now rewrite app_nil_r in Hq.
Qed.

(** * The walk over the tree *)
Definition passes (t : MeshTile) (base : Z) (it : bvItem) : bool :=
  match get (tdPolys (tD t)) (iI it) with Ok p => pass (Z.lor base (iI it)) t p | _ => false end.
Definition item_ref (base : Z) (it : bvItem) : Z := Z.lor base (iI it).

Lemma bv_walk : forall t qmin qmax base endIdx k l e, BvAt (tdBv (tD t)) k l e ->
  0 <= k -> e <= endIdx -> endIdx < 2 ^ 31 ->
  (forall it, In it l -> 0 <= iI it < zlen (tdPolys (tD t))) ->
  exists v, (v <= Z.to_nat (e - k))%nat /\ forall S (process : Proc S) f st,
    bv_loop pass process (v + f) t qmin qmax base endIdx k st =
    let* st := foldM (emit process t) (map (item_ref base) (filter (passes t base) (filter (ov qmin qmax) l))) st in
    bv_loop pass process f t qmin qmax base endIdx e st.
Proof.
  intros t qmin qmax base endIdx.
  induction 1 as [k it G|k m e l r mn mx G A IA B IB En To]; intros Hk He Hb Hi.
  - exists 1%nat. split; [lia|]. intros S process f st.
    cbn [Nat.add bv_loop]. destruct (Z.ltb_spec k endIdx); [|lia].
    rewrite G. cbn [bind bI bMin bMax].
    assert (R : 0 <= iI it < zlen (tdPolys (tD t))) by (apply Hi; left; reflexivity).
    destruct (Z.leb_spec 0 (iI it)); [|lia]. rewrite orb_true_r. cbn [andb].
    rewrite (i32_id (k + 1)) by (unfold is_i32; lia).
    cbn [filter]. unfold ov at 1. destruct (OverlapQuantBounds qmin qmax (iMin it) (iMax it)); [|reflexivity].
    cbn [filter]. unfold passes at 1.
    destruct (get_in_range (tdPolys (tD t)) (iI it) R) as [p Gp]. rewrite Gp. cbn [bind].
    destruct (pass (Z.lor base (iI it)) t p); [|reflexivity].
    cbn [map foldM]. unfold item_ref at 1. rewrite bind_assoc.
    destruct (emit process t st (Z.lor base (iI it))); reflexivity.
  - destruct (BvAt_len _ _ _ _ A) as [NA EA]. destruct (BvAt_len _ _ _ _ B) as [NB EB].
    assert (0 < zlen l) by (destruct l as [|x l0]; [congruence|rewrite zlen_cons; pose proof (zlen_nonneg l0); lia]).
    assert (0 < zlen r) by (destruct r as [|x r0]; [congruence|rewrite zlen_cons; pose proof (zlen_nonneg r0); lia]).
    destruct (OverlapQuantBounds qmin qmax mn mx) eqn:O.
    + destruct IA as (va & Va & Wa); [lia|lia|lia|intros; apply Hi; apply in_or_app; left; assumption|].
      destruct IB as (vb & Vb & Wb); [lia|lia|lia|intros; apply Hi; apply in_or_app; right; assumption|].
      exists (Datatypes.S (va + vb)). split; [lia|]. intros S process f st.
      cbn [Nat.add bv_loop]. destruct (Z.ltb_spec k endIdx); [|lia].
      rewrite G. cbn [bind bI bMin bMax]. rewrite O.
      destruct (Z.leb_spec 0 (- (e - k))); [lia|]. cbn [andb orb bind].
      rewrite (i32_id (k + 1)) by (unfold is_i32; lia).
      replace (va + vb + f)%nat with (va + (vb + f))%nat by lia.
      rewrite Wa. rewrite !filter_app, map_app, foldM_app, bind_assoc.
      destruct (foldM (emit process t) (map (item_ref base) (filter (passes t base) (filter (ov qmin qmax) l))) st); cbn [bind]; try reflexivity.
      apply Wb.
    + exists 1%nat. split; [lia|]. intros S process f st.
      cbn [Nat.add bv_loop]. destruct (Z.ltb_spec k endIdx); [|lia].
      rewrite G. cbn [bind bI bMin bMax]. rewrite O.
      destruct (Z.leb_spec 0 (- (e - k))); [lia|]. cbn [andb orb bind].
      rewrite (filter_none (ov qmin qmax)).
      2:{ intros it I. unfold ov. apply (enclosed_overlap _ _ mn mx); [apply En; exact I|exact O]. }
      cbn [filter map foldM bind].
      rewrite (i32_id (- - (e - k))) by (unfold is_i32; lia).
      rewrite i32_id by (unfold is_i32; lia). replace (k + - - (e - k)) with e by lia. reflexivity.
Qed.

Lemma bv_loop_end : forall {S} (process : Proc S) f t qmin qmax base endIdx st,
  bv_loop pass process (Datatypes.S f) t qmin qmax base endIdx endIdx st = Ok st.
Proof. intros. cbn [bv_loop]. rewrite Z.ltb_irrefl. reflexivity. Qed.

(** Trees one after the other up to endIdx. *)
Inductive BvForest (nodes : list BvNode) : Z -> list bvItem -> Z -> Prop :=
| BvfNil : forall k, BvForest nodes k [] k
| BvfCons : forall k m e l r, BvAt nodes k l m -> BvForest nodes m r e -> BvForest nodes k (l ++ r) e.

Lemma BvForest_len : forall nodes k l e, BvForest nodes k l e -> k <= e.
Proof.
  induction 1 as [|k m e l r A B IH]; [lia|].
  destruct (BvAt_len _ _ _ _ A) as [NA EA].
  assert (0 < zlen l) by (destruct l as [|x l0]; [congruence|rewrite zlen_cons; pose proof (zlen_nonneg l0); lia]). lia.
Qed.

Lemma bv_forest_walk : forall t qmin qmax base k l e, BvForest (tdBv (tD t)) k l e ->
  0 <= k -> e < 2 ^ 31 ->
  (forall it, In it l -> 0 <= iI it < zlen (tdPolys (tD t))) ->
  forall S (process : Proc S) f st, (Z.to_nat (e - k) <= f)%nat ->
    bv_loop pass process (Datatypes.S f) t qmin qmax base e k st =
    foldM (emit process t) (map (item_ref base) (filter (passes t base) (filter (ov qmin qmax) l))) st.
Proof.
  intros t qmin qmax base. induction 1 as [k|k m e l r A B IH]; intros Hk He Hi S process f st Hf.
  - rewrite bv_loop_end. reflexivity.
  - destruct (BvAt_len _ _ _ _ A) as [NA EA].
    assert (0 < zlen l) by (destruct l as [|x l0]; [congruence|rewrite zlen_cons; pose proof (zlen_nonneg l0); lia]).
    pose proof (BvForest_len _ _ _ _ B).
    destruct (bv_walk t qmin qmax base e k l m A) as (v & Hv & W); [lia|lia|lia|intros; apply Hi; apply in_or_app; left; assumption|].
    replace (Datatypes.S f) with (v + Datatypes.S (f - v))%nat by lia.
    rewrite W, !filter_app, map_app, foldM_app.
    destruct (foldM (emit process t) (map (item_ref base) (filter (passes t base) (filter (ov qmin qmax) l))) st); cbn [bind]; try reflexivity.
    apply IH; [lia|lia|intros; apply Hi; apply in_or_app; right; assumption|lia].
Qed.

Lemma BvForest_get : forall nodes k l e, BvForest nodes k l e -> 0 <= k -> l <> [] -> e <= zlen nodes.
Proof.
  assert (A0 : forall nodes k l e, BvAt nodes k l e -> e <= zlen nodes).
  { induction 1 as [k it G|k m e l r mn mx G A IA B IB En To]; [|lia].
    apply get_range in G. lia. }
  induction 1 as [k|k m e l r A B IH]; intros Hk N; [congruence|].
  destruct B as [k0|k0 m0 e0 l0 r0 A' B']; [exact (A0 _ _ _ _ A)|].
  destruct (BvAt_len _ _ _ _ A) as [NA EA].
  assert (0 < zlen l) by (destruct l as [|x l1]; [congruence|rewrite zlen_cons; pose proof (zlen_nonneg l1); lia]).
  apply IH; [lia|]. destruct (BvAt_len _ _ _ _ A') as [NA' _].
  destruct l0; [congruence|discriminate].
Qed.

(** The query over a tile with a tree. *)
Lemma query_bv : forall m it t h qmin qmax items,
  tile_of m it = Ok t -> tHeader t = Some h -> items <> [] ->
  BvForest (tdBv (tD t)) 0 items (hBvNodeCount h) -> hBvNodeCount h < 2 ^ 31 ->
  (forall i, In i items -> 0 <= iI i < zlen (tdPolys (tD t))) ->
  let base := encodePolyID (mBits m) (tSalt t) (Z.of_nat it) 0 in
  let '(bmin, bmax) := quant_query h qmin qmax in
  exists calls,
    (forall S (process : Proc S) s, queryPolygonsInTile pass process m it qmin qmax s = run_calls process calls s) /\
    batched t calls /\
    concat (map call_refs calls) = map (item_ref base) (filter (passes t base) (filter (ov bmin bmax) items)).
Proof.
  intros m it t h qmin qmax items Ht Hh NE Hf Hb Hi base.
  destruct (quant_query h qmin qmax) as [bmin bmax] eqn:Eq.
  destruct (finish_batches t (map (item_ref base) (filter (passes t base) (filter (ov bmin bmax) items)))) as (calls & H & Bc & Cc).
  exists calls. split; [|split; assumption].
  intros S process s. rewrite <- H. unfold queryPolygonsInTile. rewrite Ht. cbn [bind].
  unfold hdr_of. rewrite Hh. cbn [bind of_option].
  unfold polyRefBase. rewrite Ht. cbn [bind]. fold base. rewrite Eq.
  pose proof (BvForest_get _ _ _ _ Hf (Z.le_refl 0) NE) as Hl.
  destruct (tdBv (tD t)) as [|n0 bv] eqn:Ebv.
  { exfalso. rewrite zlen_nil in Hl. pose proof (BvForest_len _ _ _ _ Hf).
    inversion Hf as [|k m0 e l r A B]; subst; [congruence|].
    destruct (BvAt_len _ _ _ _ A) as [NA EA].
    assert (0 < zlen l) by (destruct l as [|x l0]; [congruence|rewrite zlen_cons; pose proof (zlen_nonneg l0); lia]).
    pose proof (BvForest_len _ _ _ _ B). lia. }
  rewrite <- Ebv in *. rewrite (bv_forest_walk t bmin bmax base 0 items (hBvNodeCount h) Hf); [reflexivity|lia|lia|exact Hi|].
  unfold zlen in Hl. lia.
Qed.
End Filter.
