From Coq Require Import ZArith List Bool Lia.
From Verif.Base Require Import Res GoNum Bits Grid.
From Verif.Model Require Import PolyMeshOps.
From Verif.Spec Require Import MeshOpsSpec.
Import ListNotations.
Open Scope Z_scope.

Lemma hash_range : forall x y z, 0 <= computeVertexHash x y z < 4096.
Proof.
  intros. unfold computeVertexHash. change (vertexBucketCount - 1) with (2 ^ 12 - 1). rewrite land_mask by lia.
  apply Z.mod_pos_bound. lia.
Qed.

(** The list walked from [i] through [next]. *)
Inductive walk (next : list Z) : Z -> list Z -> Prop :=
| walk_nil : walk next (-1) []
| walk_cons i j l : 0 <= i -> get next i = Ok j -> walk next j l -> walk next i (i :: l).

Lemma walk_upd : forall next k v i l, 0 <= k -> walk next i l -> ~ In k l -> walk (upd next (Z.to_nat k) v) i l.
Proof.
  induction 2 as [|i j l Hi Hg Hw IH]; intros Hn; [constructor|].
  econstructor; [assumption| |apply IH; intros F; apply Hn; now right].
  rewrite get_upd by lia. destruct (Z.eqb_spec i k); [exfalso; apply Hn; now left|exact Hg].
Qed.

Definition hashOf (v : vert) : Z := let '(x, y, z) := v in computeVertexHash x 0 z.
Definition inBucket (V : list vert) (b : Z) (i : nat) : bool :=
  match nth_error V i with Some v => hashOf v =? b | None => false end.
Definition bucketOf (V : list vert) (b : Z) : list nat := filter (inBucket V b) (rev (seq 0 (length V))).
Definition vert_u16 (v : vert) : Prop := let '(x, y, z) := v in is_u16 x /\ is_u16 y /\ is_u16 z.

Record wInv (cap : nat) (V : list vert) (s : weld) : Prop := {
  wi_nv : wNv s = zlen V;
  wi_cap : (length V <= cap)%nat;
  wi_verts : exists rest, wVerts s = flatten V ++ rest /\ length (wVerts s) = (3 * cap)%nat;
  wi_next : length (wNext s) = cap;
  wi_first : zlen (wFirst s) = 4096;
  wi_u16 : Forall vert_u16 V;
  wi_chain : forall b, 0 <= b < 4096 -> exists f, get (wFirst s) b = Ok f /\ walk (wNext s) f (map Z.of_nat (bucketOf V b)) }.

Lemma flatten_app : forall a b, flatten (a ++ b) = flatten a ++ flatten b.
Proof. intros. unfold flatten. apply flat_map_app. Qed.
Lemma flatten_length : forall V, length (flatten V) = (3 * length V)%nat.
Proof. induction V as [|[[x y] z] V IH]; [reflexivity|]. cbn [flatten flat_map app length] in *. unfold flatten in IH. lia. Qed.
Lemma flatten_nth : forall V rest i x y z, nth_error V i = Some (x, y, z) ->
  get (flatten V ++ rest) (Z.of_nat i * 3) = Ok x /\ get (flatten V ++ rest) (Z.of_nat i * 3 + 1) = Ok y /\
  get (flatten V ++ rest) (Z.of_nat i * 3 + 2) = Ok z.
Proof.
  intros V rest i x y z H.
  assert (forall k t, nth_error (flatten V ++ rest) (3 * i + k) = Some t -> get (flatten V ++ rest) (Z.of_nat i * 3 + Z.of_nat k) = Ok t) as G.
  { intros k t E. apply get_ok. split; [lia|]. replace (Z.to_nat _) with (3 * i + k)%nat by lia. exact E. }
  assert (nth_error (flatten V ++ rest) (3 * i + 0) = Some x /\ nth_error (flatten V ++ rest) (3 * i + 1) = Some y /\
          nth_error (flatten V ++ rest) (3 * i + 2) = Some z) as (A & B & C).
  { revert i H G. induction V as [|[[a b] c] V IH]; intros i H G; [now destruct i|].
    destruct i as [|i].
    - inversion H; subst. cbn. auto.
    - cbn [nth_error] in H. replace (3 * S i)%nat with (S (S (S (3 * i)))) by lia.
      cbn [flatten flat_map app Nat.add nth_error]. apply (IH i H). intros k t E. apply get_ok. split; [lia|].
      unfold flatten in *. replace (Z.to_nat _) with (3 * i + k)%nat by lia. exact E. }
  apply G in A, B, C. change (Z.of_nat 0) with 0 in A. rewrite Z.add_0_r in A.
  change (Z.of_nat 1) with 1 in B. change (Z.of_nat 2) with 2 in C. auto.
Qed.

Lemma nearY_mod : forall a b, is_u16 a -> is_u16 b -> nearY a b = ((a - b) mod 65536 <=? 2).
Proof.
  intros a b Ha Hb. unfold nearY. assert (is_u16 (u16 (a - b))) as H by apply u16_range.
  rewrite i32_id by (unfold is_u16, is_i32 in *; lia). rewrite Z.abs_eq by (unfold is_u16 in H; lia). reflexivity.
Qed.

Lemma find_walk : forall s V cap p fuel l f, wInv cap V s -> vert_u16 p ->
  let '(x, y, z) := p in
  walk (wNext s) f (map Z.of_nat l) -> (forall i, In i l -> (i < length V)%nat) -> (length l < fuel)%nat ->
  findVertex fuel x y z f s = Ok (option_map Z.of_nat (find (fun i => match nth_error V i with Some v => near v p | None => false end) l)).
Proof.
  intros s V cap [[x y] z] fuel l f Hi Hp. revert fuel f.
  induction l as [|i l IH]; intros fuel f Hw Hl Hf; cbn [map] in Hw; inversion Hw; subst.
  - destruct fuel; reflexivity.
  - destruct fuel as [|fuel]; [cbn in Hf; lia|].
    destruct (nth_error V i) as [[[vx vy] vz]|] eqn:E.
    2:{ apply nth_error_None in E. specialize (Hl i (or_introl eq_refl)). lia. }
    destruct (wi_verts _ _ _ Hi) as (rest & Ev & _).
    destruct (flatten_nth V rest i vx vy vz E) as (A & B & C). rewrite <- Ev in A, B, C.
    cbn [findVertex]. destruct (Z.eqb_spec (Z.of_nat i) (-1)); [lia|].
    rewrite A. cbn [bind]. rewrite B. cbn [bind]. rewrite C. cbn [bind].
    assert (vert_u16 (vx, vy, vz)) as U.
    { pose proof (wi_u16 _ _ _ Hi) as F. rewrite Forall_forall in F. apply F. eapply nth_error_In; eauto. }
    cbn in U, Hp. rewrite nearY_mod by tauto.
    cbn [find]. rewrite E. unfold near.
    replace ((vx =? x) && ((vy - y) mod 65536 <=? 2) && (vz =? z)) with ((vx =? x) && (vz =? z) && ((vy - y) mod 65536 <=? 2))
      by (destruct (vx =? x), (vz =? z), ((vy - y) mod 65536 <=? 2); reflexivity).
    destruct ((vx =? x) && (vz =? z) && ((vy - y) mod 65536 <=? 2)); [reflexivity|].
    match goal with G : get (wNext s) _ = Ok _ |- _ => rewrite G end. cbn [bind]. apply IH; auto; [intros; apply Hl; now right|cbn in Hf; lia].
Qed.

Lemma find_filter : forall {A} (f g : A -> bool) l, (forall x, In x l -> f x = true -> g x = true) -> find f (filter g l) = find f l.
Proof.
  induction l as [|x l IH]; intros H; [reflexivity|]. cbn [filter find].
  assert (find f (filter g l) = find f l) as E by (apply IH; intros; apply H; auto; now right).
  destruct (f x) eqn:Ef.
  - rewrite (H x (or_introl eq_refl) Ef). cbn [find]. now rewrite Ef.
  - destruct (g x); [cbn [find]; now rewrite Ef|exact E].
Qed.
Lemma bucket_newest : forall V p, find (fun i => match nth_error V i with Some v => near v p | None => false end) (bucketOf V (hashOf p)) = newest V p.
Proof.
  intros V [[x y] z]. unfold bucketOf, newest. apply find_filter. intros i _ H. unfold inBucket.
  destruct (nth_error V i) as [[[vx vy] vz]|]; [|discriminate]. cbn in H. cbn [hashOf].
  rewrite !andb_true_iff in H. destruct H as [[H1 H2] _]. apply Z.eqb_eq in H1, H2. subst. apply Z.eqb_refl.
Qed.
Lemma bucket_lt : forall V b i, In i (bucketOf V b) -> (i < length V)%nat.
Proof. intros V b i H. unfold bucketOf in H. apply filter_In in H. destruct H as [H _]. apply in_rev in H. apply in_seq in H. lia. Qed.
Lemma bucket_len : forall V b, (length (bucketOf V b) <= length V)%nat.
Proof.
  intros. unfold bucketOf. rewrite <- (seq_length (length V) 0) at 2. rewrite <- (rev_length (seq 0 (length V))).
  generalize (rev (seq 0 (length V))). induction l as [|x l IH]; [cbn; lia|]. cbn [filter]. destruct (inBucket V b x); cbn [length]; lia.
Qed.
Lemma bucket_snoc : forall V p b, bucketOf (V ++ [p]) b = (if hashOf p =? b then [length V] else []) ++ bucketOf V b.
Proof.
  intros V p b. unfold bucketOf. rewrite app_length. cbn [length]. rewrite Nat.add_1_r, seq_S, rev_app_distr. cbn [rev app filter Nat.add].
  assert (filter (inBucket (V ++ [p]) b) (rev (seq 0 (length V))) = filter (inBucket V b) (rev (seq 0 (length V)))) as E.
  { apply filter_ext_in. intros i Hi. apply in_rev in Hi. apply in_seq in Hi. unfold inBucket. rewrite nth_error_app1 by lia. reflexivity. }
  rewrite E. unfold inBucket at 1. rewrite nth_error_app2, Nat.sub_diag by lia. cbn [nth_error].
  destruct (hashOf p =? b); reflexivity.
Qed.

Lemma flatten_set : forall V rest x y z cap, length (flatten V ++ rest) = (3 * cap)%nat -> (length V < cap)%nat ->
  exists rest', (let* a := set (flatten V ++ rest) (zlen V * 3) x in let* a := set a (zlen V * 3 + 1) y in set a (zlen V * 3 + 2) z)
    = Ok (flatten (V ++ [(x, y, z)]) ++ rest').
Proof.
  intros V rest x y z cap Hl Hc. rewrite app_length, flatten_length in Hl.
  destruct rest as [|a [|b [|c rest]]]; cbn [length] in Hl; try lia.
  pose proof (flatten_length V) as FL. unfold zlen.
  rewrite set_in_range by (unfold zlen; rewrite app_length; cbn [length]; lia). cbn [bind].
  rewrite set_in_range by (rewrite zlen_upd; unfold zlen; rewrite app_length; cbn [length]; lia). cbn [bind].
  rewrite set_in_range by (rewrite !zlen_upd; unfold zlen; rewrite app_length; cbn [length]; lia).
  exists rest. f_equal.
  replace (Z.to_nat (Z.of_nat (length V) * 3)) with (length (flatten V)) by lia.
  rewrite upd_app_length.
  replace (flatten V ++ x :: b :: c :: rest) with ((flatten V ++ [x]) ++ b :: c :: rest) by (rewrite <- app_assoc; reflexivity).
  replace (Z.to_nat (Z.of_nat (length V) * 3 + 1)) with (length (flatten V ++ [x])) by (rewrite app_length; cbn [length]; lia).
  rewrite upd_app_length.
  replace ((flatten V ++ [x]) ++ y :: c :: rest) with ((flatten V ++ [x; y]) ++ c :: rest) by (rewrite <- !app_assoc; reflexivity).
  replace (Z.to_nat (Z.of_nat (length V) * 3 + 2)) with (length (flatten V ++ [x; y])) by (rewrite app_length; cbn [length]; lia).
  rewrite upd_app_length, flatten_app, <- !app_assoc. reflexivity.
Qed.

Lemma addVertex_ok : forall cap V s x y z, wInv cap V s -> vert_u16 (x, y, z) -> (cap <= Z.to_nat 65536)%nat -> (length V < cap)%nat ->
  let '(i, V1) := match newest V (x, y, z) with Some i => (i, V) | None => (length V, V ++ [(x, y, z)]) end in
  exists s', addVertex x y z s = Ok (Z.of_nat i, s') /\ wInv cap V1 s'.
Proof.
  intros cap V s x y z Hi Hp Hc HV. set (b := computeVertexHash x 0 z).
  pose proof (hash_range x 0 z) as Hb. fold b in Hb.
  destruct (wi_chain _ _ _ Hi b Hb) as (f & Hf & Hw).
  unfold addVertex. fold b. rewrite Hf. cbn [bind].
  pose proof (find_walk s V cap (x, y, z) (S (Z.to_nat (wNv s))) (bucketOf V b) f Hi Hp Hw) as E. cbv beta in E.
  rewrite E; clear E.
  2:{ intros i H. eapply bucket_lt; eauto. }
  2:{ rewrite (wi_nv _ _ _ Hi). unfold zlen. rewrite Nat2Z.id. pose proof (bucket_len V b). lia. }
  change b with (hashOf (x, y, z)) at 1. rewrite bucket_newest. cbn [bind].
  destruct (newest V (x, y, z)) as [i|] eqn:En; cbn [option_map].
  - assert (i < length V)%nat as L.
    { unfold newest in En. apply find_some in En. destruct En as [En _]. apply in_rev in En. apply in_seq in En. lia. }
    exists s. split; [|exact Hi]. rewrite u16_id by (unfold is_u16; lia). reflexivity.
  - cbv zeta. rewrite (wi_nv _ _ _ Hi).
    destruct (wi_verts _ _ _ Hi) as (rest & Ev & El). rewrite Ev in El.
    destruct (flatten_set V rest x y z cap El HV) as (rest' & Es). rewrite Ev.
    destruct (set (flatten V ++ rest) (zlen V * 3) x) as [a| | |] eqn:Ea; cbn [bind] in Es |- *; try discriminate Es.
    destruct (set a (zlen V * 3 + 1) y) as [a'| | |] eqn:Ea'; cbn [bind] in Es |- *; try discriminate Es.
    rewrite Es. cbn [bind].
    rewrite (set_in_range (wNext s)) by (pose proof (wi_next _ _ _ Hi); unfold zlen; lia). cbn [bind].
    rewrite (set_in_range (wFirst s)) by (rewrite (wi_first _ _ _ Hi); lia). cbn [bind].
    eexists. split; [rewrite u16_id by (unfold is_u16, zlen; lia); reflexivity|].
    constructor; cbn [wNv wVerts wNext wFirst].
    + rewrite zlen_snoc. reflexivity.
    + rewrite app_length. cbn [length]. lia.
    + exists rest'. split; [reflexivity|].
      apply set_ok in Ea, Ea', Es. destruct Ea as [_ ->], Ea' as [_ ->], Es as [_ ->]. rewrite !upd_length. exact El.
    + rewrite upd_length. apply (wi_next _ _ _ Hi).
    + rewrite zlen_upd. apply (wi_first _ _ _ Hi).
    + apply Forall_app. split; [apply (wi_u16 _ _ _ Hi)|]. constructor; [exact Hp|constructor].
    + intros c Hcr. rewrite bucket_snoc. rewrite get_upd by lia. rewrite (wi_first _ _ _ Hi).
      assert (forall k l, (forall i, In i l -> (i < length V)%nat) -> walk (wNext s) k (map Z.of_nat l) -> walk (upd (wNext s) (Z.to_nat (zlen V)) f) k (map Z.of_nat l)) as G.
      { intros k l Hl Hk. apply walk_upd; [unfold zlen; lia|exact Hk|].
        intros F. apply in_map_iff in F. destruct F as (i & F & Hin). apply Hl in Hin. unfold zlen in F. lia. }
      change (hashOf (x, y, z)) with b.
      destruct (Z.eqb_spec c b) as [->|N].
      * rewrite Z.eqb_refl. destruct (Z.ltb_spec b 4096); [|lia]. cbn [andb app map].
        exists (zlen V). split; [reflexivity|]. change (Z.of_nat (length V)) with (zlen V).
        apply walk_cons with (j := f); [unfold zlen; lia| |].
        -- rewrite get_upd by (unfold zlen; lia). rewrite Z.eqb_refl. pose proof (wi_next _ _ _ Hi).
           destruct (Z.ltb_spec (zlen V) (zlen (wNext s))); [reflexivity|unfold zlen in *; lia].
        -- apply G; [apply bucket_lt|exact Hw].
      * cbn [andb]. destruct (Z.eqb_spec b c); [congruence|]. cbn [app].
        destruct (wi_chain _ _ _ Hi c Hcr) as (f2 & Hf2 & Hw2). exists f2. split; [exact Hf2|].
        apply G; [apply bucket_lt|exact Hw2].
Qed.

Lemma newWeld_inv : forall cap, wInv cap [] (newWeld (Z.of_nat cap)).
Proof.
  intros cap. constructor; unfold newWeld; cbn [wNv wVerts wNext wFirst].
  - reflexivity.
  - cbn. lia.
  - exists (repeat 0 (Z.to_nat (Z.of_nat cap * 3))). split; [reflexivity|]. rewrite repeat_length. lia.
  - rewrite repeat_length. lia.
  - unfold zlen. rewrite repeat_length. reflexivity.
  - constructor.
  - intros b Hb. exists (-1). split; [|constructor].
    apply get_ok. split; [lia|]. rewrite (nth_error_nth' _ (-1)) by (rewrite repeat_length; change vertexBucketCount with 4096; lia).
    now rewrite nth_repeat.
Qed.
Lemma addVertices_ok : forall ps cap V s, wInv cap V s -> Forall vert_u16 ps -> (cap <= Z.to_nat 65536)%nat ->
  (length V + length ps <= cap)%nat ->
  let '(is, V') := welded V ps in
  exists s', addVertices ps s = Ok (map Z.of_nat is, s') /\ wInv cap V' s'.
Proof.
  induction ps as [|[[x y] z] ps IH]; intros cap V s Hi Hp Hc Hl.
  - cbn. exists s. auto.
  - inversion Hp as [|? ? Hx Hps]; subst. cbn [welded addVertices]. cbn [length] in Hl.
    pose proof (addVertex_ok cap V s x y z Hi Hx Hc ltac:(lia)) as H.
    destruct (newest V (x, y, z)) as [i|].
    + destruct H as (s' & E & Hi'). rewrite E. cbn [bind].
      specialize (IH cap V s' Hi' Hps Hc ltac:(lia)). destruct (welded V ps) as [is V2].
      destruct IH as (s2 & E2 & Hi2). rewrite E2. cbn [bind map]. exists s2. split; [reflexivity|exact Hi2].
    + destruct H as (s' & E & Hi'). rewrite E. cbn [bind].
      assert (length (V ++ [(x, y, z)]) + length ps <= cap)%nat as L by (rewrite app_length; cbn [length]; lia).
      specialize (IH cap _ s' Hi' Hps Hc L).
      match goal with |- context [welded ?W ps] => change (V ++ [(x, y, z)]) with W in IH; destruct (welded W ps) as [is V2] end.
      destruct IH as (s2 & E2 & Hi2). rewrite E2. cbn [bind map]. exists s2. split; [reflexivity|exact Hi2].
Qed.

(** * What [welded] does *)
Lemma newest_some : forall V p i, newest V p = Some i -> exists v, nth_error V i = Some v /\ near v p = true.
Proof.
  intros V p i H. unfold newest in H. apply find_some in H. destruct H as [_ H].
  destruct (nth_error V i) as [v|]; [eauto|discriminate].
Qed.
Lemma newest_none : forall V p, newest V p = None -> forall v, In v V -> near v p = false.
Proof.
  intros V p H v Hv. apply In_nth_error in Hv. destruct Hv as [i Hi].
  pose proof (find_none _ _ H i) as F. cbv beta in F. rewrite Hi in F. apply F.
  apply -> in_rev. apply in_seq. assert (i < length V)%nat by (apply nth_error_Some; congruence). lia.
Qed.
Lemma welded_prefix : forall ps V, exists W, snd (welded V ps) = V ++ W.
Proof.
  induction ps as [|p ps IH]; intros V; [exists []; now rewrite app_nil_r|]. cbn [welded].
  destruct (newest V p) as [i|].
  - destruct (IH V) as [W E]. destruct (welded V ps). cbn [snd] in *. eauto.
  - destruct (IH (V ++ [p])) as [W E]. destruct (welded (V ++ [p]) ps). cbn [snd] in *. exists ([p] ++ W). rewrite E, <- app_assoc. reflexivity.
Qed.
Lemma near_self : forall p, near p p = true.
Proof. intros [[x y] z]. cbn. rewrite !Z.eqb_refl, Z.sub_diag. reflexivity. Qed.
Lemma welded_sound : forall ps V, let '(is, V') := welded V ps in
  Forall2 (fun p i => exists v, nth_error V' i = Some v /\ near v p = true) ps is.
Proof.
  induction ps as [|p ps IH]; intros V; [constructor|]. cbn [welded].
  assert (forall V1 i, (exists v, nth_error V1 i = Some v /\ near v p = true) ->
    let '(is, V2) := welded V1 ps in Forall2 (fun p i => exists v, nth_error V2 i = Some v /\ near v p = true) (p :: ps) (i :: is)) as G.
  { intros V1 i (v & Hv & Hn). specialize (IH V1). destruct (welded_prefix ps V1) as [W E]. destruct (welded V1 ps) as [is V2].
    cbn [snd] in E. constructor; [|exact IH]. exists v. split; [|exact Hn]. rewrite E, nth_error_app1; [exact Hv|].
    apply nth_error_Some. congruence. }
  destruct (newest V p) as [i|] eqn:E.
  - specialize (G V i (newest_some _ _ _ E)). destruct (welded V ps). exact G.
  - assert (exists v, nth_error (V ++ [p]) (length V) = Some v /\ near v p = true) as X.
    { exists p. split; [|apply near_self]. rewrite nth_error_app2, Nat.sub_diag by lia. reflexivity. }
    specialize (G _ _ X). destruct (welded (V ++ [p]) ps). exact G.
Qed.
Lemma FOP_snoc : forall {A} (R : A -> A -> Prop) l x, ForallOrdPairs R l -> Forall (fun a => R a x) l -> ForallOrdPairs R (l ++ [x]).
Proof.
  induction 1 as [|a l Ha Hl IH]; intros H; cbn [app]; [constructor; constructor|].
  inversion H; subst. constructor; [apply Forall_app; split; auto|]. auto.
Qed.
Lemma welded_distinct : forall ps V, ForallOrdPairs (fun a b => near a b = false) V ->
  ForallOrdPairs (fun a b => near a b = false) (snd (welded V ps)).
Proof.
  induction ps as [|p ps IH]; intros V H; [exact H|]. cbn [welded]. destruct (newest V p) as [i|] eqn:E.
  - specialize (IH V H). destruct (welded V ps). exact IH.
  - assert (ForallOrdPairs (fun a b => near a b = false) (V ++ [p])) as X.
    { apply FOP_snoc; [exact H|]. apply Forall_forall. apply newest_none. exact E. }
    specialize (IH _ X). destruct (welded (V ++ [p]) ps). exact IH.
Qed.
Lemma welded_incl : forall ps V, incl (snd (welded V ps)) (V ++ ps).
Proof.
  induction ps as [|p ps IH]; intros V; [cbn; rewrite app_nil_r; apply incl_refl|]. cbn [welded].
  destruct (newest V p) as [i|].
  - specialize (IH V). destruct (welded V ps). cbn [snd] in *. intros v Hv. apply IH in Hv. rewrite in_app_iff in *. cbn. tauto.
  - specialize (IH (V ++ [p])). destruct (welded (V ++ [p]) ps). cbn [snd] in *. intros v Hv. apply IH in Hv.
    rewrite !in_app_iff in Hv. rewrite in_app_iff. cbn in *. tauto.
Qed.
