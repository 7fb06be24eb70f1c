(** getHeightData: the heights of a region (C76). *)
From Coq Require Import ZArith List Bool Lia Relations Sorted.
From Verif.Base Require Import Res GoNum Grid.
From Verif.Model Require Import Heightfield Dirs Compact Erode Region HeightSearch HeightData.
From Verif.Spec Require Import HeightfieldSpec CompactSpec ErodeSpec HeightSpec.
From Verif.Proofs Require Import ErodeProofs ErodeDist RegionBase HeightFlood.
Import ListNotations.
Open Scope Z_scope.

Lemma find_first : forall (f : Z -> bool) l i, StronglySorted Z.lt l -> find f l = Some i -> In i l /\ f i = true /\ forall j, In j l -> j < i -> f j = false.
Proof.
  intros f l i S. induction S as [|a l S IH FA]; intros E; [discriminate|]. cbn [find] in E. destruct (f a) eqn:Fa.
  - assert (a = i) by congruence. subst a. split; [now left|]. split; [exact Fa|]. intros j [<-|I] L; [lia|]. rewrite Forall_forall in FA. apply FA in I. lia.
  - destruct (IH E) as (I1 & I2 & I3). split; [now right|]. split; [exact I2|]. intros j [<-|I] L; [exact Fa|]. now apply I3.
Qed.
Lemma krange_sorted : forall a n, StronglySorted Z.lt (krange a n).
Proof.
  intros a n. unfold krange. pose proof (zseq_sorted (Z.to_nat n)) as S. induction S as [|b l S IH FA]; [constructor|]. cbn [map]. constructor; [exact IH|].
  rewrite Forall_forall in *. intros x Hx. apply in_map_iff in Hx. destruct Hx as (y & <- & Hy). apply FA in Hy. lia.
Qed.

Section Region.
Variable chf : CompactHeightfield.
Hypothesis wf : chf_wf chf.
Variables (bs : Z) (hp : HeightPatch).
Hypothesis PO : patch_ok chf bs hp.
Variable r : Z.
Notation W := (hpWidth hp).
Notation Ht := (hpHeight hp).
Notation x0 := (hpXmin hp).
Notation y0 := (hpYmin hp).
Notation idx := (idx hp).

Definition hr (i : Z) : bool := match get (chf_spans chf) i with Ok s => csReg s =? r | _ => false end.
Definition own0 (x y : Z) : option Z :=
  match cell_at chf (x + bs) (y + bs) with Ok c => find hr (krange (cIndex c) (cCount c)) | _ => None end.

Lemma own0_low : forall x y i, in_patch hp x y -> (own0 x y = Some i <-> lowest chf bs hp r (x, y, i)).
Proof.
  intros x y i P. destruct (patch_cell _ _ _ PO _ _ P) as [Px Py]. destruct (cell_ex chf wf _ _ Px Py) as [c C]. unfold own0. rewrite C.
  assert (SA : forall j, span_at chf (x + bs) (y + bs) j <-> In j (krange (cIndex c) (cCount c))).
  { intros j. rewrite in_krange. split; [intros (_ & _ & c' & C' & R); congruence|]. intros R. split; [exact Px|]. split; [exact Py|]. exists c. split; [exact C|lia]. }
  assert (G1 : forall E, find hr (krange (cIndex c) (cCount c)) = Some E -> lowest chf bs hp r (x, y, E)).
  { intros E Q. destruct (find_first _ _ _ (krange_sorted _ _) Q) as (I1 & I2 & I3). split; [exact P|]. split; [now apply SA|]. split.
    - unfold hr in I2. destruct (get (chf_spans chf) E) as [s| | |] eqn:G; try discriminate. exists s. split; [reflexivity|]. now apply Z.eqb_eq.
    - intros j s Sj L G Q'. apply SA in Sj. specialize (I3 j Sj L). unfold hr in I3. rewrite G in I3. apply Z.eqb_neq in I3. contradiction. }
  split; [apply G1|]. intros (_ & Si & (s & G & Rs) & Lo). destruct (find hr (krange (cIndex c) (cCount c))) as [k|] eqn:Fd.
  - destruct (G1 k eq_refl) as (_ & Sk & (sk & Gk & Rk) & Lk). f_equal. destruct (Z.lt_trichotomy k i) as [Q|[Q|Q]]; [|exact Q|].
    + exfalso. exact (Lo k sk Sk Q Gk Rk).
    + exfalso. exact (Lk i s Si Q G Rs).
  - exfalso. apply SA in Si. pose proof (find_none _ _ Fd _ Si) as Q. unfold hr in Q. rewrite G in Q. apply Z.eqb_neq in Q. contradiction.
Qed.

Lemma regionSpan_ok : forall ks, (forall i, In i ks -> exists s, get (chf_spans chf) i = Ok s) ->
  match find hr ks with Some i => exists s, get (chf_spans chf) i = Ok s /\ regionSpan chf r ks = Ok (Some (i, s)) | None => regionSpan chf r ks = Ok None end.
Proof.
  induction ks as [|k ks IH]; intros E; [reflexivity|]. cbn [find regionSpan]. destruct (E k (or_introl eq_refl)) as [s G]. unfold hr at 1. rewrite G. cbn [bind].
  destruct (csReg s =? r); [exists s; now split|]. apply IH. intros. apply E. now right.
Qed.

Lemma leaves_ok : forall X Y i s, span_at chf X Y i -> get (chf_spans chf) i = Ok s -> forall ds, (forall d, In d ds -> (d < 4)%nat) ->
  exists b, leavesRegion chf X Y (csCon s) r (map Z.of_nat ds) = Ok b /\
    (b = false -> forall d X' Y' j, In d ds -> linked chf d X Y i X' Y' j -> hr j = true).
Proof.
  intros X Y i s SA G ds. induction ds as [|d ds IH]; intros Hd; [exists false; split; [reflexivity|intros _ d X' Y' j []]|].
  cbn [map leavesRegion]. destruct IH as (b & Eb & Sb); [intros; apply Hd; now right|].
  destruct (Z.eqb_spec (GetCon (csCon s) (Z.of_nat d)) notConnected) as [N|N].
  - exists b. split; [exact Eb|]. intros B d' X' Y' j [<-|I] L; [|now apply (Sb B d' X' Y')]. destruct L as (_ & s' & c & G' & C & _). rewrite G in G'. apply Ok_inj in G'. subst s'. contradiction.
  - destruct (neighbour_ok chf wf d X Y i s SA (Hd d (or_introl eq_refl)) G N) as (X1 & Y1 & j1 & -> & L1 & S1). cbn [bind snd].
    destruct (span_get chf wf _ _ _ S1) as [s1 G1]. rewrite G1. cbn [bind]. destruct (csReg s1 =? r) eqn:R.
    + exists b. split; [exact Eb|]. intros B d' X' Y' j [<-|I] L; [|now apply (Sb B d' X' Y')]. destruct (linked_fun chf _ _ _ _ _ _ _ _ _ _ L1 L) as (_ & _ & <-). unfold hr. now rewrite G1.
    + exists true. split; [reflexivity|discriminate].
Qed.

Definition dr (data : list Z) (x y : Z) (o : option Z) : Prop :=
  match o with Some i => exists s, get (chf_spans chf) i = Ok s /\ dv data (idx x y) = csY s | None => dv data (idx x y) = 65535 end.
Record rinv (pre : list (Z * Z)) (st : list Z * list (Z * Z * Z) * bool) : Prop := {
  r_len : zlen (fst (fst st)) = zlen (hpData hp);
  r_rest : forall k, W * Ht <= k -> dv (fst (fst st)) k = dv (hpData hp) k;
  r_in : forall x y, in_patch hp x y -> In (x - x0, y - y0) pre -> dr (fst (fst st)) x y (own0 x y);
  r_out : forall x y, in_patch hp x y -> ~ In (x - x0, y - y0) pre -> dr (fst (fst st)) x y None;
  r_queue : forall x y i, In (x + bs, y + bs, i) (snd (fst st)) -> In (x - x0, y - y0) pre /\ own0 x y = Some i;
  r_shut : forall x y i, In (x - x0, y - y0) pre -> own0 x y = Some i -> In (x + bs, y + bs, i) (snd (fst st)) \/
    forall d X' Y' j, (d < 4)%nat -> linked chf d (x + bs) (y + bs) i X' Y' j -> hr j = true;
  r_empty : if snd st then forall x y, In (x - x0, y - y0) pre -> own0 x y = None else exists x y, In (x - x0, y - y0) pre /\ own0 x y <> None }.

Lemma region_loop : forall data, zlen data = zlen (hpData hp) -> (forall k, 0 <= k < W * Ht -> dv data k = 65535) -> (forall k, W * Ht <= k -> dv data k = dv (hpData hp) k) ->
  exists st, foldM (regionCell chf bs hp r) (rectCells 0 W 0 Ht) (data, [], true) = Ok st /\ rinv (rectCells 0 W 0 Ht) st.
Proof.
  intros data L0 V0 R0. apply (foldM_inv (regionCell chf bs hp r) rinv).
  - constructor; cbn [fst snd]; try assumption.
    + intros x y _ [].
    + intros x y P _. cbn [dr]. apply V0. now apply idx_range.
    + intros x y i [].
    + intros x y i [].
    + intros x y [].
  - intros pre [hx hy] post [[d q] e] Er [I1 I2 I3 I4 I5 I6 I7]. cbn [fst snd] in *.
    assert (Rh : 0 <= hx < W /\ 0 <= hy < Ht) by (apply in_rect; rewrite Er; apply in_elt).
    assert (NI : ~ In (hx, hy) pre).
    { pose proof (NoDup_rect 0 W 0 Ht) as ND. rewrite Er in ND. apply NoDup_remove_2 in ND. intros Q. apply ND. apply in_app_iff. now left. }
    set (x := x0 + hx). set (y := y0 + hy). assert (Ex : hx = x - x0) by (unfold x; lia). assert (Ey : hy = y - y0) by (unfold y; lia).
    assert (P : in_patch hp x y) by (unfold in_patch, x, y; lia). destruct (patch_cell _ _ _ PO _ _ P) as [Px Py]. destruct (cell_ex chf wf _ _ Px Py) as [c C].
    unfold regionCell. replace (x0 + hx + bs) with (x + bs) by (unfold x; lia). replace (y0 + hy + bs) with (y + bs) by (unfold y; lia).
    pose proof C as C'. unfold cell_at in C'. unfold cidx. rewrite C'. cbn [bind].
    assert (SA : forall j, In j (krange (cIndex c) (cCount c)) -> span_at chf (x + bs) (y + bs) j).
    { intros j R. apply in_krange in R. split; [exact Px|]. split; [exact Py|]. exists c. split; [exact C|lia]. }
    pose proof (regionSpan_ok (krange (cIndex c) (cCount c))) as RS.
    assert (OE : own0 x y = find hr (krange (cIndex c) (cCount c))) by (unfold own0; now rewrite C).
    rewrite <- OE in RS.
    assert (InE : forall a b, In (a - x0, b - y0) (pre ++ [(hx, hy)]) <-> In (a - x0, b - y0) pre \/ (a = x /\ b = y)).
    { intros a b. rewrite in_app_iff. cbn [In]. split; [intros [Q|[Q|[]]]; [now left|right; assert (hx = a - x0) by congruence; assert (hy = b - y0) by congruence; lia]|].
      intros [Q|[-> ->]]; [now left|right; left; congruence]. }
    assert (RS' := RS (fun i Hi => span_get chf wf _ _ _ (SA i Hi))). clear RS.
    destruct (own0 x y) as [i|] eqn:O0.
    + destruct RS' as (s & G & ->). cbn [bind].
      assert (Si : span_at chf (x + bs) (y + bs) i) by (apply own0_low in O0; [apply O0|exact P]).
      assert (EI : patchIdx hp hx hy = idx x y) by (unfold patchIdx, HeightFlood.idx; rewrite Ex, Ey; reflexivity).
      rewrite EI. pose proof (idx_range hp _ _ P) as RI. rewrite set_in_range by (rewrite I1; destruct PO; lia). cbn [bind].
      destruct (leaves_ok _ _ _ _ Si G [0; 1; 2; 3]%nat) as (b & Eb & Sb).
      { cbn. intros d' Q. repeat (destruct Q as [<-|Q]; [lia|]). destruct Q. }
      change (map Z.of_nat [0; 1; 2; 3]%nat) with [0; 1; 2; 3] in Eb. rewrite Eb. cbn [bind]. eexists. split; [reflexivity|].
      assert (DU : forall a b o, in_patch hp a b -> (a, b) <> (x, y) -> dr d a b o -> dr (upd d (Z.to_nat (idx x y)) (csY s)) a b o).
      { intros a b' o Pa Na D. unfold dr in *. rewrite dv_upd; [|rewrite I1; destruct PO; lia|pose proof (idx_range hp _ _ Pa); lia].
        destruct (Z.eqb_spec (idx a b') (idx x y)) as [Q|_]; [|exact D]. apply idx_inj in Q; [exfalso; apply Na; destruct Q; congruence|exact Pa|exact P]. }
      constructor; cbn [fst snd].
      * now rewrite zlen_upd.
      * intros k Hk. rewrite dv_upd; [|rewrite I1; destruct PO; lia|lia]. destruct (Z.eqb_spec k (idx x y)); [lia|]. now apply I2.
      * intros a b' Pa Q. apply InE in Q. destruct (Z.eq_dec a x) as [Ea|Na]; [destruct (Z.eq_dec b' y) as [Eb'|Nb]|].
        -- subst a b'. rewrite O0. exists s. split; [exact G|]. rewrite dv_upd; [|rewrite I1; destruct PO; lia|lia]. now rewrite Z.eqb_refl.
        -- apply DU; [exact Pa|congruence|]. apply I3; [exact Pa|]. destruct Q as [Q|[_ Q]]; [exact Q|contradiction].
        -- apply DU; [exact Pa|congruence|]. apply I3; [exact Pa|]. destruct Q as [Q|[Q _]]; [exact Q|contradiction].
      * intros a b' Pa Q. apply DU; [exact Pa| |].
        -- intros Q'. apply Q. apply InE. right. split; congruence.
        -- apply I4; [exact Pa|]. intros Q'. apply Q. apply InE. now left.
      * intros a b' k Q. assert (Q' : In (a + bs, b' + bs, k) q \/ (a + bs, b' + bs, k) = (x + bs, y + bs, i)).
        { destruct b; [|now left]. apply in_app_iff in Q. destruct Q as [Q|[Q|[]]]; [now left|right; congruence]. }
        destruct Q' as [Q'|Q']; [destruct (I5 _ _ _ Q') as [J1 J2]; split; [apply InE; now left|exact J2]|].
        assert (a = x) by (assert (a + bs = x + bs) by congruence; lia). assert (b' = y) by (assert (b' + bs = y + bs) by congruence; lia). assert (k = i) by congruence. subst a b' k.
        split; [apply InE; right; now split|exact O0].
      * intros a b' k Q Ok'. apply InE in Q. destruct Q as [Q|[-> ->]].
        -- destruct (I6 _ _ _ Q Ok') as [J|J]; [left; destruct b; [apply in_app_iff; now left|exact J]|right; exact J].
        -- assert (k = i) by congruence. subst k. destruct b; [left; apply in_app_iff; right; now left|]. right. intros d' X' Y' j Hd' L'. apply (Sb eq_refl d' X' Y'); [cbn; lia|exact L'].
      * exists x, y. split; [apply InE; right; now split|congruence].
    + rewrite RS'. cbn [bind]. eexists. split; [reflexivity|]. constructor; cbn [fst snd]; try assumption.
      * intros a b' Pa Q. apply InE in Q. destruct Q as [Q|[-> ->]]; [now apply I3|]. rewrite O0. apply I4; [exact Pa|]. rewrite <- Ex, <- Ey. exact NI.
      * intros a b' Pa Q. apply I4; [exact Pa|]. intros Q'. apply Q. apply InE. now left.
      * intros a b' k Q. destruct (I5 _ _ _ Q) as [J1 J2]. split; [apply InE; now left|exact J2].
      * intros a b' k Q Ok'. apply InE in Q. destruct Q as [Q|[-> ->]]; [now apply I6|congruence].
      * destruct e.
        -- intros a b' Q. apply InE in Q. destruct Q as [Q|[-> ->]]; [now apply I7|exact O0].
        -- destruct I7 as (a & b' & J1 & J2). exists a, b'. split; [apply InE; now left|exact J2].
Qed.

Lemma in_all : forall x y, in_patch hp x y <-> In (x - x0, y - y0) (rectCells 0 W 0 Ht).
Proof. intros x y. rewrite in_rect. unfold in_patch. lia. Qed.

Lemma region_finv : forall st, rinv (rectCells 0 W 0 Ht) st -> snd st = false ->
  finv chf bs hp (lowest chf bs hp r) (fun x y => if inPatch hp (x - x0) (y - y0) then own0 x y else None) (fst (fst st)) (snd (fst st)) (fun _ => False).
Proof.
  intros [[d q] e] [I1 I2 I3 I4 I5 I6 I7] Ee. cbn [fst snd] in *.
  assert (OP : forall x y, in_patch hp x y -> (if inPatch hp (x - x0) (y - y0) then own0 x y else None) = own0 x y) by (intros x y P; apply inPatch_ok in P; now rewrite P).
  constructor; try assumption.
  - intros x y P. rewrite OP by exact P. pose proof (I3 x y P (proj1 (in_all x y) P)) as D. unfold dr in D. destruct (own0 x y) as [i|] eqn:O; [|exact D].
    split; [|exact D]. apply own0_low in O; [apply O|exact P].
  - intros x y i S. assert (P : in_patch hp x y) by apply S. split; [exact P|]. rewrite OP by exact P. now apply own0_low.
  - intros x y i Q. destruct (I5 _ _ _ Q) as [J1 J2]. apply in_all in J1. split; [exact J1|]. now rewrite OP.
  - intros x y i P O. rewrite OP in O by exact P. destruct (I6 x y i (proj1 (in_all x y) P) O) as [J|J]; [now left|]. right. left.
    intros x' y' j (P' & d' & Hd & L). rewrite OP by exact P'. specialize (J d' _ _ _ Hd L).
    assert (Si : span_at chf (x + bs) (y + bs) i) by (apply own0_low in O; [apply O|exact P]).
    destruct L as (EX & s & c & G & Nc & C & Ej).
    destruct (ok_link _ wf _ _ _ d' s Si Hd G Nc) as (X2 & Y2 & j2 & L2 & S2).
    assert (Sj : span_at chf (x' + bs) (y' + bs) j).
    { destruct L2 as (EX2 & s2 & c2 & G2 & _ & C2 & Ej2). rewrite G in G2. apply Ok_inj in G2. subst s2. assert (X2 = x' + bs) by congruence. assert (Y2 = y' + bs) by congruence. subst X2 Y2.
      rewrite C in C2. apply Ok_inj in C2. subst c2. subst j j2. exact S2. }
    destruct Sj as (_ & _ & c3 & C3 & R3). unfold own0. rewrite C3. intros Fn. pose proof (find_none _ _ Fn j) as Q. rewrite Q in J; [discriminate|]. apply in_krange. lia.
  - intros x y i P O. rewrite OP in O by exact P. exists (x, y, i). split; [now apply own0_low|apply rt_refl].
Qed.
End Region.
