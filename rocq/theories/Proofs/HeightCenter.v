(** getHeightData: the seed at the center of the polygon (C76). *)
From Coq Require Import ZArith List Bool Lia Relations.
From Verif.Base Require Import Res GoNum Grid.
From Verif.Model Require Import Heightfield Dirs Compact Erode Region HeightSearch HeightData.
From Verif.Spec Require Import HeightfieldSpec CompactSpec ErodeSpec HeightSpec.
From Verif.Proofs Require Import ErodeProofs ErodeDist RegionBase HeightFlood.
Import ListNotations.
Open Scope Z_scope.

Section Center.
Variable chf : CompactHeightfield.
Hypothesis wf : chf_wf chf.
Variables (bs : Z) (hp : HeightPatch).
Hypothesis PO : patch_ok chf bs hp.
Variables (poly verts : list Z).
Hypothesis PV : poly_ok poly verts.
Notation W := (hpWidth hp).
Notation Ht := (hpHeight hp).
Notation x0 := (hpXmin hp).
Notation y0 := (hpYmin hp).
Notation idx := (idx hp).

(** ** The span to start from *)
Definition cset := Z -> Z -> Z -> Z -> Prop.
Definition best (C : cset) (st : Z * Z * Z * Z) : Prop :=
  let '(sx, sy, si, dmin) := st in 0 <= dmin /\
  ((si = -1 /\ dmin = 65535 /\ forall x y i d, C x y i d -> 65535 <= d) \/
   (si <> -1 /\ C sx sy si dmin /\ dmin < 65535 /\ forall x y i d, C x y i d -> dmin <= d)).
Lemma best_iff : forall (C C' : cset) st, (forall x y i d, C x y i d <-> C' x y i d) -> best C st -> best C' st.
Proof.
  intros C C' [[[sx sy] si] dm] E [B0 B]. split; [exact B0|]. destruct B as [(B1 & B2 & B3)|(B1 & B2 & B3 & B4)]; [left|right]; repeat split; try assumption.
  - intros x y i d Q. apply (B3 x y i d). now apply E.
  - now apply E.
  - intros x y i d Q. apply (B4 x y i d). now apply E.
Qed.
Lemma best_skip : forall (C C' : cset) sx sy si, best C (sx, sy, si, 0) -> (forall x y i d, C x y i d -> C' x y i d) -> (forall x y i d, C' x y i d -> 0 <= d) -> best C' (sx, sy, si, 0).
Proof.
  intros C C' sx sy si [B0 B] S N. split; [lia|]. destruct B as [(_ & B & _)|(B1 & B2 & B3 & B4)]; [lia|]. right. split; [exact B1|]. split; [now apply S|]. split; [lia|exact N].
Qed.
Lemma iAbs_abs : forall z, -2147483648 < z < 2147483648 -> iAbs z = Z.abs z.
Proof. intros z Hz. unfold iAbs. destruct (z <? 0) eqn:E; [apply Z.ltb_lt in E; unfold i32; rewrite Z.mod_small; lia|apply Z.ltb_ge in E; lia]. Qed.

Lemma closerSpan_ok : forall (C : cset) ax ay az i s st, get (chf_spans chf) i = Ok s -> 0 <= i -> 0 <= ay < 65536 -> (forall x y i d, C x y i d -> 0 <= d) -> best C st ->
  exists st', closerSpan chf ax ay az st i = Ok st' /\ best (fun x y k d => C x y k d \/ (x, y, k, d) = (ax, az, i, Z.abs (ay - csY s))) st'.
Proof.
  intros C ax ay az i s [[[sx sy] si] dm] G Ri Ra CN B. pose proof (po_unset _ _ _ PO _ _ G) as U. cbn [closerSpan].
  destruct (Z.gtb_spec dm 0) as [D|D].
  - rewrite G. cbn [bind]. rewrite iAbs_abs by lia. eexists. split; [reflexivity|]. destruct B as [B0 B]. destruct (Z.ltb_spec (Z.abs (ay - csY s)) dm) as [L|L].
    + split; [lia|]. right. split; [lia|]. split; [now right|]. split; [destruct B as [B|B]; lia|]. intros x y k d [Q|Q]; [|assert (d = Z.abs (ay - csY s)) by congruence; lia].
      destruct B as [(_ & B & B')|(_ & _ & B & B')]; specialize (B' _ _ _ _ Q); lia.
    + split; [exact B0|]. destruct B as [(B1 & B2 & B3)|(B1 & B2 & B3 & B4)]; [left|right].
      * split; [exact B1|]. split; [exact B2|]. intros x y k d [Q|Q]; [now apply (B3 x y k)|]. assert (d = Z.abs (ay - csY s)) by congruence. lia.
      * split; [exact B1|]. split; [now left|]. split; [exact B3|]. intros x y k d [Q|Q]; [now apply (B4 x y k)|]. assert (d = Z.abs (ay - csY s)) by congruence. lia.
  - assert (dm = 0) by (destruct B; lia). subst dm. eexists. split; [reflexivity|]. eapply best_skip; [exact B|intros; now left|].
    intros x y k d [Q|Q]; [now apply (CN x y k)|]. assert (d = Z.abs (ay - csY s)) by congruence. lia.
Qed.

(** Candidates around one vertex, at one offset. *)
Definition candAt (po : Z * (Z * Z)) : cset := fun x y i d =>
  exists vx vy vz s, get verts (3 * fst po) = Ok vx /\ get verts (3 * fst po + 1) = Ok vy /\ get verts (3 * fst po + 2) = Ok vz /\
    x = vx + fst (snd po) /\ y = vz + snd (snd po) /\ in_patch hp x y /\ span_at chf (x + bs) (y + bs) i /\ get (chf_spans chf) i = Ok s /\ d = Z.abs (vy - csY s).
Lemma candAt_nn : forall po x y i d, candAt po x y i d -> 0 <= d.
Proof. intros po x y i d (vx & vy & vz & s & _ & _ & _ & _ & _ & _ & _ & _ & ->). lia. Qed.

Lemma vert_get : forall p k, In p poly -> 0 <= k <= 2 -> exists v, get verts (u16 (u16 (p * 3) + k)) = Ok v /\ get verts (3 * p + k) = Ok v /\ 0 <= v < 65536.
Proof.
  intros p k I Hk. destruct PV as [_ V R]. destruct (V p I) as [V1 V2]. destruct (get_in_range verts (3 * p + k)) as [v G]; [lia|].
  exists v. rewrite (u16_id (p * 3)) by (unfold is_u16; lia). rewrite u16_id by (unfold is_u16; lia). replace (p * 3 + k) with (3 * p + k) by lia. split; [exact G|]. split; [exact G|].
  specialize (R p k I Hk). apply get_ok in G as [_ G]. now rewrite (nth_error_nth _ _ 0 G) in R.
Qed.

Lemma closerCell_ok : forall (C : cset) po st, In (fst po) poly -> (forall x y i d, C x y i d -> 0 <= d) -> best C st ->
  exists st', closerCell chf verts bs hp st po = Ok st' /\ best (fun x y k d => C x y k d \/ candAt po x y k d) st'.
Proof.
  intros C [p [ox oz]] [[[sx sy] si] dm] I CN B. cbn [fst] in I. cbn [closerCell].
  destruct (Z.gtb_spec dm 0) as [D|D].
  - destruct (vert_get p 0 I) as (vx & -> & Gx & Rx); [lia|]. destruct (vert_get p 1 I) as (vy & -> & Gy & Ry); [lia|]. destruct (vert_get p 2 I) as (vz & -> & Gz & Rz); [lia|]. cbn [bind].
    rewrite Z.add_0_r in Gx.
    assert (CE : forall x y i d, candAt (p, (ox, oz)) x y i d <-> x = vx + ox /\ y = vz + oz /\ in_patch hp x y /\ span_at chf (x + bs) (y + bs) i /\ exists s, get (chf_spans chf) i = Ok s /\ d = Z.abs (vy - csY s)).
    { intros x y i d. unfold candAt. cbn [fst snd]. split.
      - intros (ax & ay & az & s & Q1 & Q2 & Q3 & Q). rewrite Gx in Q1. rewrite Gy in Q2. rewrite Gz in Q3. apply Ok_inj in Q1, Q2, Q3. subst ax ay az. destruct Q as (Q1 & Q2 & Q3 & Q4 & Q5 & Q6). do 4 (split; [assumption|]). exists s. now split.
      - intros (Q1 & Q2 & Q3 & Q4 & s & Q5 & Q6). exists vx, vy, vz, s. do 8 (split; [assumption|]). exact Q6. }
    destruct (inPatch hp (vx + ox - x0) (vz + oz - y0)) eqn:IP; cbn [negb].
    + apply inPatch_ok in IP. destruct (patch_cell _ _ _ PO _ _ IP) as [Px Py]. destruct (cell_ex chf wf _ _ Px Py) as [c Cc].
      pose proof Cc as Cc'. unfold cell_at in Cc'. unfold cidx. rewrite Cc'. cbn [bind].
      assert (SA : forall j, In j (krange (cIndex c) (cCount c)) <-> span_at chf (vx + ox + bs) (vz + oz + bs) j).
      { intros j. rewrite in_krange. split; [intros R; split; [exact Px|]; split; [exact Py|]; exists c; split; [exact Cc|lia]|]. intros (_ & _ & c' & C' & R). congruence. }
      destruct (foldM_inv (closerSpan chf (vx + ox) vy (vz + oz)) (fun pre st => best (fun x y k d => C x y k d \/ (In k pre /\ candAt (p, (ox, oz)) x y k d)) st) (krange (cIndex c) (cCount c)) (sx, sy, si, dm)) as (st' & E & B').
      * eapply best_iff; [|exact B]. intros x y k d. split; [now left|]. intros [Q|[[] _]]. exact Q.
      * intros pre a post st Ea Bs. assert (Ia : span_at chf (vx + ox + bs) (vz + oz + bs) a) by (apply SA; rewrite Ea; apply in_elt).
        destruct (span_get chf wf _ _ _ Ia) as [s G]. assert (Ra : 0 <= a) by (apply get_ok in G; lia).
        assert (NN : forall x y k d : Z, C x y k d \/ In k pre /\ candAt (p, (ox, oz)) x y k d -> 0 <= d).
        { intros x y k d [Q|[_ Q]]; [now apply (CN x y k)|now apply candAt_nn in Q]. }
        destruct (closerSpan_ok _ (vx + ox) vy (vz + oz) a s st G Ra Ry NN Bs) as (st' & E' & B'').
        exists st'. split; [exact E'|]. eapply best_iff; [|exact B'']. intros x y k d. split.
        -- intros [[Q|[Q1 Q2]]|Q]; [now left|right; split; [apply in_app_iff; now left|exact Q2]|]. right.
           assert (x = vx + ox) by congruence. assert (y = vz + oz) by congruence. assert (k = a) by congruence. assert (d = Z.abs (vy - csY s)) by congruence. subst x y k d.
           split; [apply in_app_iff; right; now left|]. apply CE. do 2 (split; [reflexivity|]). split; [exact IP|]. split; [exact Ia|]. exists s. now split.
        -- intros [Q|[Q1 Q2]]; [left; now left|]. apply in_app_iff in Q1. destruct Q1 as [Q1|[<-|[]]]; [left; right; now split|]. right.
           apply CE in Q2. destruct Q2 as (-> & -> & _ & _ & s' & G' & ->). rewrite G in G'. apply Ok_inj in G'. now subst s'.
      * exists st'. split; [exact E|]. eapply best_iff; [|exact B']. intros x y k d. split; [intros [Q|[_ Q]]; [now left|now right]|]. intros [Q|Q]; [now left|]. right. split; [|exact Q].
        apply CE in Q. destruct Q as (-> & -> & _ & Q & _). now apply SA.
    + eexists. split; [reflexivity|]. eapply best_iff; [|exact B]. intros x y k d. split; [now left|]. intros [Q|Q]; [exact Q|]. exfalso. apply CE in Q. destruct Q as (-> & -> & Q & _).
      apply inPatch_ok in Q. congruence.
  - assert (dm = 0) by (destruct B; lia). subst dm. eexists. split; [reflexivity|]. eapply best_skip; [exact B|intros; now left|].
    intros x y k d [Q|Q]; [now apply (CN x y k)|now apply candAt_nn in Q].
Qed.

Lemma near_cand : forall x y i d, near chf poly verts bs hp x y i d <-> exists po, In po (flat_map (fun p => map (fun o => (p, o)) bsOffset) poly) /\ candAt po x y i d.
Proof.
  intros x y i d. split.
  - intros (p & vx & vy & vz & s & I & Gx & Gy & Gz & Ax & Ay & P & SA & G & E). exists (p, (x - vx, y - vz)). split.
    + apply in_flat_map. exists p. split; [exact I|]. apply in_map. assert (Cx : x - vx = -1 \/ x - vx = 0 \/ x - vx = 1) by lia. assert (Cy : y - vz = -1 \/ y - vz = 0 \/ y - vz = 1) by lia.
      destruct Cx as [->|[->| ->]], Cy as [->|[->| ->]]; unfold bsOffset; cbn [In]; tauto.
    + exists vx, vy, vz, s. cbn [fst snd]. do 3 (split; [assumption|]). split; [lia|]. split; [lia|]. do 3 (split; [assumption|]). exact E.
  - intros (po & I & vx & vy & vz & s & Gx & Gy & Gz & Ex & Ey & P & SA & G & E). apply in_flat_map in I. destruct I as (p & I & I'). apply in_map_iff in I'. destruct I' as ([ox oz] & <- & I'). cbn [fst snd] in *.
    exists p, vx, vy, vz, s. do 4 (split; [assumption|]). assert (-1 <= ox <= 1 /\ -1 <= oz <= 1).
    { unfold bsOffset in I'. cbn [In] in I'. repeat (destruct I' as [I'|I']; [injection I' as <- <-; lia|]). destruct I'. }
    split; [lia|]. split; [lia|]. do 3 (split; [assumption|]). exact E.
Qed.

Lemma start_ok : exists st, foldM (closerCell chf verts bs hp) (flat_map (fun p => map (fun o => (p, o)) bsOffset) poly) (0, 0, -1, unsetHeight) = Ok st /\ best (near chf poly verts bs hp) st.
Proof.
  destruct (foldM_inv (closerCell chf verts bs hp) (fun pre st => best (fun x y k d => exists po, In po pre /\ candAt po x y k d) st) (flat_map (fun p => map (fun o => (p, o)) bsOffset) poly) (0, 0, -1, unsetHeight)) as (st & E & B).
  - split; [unfold unsetHeight; lia|]. left. split; [reflexivity|]. split; [reflexivity|]. intros x y i d (po & [] & _).
  - intros pre a post st Ea B.
    assert (NN : forall x y k d : Z, (exists po, In po pre /\ candAt po x y k d) -> 0 <= d) by (intros x y i d (po & _ & Q); now apply candAt_nn in Q).
    assert (Ia : In (fst a) poly).
    { assert (Q : In a (flat_map (fun p => map (fun o => (p, o)) bsOffset) poly)) by (rewrite Ea; apply in_elt). apply in_flat_map in Q. destruct Q as (p & I & Q). apply in_map_iff in Q. destruct Q as (o & <- & _). exact I. }
    destruct (closerCell_ok _ a st Ia NN B) as (st' & E' & B'). exists st'. split; [exact E'|]. eapply best_iff; [|exact B']. intros x y k d. split.
    + intros [(po & I & Q)|Q]; [exists po|exists a]; (split; [apply in_app_iff|exact Q]); [now left|right; now left].
    + intros (po & I & Q). apply in_app_iff in I. destruct I as [I|[<-|[]]]; [left; now exists po|now right].
  - exists st. split; [exact E|]. eapply best_iff; [|exact B]. intros. symmetry. apply near_cand.
Qed.

(** ** The center *)
Lemma center_ok : poly <> [] -> polyCenter poly verts = Ok (mean poly verts 0, mean poly verts 2).
Proof.
  intros NE. unfold polyCenter.
  destruct (foldM_inv (fun st p => let* x := get verts (u16 (u16 (p * 3) + 0)) in let* y := get verts (u16 (u16 (p * 3) + 2)) in Ok (i32 (fst st + x), i32 (snd st + y)))
    (fun pre (st : Z * Z) => st = (total pre verts 0, total pre verts 2) /\ 0 <= fst st <= 65535 * zlen pre /\ 0 <= snd st <= 65535 * zlen pre) poly (0, 0)) as ([sx sy] & E & Es & R & R').
  - split; [reflexivity|]. cbn. lia.
  - intros pre a post [sx sy] Ea (Es & R1 & R2). cbn [fst snd] in *. assert (Ia : In a poly) by (rewrite Ea; apply in_elt).
    destruct (vert_get a 0 Ia) as (vx & -> & Gx & Rx); [lia|]. destruct (vert_get a 2 Ia) as (vz & -> & Gz & Rz); [lia|]. cbn [bind].
    assert (Lp : zlen pre + 1 <= 32767). { destruct PV as [L _ _]. rewrite Ea, zlen_app in L. unfold zlen in *. cbn [length] in L. lia. }
    eexists. split; [reflexivity|]. rewrite !i32_id by (unfold is_i32; lia). cbn [fst snd].
    assert (T : forall k v, get verts (3 * a + k) = Ok v -> total (pre ++ [a]) verts k = total pre verts k + v).
    { intros k v G. unfold total. rewrite map_app, fold_right_app. cbn [map fold_right]. apply get_ok in G as [_ G]. rewrite (nth_error_nth _ _ _ G). rewrite Z.add_0_r.
      clear. induction (map _ pre) as [|b l IH]; cbn [fold_right]; lia. }
    rewrite (T 0 vx Gx), (T 2 vz Gz). assert (sx = total pre verts 0) by congruence. assert (sy = total pre verts 2) by congruence. subst sx sy. split; [reflexivity|].
    rewrite zlen_app. unfold zlen at 2 4. cbn [length]. lia.
  - rewrite E. cbn [bind]. assert (zlen poly <> 0) by (unfold zlen; destruct poly; [congruence|cbn [length]; lia]). destruct (Z.eqb_spec (zlen poly) 0); [contradiction|].
    cbn [fst snd] in R, R'. assert (0 <= zlen poly) by (unfold zlen; lia). assert (E1 : sx = total poly verts 0) by congruence. assert (E2 : sy = total poly verts 2) by congruence.
    unfold mean. rewrite !Z.quot_div_nonneg by lia. now rewrite E1, E2.
Qed.

(** ** The walk *)
Lemma walkDirs_ok : forall cx cy pcx pcy, exists l, walkDirs cx cy pcx pcy = Ok (map Z.of_nat l) /\ forall d, In d l <-> (d < 4)%nat.
Proof.
  intros cx cy pcx pcy. unfold walkDirs.
  destruct (cx =? pcx); [destruct (pcy >? cy)|destruct (pcx >? cx)]; cbv -[In Nat.lt map].
  - exists [0; 3; 2; 1]%nat. split; [reflexivity|]. intros d. cbn [In]. lia.
  - exists [0; 1; 2; 3]%nat. split; [reflexivity|]. intros d. cbn [In]. lia.
  - exists [0; 1; 3; 2]%nat. split; [reflexivity|]. intros d. cbn [In]. lia.
  - exists [3; 1; 2; 0]%nat. split; [reflexivity|]. intros d. cbn [In]. lia.
Qed.

Notation start p := (in_patch hp (fst (fst p)) (snd (fst p)) /\ span_at chf (fst (fst p) + bs) (snd (fst p) + bs) (snd p)) (only parsing).
Section Walk.
Variable s0 : Z * Z * Z.
(** [P] are the triples popped; the cells marked have a triple popped or on the stack. *)
Record winv (P : list (Z * Z * Z)) (data : list Z) (stack : list (Z * Z * Z)) : Prop := {
  w_len : zlen data = zlen (hpData hp);
  w_rest : forall k, W * Ht <= k -> dv data k = dv (hpData hp) k;
  w_tri : forall p, In p (P ++ stack) -> start p /\ clos_refl_trans _ (hop chf bs hp) s0 p;
  w_mark : forall x y, in_patch hp x y -> dv data (idx x y) <> 0 -> exists j, In (x, y, j) (P ++ stack);
  w_s0 : In s0 (P ++ stack) }.
Definition opened (data : list Z) (p : Z * Z * Z) : Prop := forall p', hop chf bs hp p p' -> dv data (idx (fst (fst p')) (snd (fst p'))) <> 0.
Definition grows (data data' : list Z) : Prop := forall x y, in_patch hp x y -> dv data (idx x y) <> 0 -> dv data' (idx x y) <> 0.

Lemma walkDir_ok : forall P data stack x y i s d, winv P data stack -> In (x, y, i) P -> get (chf_spans chf) i = Ok s -> (d < 4)%nat ->
  exists data' stack', walkDir chf bs hp x y (csCon s) (data, stack) (Z.of_nat d) = Ok (data', stack') /\ winv P data' stack' /\ grows data data' /\
    (length stack' + cnt hp 0 data' = length stack + cnt hp 0 data)%nat /\
    (forall x' y' j, in_patch hp x' y' -> linked chf d (x + bs) (y + bs) i (x' + bs) (y' + bs) j -> dv data' (idx x' y') <> 0).
Proof.
  intros P data stack x y i s d I Ip Gs Hd. unfold walkDir.
  destruct (w_tri _ _ _ I (x, y, i)) as [[Px SA] R]; [apply in_app_iff; now left|]. cbn [fst snd] in *.
  destruct (Z.eqb_spec (GetCon (csCon s) (Z.of_nat d)) notConnected) as [Nc|Nc].
  - exists data, stack. split; [reflexivity|]. split; [exact I|]. split; [intros a b _ Q; exact Q|]. split; [reflexivity|].
    intros x' y' j _ (_ & s' & c & Gs' & C & _). rewrite Gs in Gs'. apply Ok_inj in Gs'. subst s'. contradiction.
  - destruct (dirs_ok d Hd) as [-> ->]. cbn [bind].
    destruct (ok_link _ wf _ _ _ d s SA Hd Gs Nc) as (X & Y & j & LK & SJ).
    destruct (LK) as (EX & s' & c & Gs' & _ & C & Ej). rewrite Gs in Gs'. apply Ok_inj in Gs'. subst s'.
    set (nx := x + fst (dir_step d)). set (ny := y + snd (dir_step d)).
    assert (HX : X = nx + bs) by (assert (X = x + bs + fst (dir_step d)) by congruence; unfold nx; lia). assert (HY : Y = ny + bs) by (assert (Y = y + bs + snd (dir_step d)) by congruence; unfold ny; lia).
    subst X Y.
    destruct (inPatch hp (nx - x0) (ny - y0)) eqn:IP; cbn [negb].
    + apply inPatch_ok in IP.
      change (patchIdx hp (nx - x0) (ny - y0)) with (idx nx ny).
      pose proof (idx_range hp _ _ IP) as RI. assert (RL : 0 <= idx nx ny < zlen data) by (rewrite (w_len _ _ _ I); destruct PO; lia).
      rewrite get_dv by exact RL. cbn [bind]. destruct (Z.eqb_spec (dv data (idx nx ny)) 0) as [V|V]; cbn [negb].
      * rewrite set_in_range by exact RL. cbn [bind]. unfold cell_at in C. unfold cidx. rewrite C. cbn [bind]. rewrite <- Ej.
        assert (HO : hop chf bs hp (x, y, i) (nx, ny, j)) by (split; [exact IP|]; exists d; now split).
        assert (GR : grows data (upd data (Z.to_nat (idx nx ny)) 1)).
        { intros a b Pa Q. rewrite dv_upd by (try lia; pose proof (idx_range hp _ _ Pa); lia). destruct (idx a b =? idx nx ny); [lia|exact Q]. }
        eexists _, _. split; [reflexivity|]. split; [|split; [exact GR|split]].
        -- constructor.
           ++ rewrite zlen_upd. apply I.
           ++ intros k Hk. rewrite dv_upd by lia. destruct (Z.eqb_spec k (idx nx ny)); [lia|]. now apply I.
           ++ intros p Q. rewrite in_app_iff in Q. cbn [In] in Q. destruct Q as [Q|[<-|Q]]; [apply I; apply in_app_iff; now left| |apply I; apply in_app_iff; now right].
              cbn [fst snd]. split; [now split|]. eapply rt_trans; [exact R|now apply rt_step].
           ++ intros a b Pa Q. rewrite dv_upd in Q by (try lia; pose proof (idx_range hp _ _ Pa); lia). destruct (Z.eqb_spec (idx a b) (idx nx ny)) as [E|_].
              ** apply idx_inj in E; [|exact Pa|exact IP]. destruct E as [-> ->]. exists j. apply in_app_iff. right. now left.
              ** destruct (w_mark _ _ _ I a b Pa Q) as [k K]. exists k. apply in_app_iff in K. apply in_app_iff. destruct K as [K|K]; [now left|right; now right].
           ++ pose proof (w_s0 _ _ _ I) as K. apply in_app_iff in K. apply in_app_iff. destruct K as [K|K]; [now left|right; now right].
        -- rewrite (cnt_upd hp 0 1 data (idx nx ny)); [cbn [length]; lia|exact RI| |exact V|lia]. rewrite (w_len _ _ _ I). destruct PO; lia.
        -- intros x' y' j' P' L'. destruct (linked_fun chf _ _ _ _ _ _ _ _ _ _ LK L') as (E1 & E2 & _). assert (x' = nx) by lia. assert (y' = ny) by lia. subst x' y'.
           rewrite dv_upd by lia. rewrite Z.eqb_refl. lia.
      * exists data, stack. split; [reflexivity|]. split; [exact I|]. split; [intros a b _ Q; exact Q|]. split; [reflexivity|].
        intros x' y' j' P' L'. destruct (linked_fun chf _ _ _ _ _ _ _ _ _ _ LK L') as (E1 & E2 & _). assert (x' = nx) by lia. assert (y' = ny) by lia. subst x' y'. exact V.
    + exists data, stack. split; [reflexivity|]. split; [exact I|]. split; [intros a b _ Q; exact Q|]. split; [reflexivity|].
      intros x' y' j' P' L'. exfalso. destruct (linked_fun chf _ _ _ _ _ _ _ _ _ _ LK L') as (E1 & E2 & _). assert (x' = nx) by lia. assert (y' = ny) by lia. subst x' y'.
      apply inPatch_ok in P'. congruence.
Qed.

Lemma grows_in : forall data data' p, grows data data' -> opened data p -> opened data' p.
Proof. intros data data' p G O [[x y] j] Hh. cbn [fst snd]. apply G; [destruct p as [[a b] c]; apply Hh|]. exact (O (x, y, j) Hh). Qed.

Lemma walkDirs_loop : forall P x y i s, In (x, y, i) P -> get (chf_spans chf) i = Ok s -> forall ds data stack, winv P data stack -> (forall d, In d ds -> (d < 4)%nat) ->
  exists data' stack', foldM (walkDir chf bs hp x y (csCon s)) (map Z.of_nat ds) (data, stack) = Ok (data', stack') /\ winv P data' stack' /\ grows data data' /\
    (length stack' + cnt hp 0 data' = length stack + cnt hp 0 data)%nat /\
    (forall d x' y' j, In d ds -> in_patch hp x' y' -> linked chf d (x + bs) (y + bs) i (x' + bs) (y' + bs) j -> dv data' (idx x' y') <> 0).
Proof.
  intros P x y i s Ip Gs ds. induction ds as [|d ds IH]; intros data stack I Hd.
  - exists data, stack. split; [reflexivity|]. split; [exact I|]. split; [intros a b _ Q; exact Q|]. split; [reflexivity|]. intros d x' y' j [].
  - destruct (walkDir_ok P data stack x y i s d I Ip Gs (Hd d (or_introl eq_refl))) as (d1 & k1 & E1 & I1 & G1 & C1 & L1).
    destruct (IH d1 k1 I1) as (d2 & k2 & E2 & I2 & G2 & C2 & L2); [intros; apply Hd; now right|].
    exists d2, k2. cbn [map foldM]. rewrite E1. cbn [bind]. split; [exact E2|]. split; [exact I2|]. split; [intros a b Pa Q; apply G2; [exact Pa|now apply G1]|]. split; [lia|].
    intros d' x' y' j [<-|J] P' L'; [apply G2; [exact P'|now apply (L1 x' y' j)]|now apply (L2 d' x' y' j)].
Qed.

Variables pcx pcy : Z.
Lemma walkLoop_ok : forall fuel P data stack cur, winv P data stack -> (forall p, In p P -> opened data p) -> (forall p, In p P -> fst p <> (pcx, pcy)) -> (P <> [] -> In cur P) ->
  (length stack + cnt hp 0 data < fuel)%nat ->
  exists data' q, walkLoop fuel chf bs hp pcx pcy data stack cur = Ok (data', q) /\ zlen data' = zlen (hpData hp) /\ (forall k, W * Ht <= k -> dv data' k = dv (hpData hp) k) /\
    start q /\ clos_refl_trans _ (hop chf bs hp) s0 q /\
    (fst q = (pcx, pcy) \/ exists V : Z * Z * Z -> Prop, V s0 /\ V q /\ (forall p, V p -> clos_refl_trans _ (hop chf bs hp) s0 p) /\
       (forall p p', V p -> hop chf bs hp p p' -> exists p'', V p'' /\ fst p'' = fst p') /\ (forall p, V p -> fst p <> (pcx, pcy))).
Proof.
  induction fuel as [|fuel IH]; intros P data stack cur I OP NC CU M; [lia|]. cbn [walkLoop]. destruct stack as [|[[cx cy] ci] stack].
  - assert (IC : In cur P). { apply CU. intros ->. destruct (w_s0 _ _ _ I). }
    exists data, cur. split; [reflexivity|]. split; [apply I|]. split; [apply I|]. destruct (w_tri _ _ _ I cur) as [T1 T2]; [now rewrite app_nil_r|]. split; [exact T1|]. split; [exact T2|].
    right. exists (fun p => In p P). split; [pose proof (w_s0 _ _ _ I) as Q; now rewrite app_nil_r in Q|]. split; [exact IC|]. split; [|split].
    + intros p Q. apply (w_tri _ _ _ I). now rewrite app_nil_r.
    + intros p [[x y] j] Q Hh. assert (P' : in_patch hp x y) by (destruct p as [[a b] c]; apply Hh). destruct (w_mark _ _ _ I x y P' (OP p Q (x, y, j) Hh)) as [k K].
      rewrite app_nil_r in K. exists (x, y, k). now split.
    + exact NC.
  - destruct (w_tri _ _ _ I (cx, cy, ci)) as [[Px SA] R]; [apply in_elt|]. cbn [fst snd] in Px, SA.
    destruct (Z.eqb_spec cx pcx) as [Ex|Nx]; [destruct (Z.eqb_spec cy pcy) as [Ey|Ny]|]; cbn [andb].
    { exists data, (cx, cy, ci). split; [reflexivity|]. split; [apply I|]. split; [apply I|]. split; [now split|]. split; [exact R|]. left. cbn [fst]. congruence. }
    all: destruct (walkDirs_ok cx cy pcx pcy) as (ds & -> & Hds); cbn [bind]; destruct (span_get chf wf _ _ _ SA) as [s Gs]; rewrite Gs; cbn [bind];
      assert (I1 : winv ((cx, cy, ci) :: P) data stack) by
        (destruct I as [I1 I2 I3 I4 I5]; constructor; [exact I1|exact I2| | |];
         [intros p Q; apply I3; rewrite in_app_iff in *; cbn [In] in *; tauto|
          intros a b Pa Q; destruct (I4 a b Pa Q) as [k K]; exists k; rewrite in_app_iff in *; cbn [In] in *; tauto|
          rewrite in_app_iff in *; cbn [In] in *; tauto]);
      destruct (walkDirs_loop ((cx, cy, ci) :: P) cx cy ci s (or_introl eq_refl) Gs ds data stack I1) as (d2 & k2 & E2 & I2 & G2 & C2 & L2); [intros d; apply Hds|];
      rewrite E2; cbn [bind]; apply (IH ((cx, cy, ci) :: P) d2 k2);
      [exact I2|
       intros p [<-|Q]; [intros [[x' y'] j] (P' & d & Hd & L'); apply (L2 d x' y' j); [now apply Hds|exact P'|exact L']|apply (grows_in data); [exact G2|now apply OP]]|
       intros p [<-|Q]; [cbn [fst]; congruence|now apply NC]|
       intros _; now left|cbn [length] in M; lia].
Qed.
End Walk.

Lemma seed_ok : forall data, zlen data = zlen (hpData hp) -> (forall k, W * Ht <= k -> dv data k = dv (hpData hp) k) ->
  ((forall x y i d, near chf poly verts bs hp x y i d -> 65535 <= d) /\ seedArrayWithPolyCenter chf poly verts bs hp data = Panic) \/
  exists x y i data', seedArrayWithPolyCenter chf poly verts bs hp data = Ok (data', [(x + bs, y + bs, i)]) /\
    central chf poly verts bs hp (mean poly verts 0) (mean poly verts 2) (x, y, i) /\
    finv chf bs hp (eq (x, y, i)) (give (fun _ _ => None) x y i) data' [(x + bs, y + bs, i)] (fun _ => False).
Proof.
  intros data L0 R0. unfold seedArrayWithPolyCenter. destruct start_ok as ([[[sx sy] si] dm] & -> & B0 & B). cbn [bind].
  assert (LW : W * Ht <= zlen (hpData hp)) by apply PO.
  destruct B as [(-> & _ & B)|(N1 & Nr & Dm & B)].
  - left. split; [exact B|reflexivity].
  - right. destruct (Z.eqb_spec si (-1)); [contradiction|].
    assert (NE : poly <> []) by (destruct Nr as (p & _ & _ & _ & _ & Q & _); intros ->; destruct Q).
    rewrite (center_ok NE). cbn [bind].
    destruct (fillPatch_ok chf bs hp PO 0 data) as (d0 & -> & L1 & V1 & R1); [lia|]. cbn [bind].
    assert (S0 : start (sx, sy, si)) by (destruct Nr as (p & vx & vy & vz & s & _ & _ & _ & _ & _ & _ & Q1 & Q2 & _); cbn [fst snd]; now split).
    destruct (walkLoop_ok (sx, sy, si) (mean poly verts 0) (mean poly verts 2) (S (S (Z.to_nat (W * Ht)))) [] d0 [(sx, sy, si)] (-1, -1, -1)) as (d1 & [[cx cy] ci] & E1 & L2 & R2 & [P2 SA2] & CL & CN).
    + constructor.
      * congruence.
      * intros k Hk. rewrite R1 by exact Hk. now apply R0.
      * cbn [app]. intros p [<-|[]]. split; [exact S0|apply rt_refl].
      * intros x y P Q. rewrite V1 in Q by (now apply idx_range). congruence.
      * now left.
    + intros p [].
    + intros p [].
    + intros Q; congruence.
    + pose proof (cnt_le hp 0 d0). cbn [length]. lia.
    + rewrite E1. cbn [bind]. cbn [fst snd] in P2, SA2.
      destruct (fillPatch_ok chf bs hp PO 65535 d1) as (d2 & -> & L3 & V3 & R3); [lia|]. cbn [bind].
      destruct (span_get chf wf _ _ _ SA2) as [s Gs]. rewrite Gs. cbn [bind].
      change (patchIdx hp (cx - x0) (cy - y0)) with (idx cx cy). pose proof (idx_range hp _ _ P2) as RI. rewrite set_in_range by lia. cbn [bind].
      exists cx, cy, ci, (upd d2 (Z.to_nat (idx cx cy)) (csY s)). split; [reflexivity|]. split.
      * exists sx, sy, si, dm. split; [exact Nr|]. split; [exact Dm|]. split; [exact B|]. split; [exact CL|]. exact CN.
      * constructor.
        -- rewrite zlen_upd. lia.
        -- intros k Hk. rewrite dv_upd by lia. destruct (Z.eqb_spec k (idx cx cy)); [lia|]. rewrite R3 by exact Hk. now apply R2.
        -- intros x y P. pose proof (idx_range hp _ _ P) as RI'. rewrite dv_upd by lia. destruct (Z.eq_dec x cx) as [Ex|Nx]; [destruct (Z.eq_dec y cy) as [Ey|Ny]|].
           ++ subst x y. rewrite give_eq, Z.eqb_refl. split; [exact SA2|]. exists s. now split.
           ++ rewrite give_ne by congruence. destruct (Z.eqb_spec (idx x y) (idx cx cy)) as [Q|_]; [apply idx_inj in Q; [lia|assumption|assumption]|now apply V3].
           ++ rewrite give_ne by congruence. destruct (Z.eqb_spec (idx x y) (idx cx cy)) as [Q|_]; [apply idx_inj in Q; [lia|assumption|assumption]|now apply V3].
        -- intros x y i Q. assert (x = cx) by congruence. assert (y = cy) by congruence. assert (i = ci) by congruence. subst x y i. split; [exact P2|apply give_eq].
        -- intros x y i [Q|[]]. assert (x = cx) by (assert (cx + bs = x + bs) by congruence; lia). assert (y = cy) by (assert (cy + bs = y + bs) by congruence; lia). assert (i = ci) by congruence. subst x y i.
           split; [exact P2|apply give_eq].
        -- intros x y i P O. destruct (Z.eq_dec x cx) as [Ex|Nx]; [destruct (Z.eq_dec y cy) as [Ey|Ny]|]; [|rewrite give_ne in O by congruence; discriminate|rewrite give_ne in O by congruence; discriminate].
           subst x y. rewrite give_eq in O. left. left. congruence.
        -- intros x y i P O. destruct (Z.eq_dec x cx) as [Ex|Nx]; [destruct (Z.eq_dec y cy) as [Ey|Ny]|]; [|rewrite give_ne in O by congruence; discriminate|rewrite give_ne in O by congruence; discriminate].
           subst x y. rewrite give_eq in O. exists (cx, cy, ci). split; [reflexivity|]. assert (i = ci) by congruence. subst i. apply rt_refl.
Qed.
End Center.
